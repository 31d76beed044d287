(* Prop20.v -- property C81: the prover may use every point that any file or record of the ceremony ever held, and
   the secrets of all contributors but one in each phase.  ceremony_accepts p cs k x ca cb cc l1 l2: after the
   ceremony with contributors l1 and l2, the proof whose points have coefficients ca, cb, cc in everything shown is
   accepted for the public inputs in x.  with1 w1, with2 w2: the honest contributors; their challenge points are
   arbitrary values fixed beforehand (hash values).  more m P: P holds for more than m values. *)
From Verif Require Import Base Fld IO Ext Toy Spec1 Gob GobLemmas Circuit Spec2 Phase2 Spec3 Spec4 Toy1 Toy2 Toy3 Toy4 Toy8 Spec13 Generic Toy15 Spec16 Transcript Toy16.
Local Open Scope fld_scope.

Theorem C81_ceremony : forall (E : Ext2) p k (cs : r1cs E) pre1 post1 w1 pre2 post2 w2, 1 <= p -> 1 <= k <= kmax E ->
  Forall nonzero1 (pre1 ++ post1) -> Forall (fun w => u_d w <> 0) (pre2 ++ post2) -> forall x, (length (r_cons cs) <= 2 ^ k)%nat -> forall ca cb cc,
  more (2 * 2 ^ k - 2) (fun tau => more 3 (fun delta => delta <> 0 /\ more 2 (fun beta => more 2 (fun alpha =>
    ceremony_accepts p cs k x ca cb cc (pre1 ++ with1 w1 tau alpha beta :: post1) (pre2 ++ with2 w2 delta :: post2))))) ->
  exists y, satisfies cs y /\ forall i, (i < nb_public cs)%nat -> y i = x i.
Proof. exact @ceremony_sound. Qed.
Print Assumptions C81_ceremony.

(* in a finite field: a false statement is accepted for at most (2 2^k + 5) |F|^3 of the honest secrets *)
Theorem C81_few_ceremonies : forall (E : Ext2) (all : list E), NoDup all -> (forall y, In y all) ->
  forall p k (cs : r1cs E) pre1 post1 w1 pre2 post2 w2 x ca cb cc (l : list (E * (E * (E * E)))),
  1 <= p -> 1 <= k <= kmax E -> Forall nonzero1 (pre1 ++ post1) -> Forall (fun w => u_d w <> 0) (pre2 ++ post2) -> (length (r_cons cs) <= 2 ^ k)%nat ->
  ~ (exists y, satisfies cs y /\ forall i, (i < nb_public cs)%nat -> y i = x i) -> NoDup l ->
  (forall tau delta beta alpha, In (tau, (delta, (beta, alpha))) l -> delta <> 0 /\
    ceremony_accepts p cs k x ca cb cc (pre1 ++ with1 w1 tau alpha beta :: post1) (pre2 ++ with2 w2 delta :: post2)) ->
  (length l <= (2 * 2 ^ k + 5) * length all ^ 3)%nat.
Proof. exact @few_ceremonies. Qed.
Print Assumptions C81_few_ceremonies.

(* where the witness is, in terms of the points of the keys, K and Z before phase 2, and alpha in G2 *)
Theorem C81_witness : forall (E : Ext2) p k (cs : r1cs E) x ca cb cc, 1 <= k <= kmax E -> (length (r_cons cs) <= 2 ^ k)%nat ->
  more (2 * 2 ^ k - 2) (fun tau => more 3 (fun delta => delta <> 0 /\ more 2 (fun beta => more 2 (fun alpha =>
    convinces_more p cs k x ca cb cc alpha beta delta tau)))) ->
  satisfies cs (extracted p cs k x cc).
Proof. exact @sound2. Qed.
Print Assumptions C81_witness.

(* and a true statement has a proof, whoever contributes *)
Theorem C81_honest : forall (E : Ext2) p k (cs : r1cs E) x n1 n2, 1 <= k <= kmax E -> (length (r_cons cs) <= 2 ^ k)%nat -> satisfies cs x ->
  exists ca cb cc, forall l1 l2, length l1 = n1 -> length l2 = n2 -> ceremony_delta l2 <> 0 -> ceremony_accepts p cs k x ca cb cc l1 l2.
Proof. exact @ceremony_honest. Qed.
Print Assumptions C81_honest.

(* the points of the records (Spec1, Spec2) are among those shown *)
Theorem C81_records : forall (E : Ext2) (w : who1 E) (w' : who2 E) s d1 prev,
  u_rt w = chal (u_st w) (u_t w * u_st w) prev 1 -> u_ra w = chal (u_sa w) (u_a w * u_sa w) prev 2 -> u_rb w = chal (u_sb w) (u_b w * u_sb w) prev 3 ->
  u_r w' = chal (u_s w') (u_d w' * u_s w') prev 1 ->
  (forall y, In (inl y) (rec_vals (new_rec (u_t w) (u_a w) (u_b w) (u_st w) (u_sa w) (u_sb w) s prev)) -> In y (rec1_1 w s)) /\
  (forall y, In (inr y) (rec_vals (new_rec (u_t w) (u_a w) (u_b w) (u_st w) (u_sa w) (u_sb w) s prev)) -> In y (rec1_2 w s)) /\
  (forall y, In (inl y) (rec2_vals (new_rec2 (u_d w') (u_s w') d1 prev)) -> In y [d1; u_s w'; u_d w' * u_s w']) /\
  (forall y, In (inr y) (rec2_vals (new_rec2 (u_d w') (u_s w') d1 prev)) -> In y [u_r w'; u_d w' * u_r w']).
Proof. exact @record_points. Qed.
Print Assumptions C81_records.

(* three contributors in phase 1 and two in phase 2, of whom the second are honest; squares in the field of 17
   elements: a proof that 13 is a square is found for every ceremony, and that 3 is one for some *)
Example C81_case : 1 <= 1 <= kmax Toy2 /\ (length (r_cons sq) <= 2 ^ 1)%nat /\
  Forall nonzero1 ([tw 2 3 4] ++ [tw 5 6 7]) /\ Forall (fun w => u_d w <> 0) ([tv 2] ++ []) /\ satisfies sq xsq /\
  (exists ca cb cc, more 2 (fun tau => more 3 (fun delta => delta <> 0 /\ more 2 (fun beta => more 2 (fun alpha =>
    ceremony_accepts 2 sq 1 xsq ca cb cc ([tw 2 3 4] ++ with1 (tw 0 0 0) tau alpha beta :: [tw 5 6 7]) ([tv 2] ++ with2 (tv 0) delta :: [])))))) /\
  ~ (exists y, satisfies sq y /\ forall i, (i < nb_public sq)%nat -> y i = xno i) /\ NoDup f17s /\ (forall y, In y f17s) /\
  (exists a, forall tau delta beta alpha, In (tau, (delta, (beta, alpha))) [(u 3, (u 4, (u 7, u 5)))] -> delta <> 0 /\
    ceremony_accepts 2 sq 1 xno [a] [1] [] ([tw 2 3 4] ++ with1 (tw 0 0 0) tau alpha beta :: [tw 5 6 7]) ([tv 2] ++ with2 (tv 0) delta :: [])).
Proof.
  assert (K : 1 <= 1 <= kmax Toy2) by (vm_compute; lia). assert (L : (length (r_cons sq) <= 2 ^ 1)%nat) by (vm_compute; lia).
  split; [exact K|]. split; [exact L|]. split; [exact tw_nz|]. split; [exact tv_nz|]. split; [exact xsq_sat|]. split.
  - destruct (C81_honest Toy2 2 1 sq xsq 3 2 K L xsq_sat) as [ca [cb [cc H]]]. exists ca, cb, cc.
    apply more17; [lia|]. intros tau. apply more16; [lia|]. intros d D. split; [exact D|]. apply more17; [lia|]. intros b. apply more17; [lia|].
    intros a. apply H; [reflexivity|reflexivity|]. intros X. change (u 2 * (d * (1 : Toy2)) = 0) in X.
    apply fmul_0_iff in X. destruct X as [X|X]; [revert X; fld_neq|]. apply fmul_0_iff in X. destruct X as [X|X]; [exact (D X)|exact (f1_neq_0 Toy2 X)].
  - split; [exact xno_false|]. split; [exact f17s_nodup|]. split; [exact f17s_full|].
    destruct (lucky 1 sq xno ([tw 2 3 4] ++ with1 (tw 0 0 0) (u 3) (u 5) (u 7) :: [tw 5 6 7]) ([tv 2] ++ with2 (tv 0) (u 4) :: []) K) as [a H]. exists a.
    intros tau d b al [X|[]]. injection X as <- <- <- <-. split; [fld_neq|exact H].
Qed.
