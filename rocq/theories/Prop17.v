(* Prop17.v -- property C79: an accepted proof whose points are fixed linear combinations of the published points
   contains a satisfying assignment.  more m P: P holds for more than m values; convinces p cs k x ca cb cc alpha
   beta delta tau: with the keys for this trapdoor, the proof whose points have coefficients ca, cb, cc in the
   published points is accepted for the public inputs in x; extracted: these public inputs and the prover's
   coefficients of K.  k is the logarithm of the domain size, p the power. *)
From Verif Require Import Base Fld IO Ext Toy Spec1 Gob GobLemmas Circuit Spec2 Phase2 Spec3 Spec4 Toy1 Toy2 Toy3 Toy4 Toy8 Spec13 Generic Toy15.
Local Open Scope fld_scope.

Theorem C79_witness : forall (E : Ext2) p k (cs : r1cs E) x ca cb cc, 1 <= k <= kmax E -> (length (r_cons cs) <= 2 ^ k)%nat ->
  more (2 * 2 ^ k - 2) (fun tau => more 3 (fun delta => delta <> 0 /\ more 2 (fun beta => more 1 (fun alpha =>
    convinces p cs k x ca cb cc alpha beta delta tau)))) ->
  satisfies cs (extracted p cs k x cc).
Proof. exact @sound. Qed.
Print Assumptions C79_witness.

(* the secrets of one contributor are enough, whatever the products of the others *)
Theorem C79_one_honest : forall (E : Ext2) p k (cs : r1cs E) x ca cb cc (t a b d : E), 1 <= k <= kmax E -> (length (r_cons cs) <= 2 ^ k)%nat ->
  t <> 0 -> a <> 0 -> b <> 0 -> d <> 0 ->
  more (2 * 2 ^ k - 2) (fun tau => more 3 (fun delta => delta <> 0 /\ more 2 (fun beta => more 1 (fun alpha =>
    convinces p cs k x ca cb cc (a * alpha) (b * beta) (d * delta) (t * tau))))) ->
  satisfies cs (extracted p cs k x cc).
Proof. exact @one_honest. Qed.
Print Assumptions C79_one_honest.

(* in a finite field: otherwise it is accepted for at most (2 2^k + 4) |F|^3 of the (|F| - 1) |F|^3 trapdoors *)
Theorem C79_few_trapdoors : forall (E : Ext2) (all : list E), NoDup all -> (forall y, In y all) ->
  forall p k (cs : r1cs E) x ca cb cc (l : list (E * (E * (E * E)))), 1 <= k <= kmax E -> (length (r_cons cs) <= 2 ^ k)%nat ->
  ~ satisfies cs (extracted p cs k x cc) -> NoDup l ->
  (forall tau delta beta alpha, In (tau, (delta, (beta, alpha))) l -> delta <> 0 /\ convinces p cs k x ca cb cc alpha beta delta tau) ->
  (length l <= (2 * 2 ^ k + 4) * length all ^ 3)%nat.
Proof. exact @few_trapdoors. Qed.
Print Assumptions C79_few_trapdoors.

(* with a satisfying assignment there are coefficients that are accepted for every trapdoor *)
Theorem C79_honest : forall (E : Ext2) p k (cs : r1cs E) x, 1 <= k <= kmax E -> (length (r_cons cs) <= 2 ^ k)%nat ->
  satisfies cs x -> exists ca cb cc,
  (forall i, (i < wires cs)%nat -> extracted p cs k x cc i = x i) /\
  forall alpha beta delta tau, delta <> 0 -> convinces p cs k x ca cb cc alpha beta delta tau.
Proof. exact @honest_convinces. Qed.
Print Assumptions C79_honest.

(* a trapdoor has exactly one key pair *)
Theorem C79_keypair_unique : forall (E : Ext2) k (cs : r1cs E) alpha beta delta tau, 1 <= k <= kmax E ->
  (exists q v, is_keypair cs k (root k) alpha beta delta tau q v) /\
  forall q v q' v', is_keypair cs k (root k) alpha beta delta tau q v -> is_keypair cs k (root k) alpha beta delta tau q' v' ->
  q = q' /\ v = v'.
Proof. exact @keypair_exactly_one. Qed.
Print Assumptions C79_keypair_unique.

(* 6 < 17 values of tau, and so on; the proof with A = 13, B = 1, C = 0 is accepted for one trapdoor at least *)
Example C79_case : 1 <= 2 <= kmax Toy2 /\ (length (r_cons (tcs 0)) <= 2 ^ 2)%nat /\ satisfies (tcs 0) kx /\ ~ satisfies (tcs 0) kbad /\
  (exists ca cb cc, more 6 (fun tau => more 3 (fun delta => delta <> 0 /\ more 2 (fun beta => more 1 (fun alpha =>
    convinces 2 (tcs 0) 2 kx ca cb cc alpha beta delta tau)))) /\ satisfies (tcs 0) (extracted 2 (tcs 0) 2 kx cc)) /\
  NoDup f17s /\ (forall y, In y f17s) /\
  convinces 2 (tcs 0) 2 kbad [u 13] [u 1] [] (u 5) (u 7) (u 4) (u 3) /\ ~ satisfies (tcs 0) (extracted 2 (tcs 0) 2 kbad []) /\
  is_keypair (tcs 0) 2 (root (e := Toy2) 2) (u 5) (u 7) (u 4) (u 3) kpk kvk.
Proof.
  assert (K : 1 <= 2 <= kmax Toy2) by (vm_compute; lia). assert (L : (length (r_cons (tcs 0)) <= 2 ^ 2)%nat) by (vm_compute; lia).
  split; [exact K|]. split; [exact L|]. split; [exact kx_sat|]. split; [exact kbad_sat|]. split.
  - destruct (C79_honest Toy2 2 2 (tcs 0) kx K L kx_sat) as [ca [cb [cc [X H]]]]. exists ca, cb, cc.
    assert (M : more 6 (fun tau => more 3 (fun delta => delta <> 0 /\ more 2 (fun beta => more 1 (fun alpha =>
      convinces 2 (tcs 0) 2 kx ca cb cc alpha beta delta tau))))).
    { apply more17; [lia|]. intros tau. apply more16; [lia|]. intros d D. split; [exact D|]. apply more17; [lia|]. intros b. apply more17; [lia|].
      intros a. now apply H. }
    split; [exact M|]. exact (C79_witness Toy2 2 2 (tcs 0) kx ca cb cc K L M).
  - split; [exact f17s_nodup|]. split; [exact f17s_full|]. split; [exact kluck|]. split; [exact kluck_bad|exact kpair].
Qed.
