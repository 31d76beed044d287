(* Toy16.v -- a ceremony of three and two contributors, and a circuit for squares, in which 3 is not one. *)
From Verif Require Import Base Fld IO Ext Toy Spec1 Gob GobLemmas Circuit Spec2 Phase2 Spec3 Spec4 Toy1 Toy2 Toy3 Toy4 Toy8 Spec13 Generic Toy15 Spec16 Transcript.
Local Open Scope fld_scope.
Definition sq : r1cs Toy2 := mkR1cs 2 1 0 [mkR1c [mkTerm 1 2] [mkTerm 1 2] [mkTerm 1 1]] [] (mkCmt [] 0 0).
Definition xsq (i : nat) : Toy2 := nth i [u 1; u 13; u 8] (u 0).
Definition xno (i : nat) : Toy2 := nth i [u 1; u 3] (u 0).
Lemma xsq_sat : satisfies sq xsq.
Proof. intros c [<-|[]]. by17. Qed.
Section Ring.
Add Field Ksq : (f_th Toy2).
Lemma sq_eq y : satisfies sq y -> y 2%nat * y 2%nat = y 1%nat.
Proof.
  intros H. specialize (H _ (or_introl eq_refl)). cbn [r_L r_R r_O] in H. unfold Spec4.lin, entry in H. change (wires sq) with 3%nat in H.
  rewrite !sumn_S, !sumn_0 in H. cbn [map t_wire t_coeff Nat.eqb cval fsum fold_right] in H.
  unfold fsum in H. cbn [fold_right] in H. match type of H with ?l = ?r => transitivity l; [ring|]; transitivity r; [exact H|ring] end.
Qed.
End Ring.
Lemma xno_false : ~ exists y, satisfies sq y /\ forall i, (i < nb_public sq)%nat -> y i = xno i.
Proof.
  intros [y [H X]]. apply sq_eq in H. rewrite (X 1%nat) in H by (cbn; lia). generalize dependent (y 2%nat). intros b H.
  pose proof (f17s_full b) as I. apply (in_map (fun b : Toy2 => zv 17 (fmul (f := Toy2) b b))) in I. rewrite H in I. vm_compute in I.
  repeat (destruct I as [I|I]; [discriminate I|]). destruct I.
Qed.
Section Any.
Context {E : Ext2}.
Add Field Kany : (f_th E).
Lemma one_coeff (c y : E) l : comb [c] (y :: l) = c * y.
Proof.
  change (comb_at 0 [c] ([y] ++ l) = c * y). rewrite comb_app, comb_one. cbn [nth length Nat.add].
  assert (X : comb_at 1 [c] l = 0). { unfold comb_at. apply sumn_zero. intros i _. rewrite nth_overflow by (cbn; lia). ring. }
  rewrite X. ring.
Qed.
Lemma no_coeff (l : list E) : comb [] l = 0.
Proof. unfold comb. apply sumn_zero. intros [|i] _; cbn [nth]; ring. Qed.
(* every ceremony has a constant A that makes the proof A, 1, 0 acceptable *)
Lemma lucky k (cs : r1cs E) x l1 l2 : 1 <= k <= kmax E -> exists a, ceremony_accepts 2 cs k x [a] [1] [] l1 l2.
Proof.
  intros Hk. destruct (keypair_ex k cs Hk (ceremony_alpha l1) (ceremony_beta l1) (ceremony_delta l2) (ceremony_tau l1)) as [q [v KP]].
  destruct (keypair_ex k cs Hk (ceremony_alpha l1) (ceremony_beta l1) 1 (ceremony_tau l1)) as [q1 [v1 KP1]].
  exists (w_alpha v * w_beta2 v + sumn (nb_public cs) (fun i => x i * nth i (w_K v) 0)). exists q, v, q1, v1. split; [exact KP|]. split; [exact KP1|].
  assert (S1 : exists r, shown1 2 l1 l2 q v q1 = 1 :: r) by (destruct l1; eexists; reflexivity).
  assert (S2 : exists r, shown2 2 l1 l2 q q1 = 1 :: r) by (destruct l1; eexists; reflexivity).
  destruct S1 as [r1 ->]. destruct S2 as [r2 ->]. unfold accepts. rewrite !one_coeff, no_coeff. ring.
Qed.
End Any.
Definition tw (t a b : Z) : who1 Toy2 := mkWho1 (u t) (u a) (u b) (u 3) (u 5) (u 7) (u 2) (u 9) (u 4).
Definition tv (d : Z) : who2 Toy2 := mkWho2 (u d) (u 6) (u 11).
Lemma tw_nz : Forall nonzero1 ([tw 2 3 4] ++ [tw 5 6 7]).
Proof. repeat constructor; fld_neq. Qed.
Lemma tv_nz : Forall (fun w => u_d w <> 0) ([tv 2] ++ []).
Proof. repeat constructor; fld_neq. Qed.
