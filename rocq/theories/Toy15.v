(* Toy15.v -- concrete data for Prop17.v: the keys of Toy4.v. *)
From Verif Require Import Base Fld IO Ext Toy Spec1 Gob GobLemmas Circuit Spec2 Phase2 Spec3 Spec4 Toy1 Toy2 Toy3 Toy4 Toy8 Spec13 Generic.
Local Open Scope fld_scope.

Definition f17s : list Toy2 := map (fun n => u (Z.of_nat n)) (seq 0 17).
Lemma f17s_nodup : NoDup f17s.
Proof.
  apply (NoDup_map_inv (zv 17)). vm_compute. repeat (constructor; [intros H; repeat (destruct H as [H|H]; [discriminate H|]); destruct H|]). constructor.
Qed.
Lemma f17s_full (y : Toy2) : In y f17s.
Proof.
  pose proof (toy_range y) as R. assert (Y : y = u (Z.of_nat (Z.to_nat (zv 17 y)))).
  { apply Zp_ext. cbn. rewrite Z2Nat.id by lia. symmetry. apply Z.mod_small. exact R. }
  rewrite Y. apply (in_map (fun n => u (Z.of_nat n))). apply in_seq. lia.
Qed.
Definition units17 : list Toy2 := tl f17s.
Lemma units17_nz y : In y units17 -> y <> 0.
Proof. intros H ->. apply (in_map (zv 17)) in H. vm_compute in H. repeat (destruct H as [H|H]; [discriminate H|]). destruct H. Qed.
Lemma more17 m (P : Toy2 -> Prop) : (m < 17)%nat -> (forall y, P y) -> more m P.
Proof. intros L H. exists f17s. split; [exact f17s_nodup|]. split; [exact L|auto]. Qed.
Lemma more16 m (P : Toy2 -> Prop) : (m < 16)%nat -> (forall y, y <> 0 -> P y) -> more m P.
Proof.
  intros L H. exists units17. pose proof f17s_nodup as N. split; [now inversion N|]. split; [exact L|]. intros y Hy. now apply H, units17_nz.
Qed.
(* without the trapdoor (5, 7, 4, 3): A = 13, B = 1, C = 0 *)
Lemma kluck : convinces 2 (tcs 0) 2 kbad [u 13] [u 1] [] (u 5) (u 7) (u 4) (u 3).
Proof. exists kpk, kvk. split; [exact kpair|]. by17. Qed.
Lemma kluck_bad : ~ satisfies (tcs 0) (extracted 2 (tcs 0) 2 kbad []).
Proof. intros H. specialize (H (mkR1c [mkTerm 1 4; mkTerm 4 2; mkTerm 1 5] [mkTerm 1 0] [mkTerm 1 1]) ltac:(right; right; left; reflexivity)). revert H. fld_neq. Qed.
