(* Toy20.v -- concrete data for Prop26.v: a file that starts with a point of G2 whose first bytes are a point of G1. *)
From Verif Require Import Base Fld IO Ext Toy Spec1 Phase1 Phase1Verify Spec21 Toy1.

Definition both : bytes := g2c (e := Toy true) (1 : Toy true)%F ++ g1c (e := Toy true) (1 : Toy true)%F.
Lemma toy_start : start_holds (E := Toy true) both (srs_of 0 (z17 true 3) (1 : Toy true)%F (1 : Toy true)%F).
Proof.
  assert (A : forall n x, n <= 64 -> is1 (E := Toy true) (firstn 32 (skipn n both)) x -> at1 both n [x]).
  { intros n x L H. exists (firstn 32 (skipn n both)), (skipn 32 (skipn n both)). split; [now rewrite firstn_skipn|].
    rewrite <- (app_nil_r (firstn _ _)). constructor; [exact H|constructor]. }
  assert (B : forall x, is2 (E := Toy true) (firstn 64 both) x -> at2 both 0 [x]).
  { intros x H. exists (firstn 64 both), (skipn 64 both). split; [now rewrite firstn_skipn|].
    rewrite <- (app_nil_r (firstn _ _)). constructor; [exact H|constructor]. }
  unfold start_holds, srs_of. cbn [tau1 alpha1 beta1 tau2 beta2 seq map].
  split; [|split; [|split; [|split]]].
  - apply A; [lia|]. left. repeat split; vm_compute; reflexivity.
  - apply B. left. repeat split; vm_compute; reflexivity.
  - apply A; [lia|]. left. repeat split; vm_compute; reflexivity.
  - apply A; [lia|]. left. repeat split; vm_compute; reflexivity.
  - apply B. left. repeat split; vm_compute; reflexivity.
Qed.
