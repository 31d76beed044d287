(* Toy18.v -- concrete data for Prop22.v: a phase-1 file whose alpha section was changed so that the right sides
   of the first two constraints of the circuit of Toy3.v are compared. *)
From Coq Require Import String.
From Verif Require Import Base Fld Poly BitRev IO Ext Toy Spec1 Phase1 Phase1Verify Phase1Facts Circuit Gob Spec2 Fs Spec3 Init2 Toy1 Toy2 Toy3 Spec4 Keys Toy4 Live Spec6 Cli Session Toy7 Spec9 Toy9 Spec17.
Local Open Scope fld_scope.

Definition yS : srs Toy2 := srs_of 2 (u 10) (u 13) (u 7).
Definition yS' : srs Toy2 := nudge (2 ^ 2) (root (e := Toy2) 2) (against (2 ^ 2) 0 1) yS.
Definition ynudged : bytes := firstn 3 xF1 ++ srs_bytes yS' ++ skipn (3 + List.length (srs_bytes yS)) xF1.
Lemma ynudged_is l : xF1 = file1 2 yS l -> ynudged = file1 2 yS' l.
Proof.
  intros H. unfold ynudged. rewrite H. unfold file1. generalize (srs_bytes yS'). generalize (srs_bytes yS). intros a b.
  pose proof (hdr1_length 2 (List.length l)) as L.
  rewrite firstn_app, L, firstn_all2 by lia. cbn [Nat.sub firstn]. rewrite app_nil_r. f_equal. f_equal.
  rewrite app_assoc, skipn_app, skipn_all2, !app_length, L by (rewrite app_length, L; lia). rewrite Nat.sub_diag. reflexivity.
Qed.
(* the keys *)
Definition ypk : pkey Toy2 := mkPk (u 13) (u 7) (u 4) [u 0; u 0; u 6; u 16; u 15; u 15] [u 15; u 0; u 1; u 10; u 0; u 0]
  [u 5; u 7; u 16] [u 5; u 14; u 16; u 1] (u 7) (u 4) [u 15; u 0; u 1; u 10; u 0; u 0].
Definition yvk : vkey Toy2 := mkVk (u 13) (u 7) (u 7) (u 4) (u 4) [u 8; u 15] [].
(* x = 2, y = 2, out = 14 *)
Definition kz (i : nat) : Toy2 := nth i [u 1; u 14; u 2; u 2; u 4; u 4] (u 0).
Lemma kzquot : quotient (tcs 0) kz (2 ^ 2) (root (e := Toy2) 2) [u 2; u 16; u 13].
Proof.
  split; [reflexivity|]. exists [u 13; u 16; u 12; u 12], [u 14; u 15; u 13; u 11], [u 14; u 10; u 12; u 2].
  assert (V : forall n, (n < 4 -> n = 0 \/ n = 1 \/ n = 2 \/ n = 3)%nat) by lia.
  split; [split; [reflexivity|intros i Hi; destruct (V i Hi) as [->|[->|[->| ->]]]; by17]|].
  split; [split; [reflexivity|intros i Hi; destruct (V i Hi) as [->|[->|[->| ->]]]; by17]|].
  split; [split; [reflexivity|intros i Hi; destruct (V i Hi) as [->|[->|[->| ->]]]; by17]|].
  intros y. apply (feqb_ok F17). revert y.
  apply (all17 (fun y => feqb (f := F17) (fsub (f := F17) (fmul (f := F17) (peval (K := F17) [u 13; u 16; u 12; u 12] y) (peval (K := F17) [u 14; u 15; u 13; u 11] y)) (peval (K := F17) [u 14; u 10; u 12; u 2] y))
    (fmul (f := F17) (peval (K := F17) [u 2; u 16; u 13] y) (fsub (f := F17) (fpow (K := F17) y (2 ^ 2)) f1)))).
  vm_compute. reflexivity.
Qed.
(* prover randomness 2 and 3 *)
Lemma yswap : forall i, (i < 2 ^ 2)%nat -> mirrors 2 i (match i with 1%nat => 2%nat | 2%nat => 1%nat | _ => i end).
Proof.
  assert (V : forall n, (n < 2 ^ 2 -> n = 0 \/ n = 1 \/ n = 2 \/ n = 3)%nat) by (cbn; lia).
  intros i Hi. destruct (V i Hi) as [->|[->|[->| ->]]]; (split; [cbn; lia|]);
    (intros [|[|b]] Hb; [reflexivity|reflexivity|lia]).
Qed.
Lemma yproves_x : proves ypk (tcs 0) 2 kx [u 14; u 3; u 6] (u 2) (u 3) (u 14) (u 15) (u 1).
Proof. exists (u 7). split; [|split; [by17|split; [by17|by17]]]. eexists. split; [exact yswap|by17]. Qed.
Lemma yproves_z : proves ypk (tcs 0) 2 kz [u 2; u 16; u 13] (u 2) (u 3) (u 15) (u 5) (u 1).
Proof. exists (u 0). split; [|split; [by17|split; [by17|by17]]]. eexists. split; [exact yswap|by17]. Qed.
