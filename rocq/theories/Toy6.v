(* Toy6.v -- concrete data for Prop6.v: a two-contribution ceremony of power 2 over the toy field of
   Toy2.v, as written and with one point of the tau2 section in raw form. *)
From Coq Require Import String.
From Verif Require Import Base Fld IO Ext Toy Spec1 Phase1 Phase1Verify Phase1Facts Circuit Gob Fs Spec3 Init2 Init2Pure Toy2 Toy3 Toy1.

Definition dw1 : @rnd1 Toy2 := mkRnd1 (u 3) (u 5) (u 7) (u 2) (u 4) (u 6).
Definition dw2 : @rnd1 Toy2 := mkRnd1 (u 2) (u 5) (u 4) (u 2) (u 3) (u 6).
Definition dsrs : srs Toy2 := srs_of 2 (u 6) (u 8) (u 11).
Definition drecs : list (contrib Toy2) := snd (honest (srs_of 2 (u 1) (u 1) (u 1)) [] [dw1; dw2]).
Definition draw : bytes := phase1_raw 2 (b8 0) (b8 2) dsrs (recs_bytes drecs).
Definition dfs : fs := fset (fset (fun _ => None) r1n [b8 0]) p1n (file1 2 dsrs drecs).
Definition drho : nat -> nat -> nat -> Toy2 := fun a b c => u (Z.of_nat (a + 3 * b + 5 * c + 1)).
Lemma dfile_is : cer_file (ceremony1 2 2 [dw1; dw2]) = file1 2 dsrs drecs.
Proof. apply bytes_eqb_true. vm_compute. reflexivity. Qed.
Lemma dfs_input : init_input 2 dsrs (tcs 0) dfs p1n r1n p2n'.
Proof.
  split; [repeat split; discriminate|].
  split; [split; repeat constructor|].
  split; [vm_compute; repeat split; reflexivity|].
  split; [exists (b8 0), (b8 2), (recs_bytes drecs); apply fset_same|].
  split; [exists [b8 0]; split; [reflexivity|reflexivity]|].
  split; [apply circuit_okb_ok; vm_compute; reflexivity|].
  change (2 ^ 2)%nat with 4%nat. change (kmax Toy2) with 4%nat. change (2 ^ 4)%nat with 16%nat.
  change (length (r_cons (tcs 0))) with 3%nat. lia.
Qed.
Lemma toy2_strict : mexp_strict Toy2.
Proof. exact toy_strict. Qed.
