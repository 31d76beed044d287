(* Toy4.v -- concrete data for Prop4.v: keys for the circuit and parameters of Toy3.v. *)
From Coq Require Import String.
From Verif Require Import Base Fld Poly BitRev IO Ext Toy Spec1 Phase1 Phase1Facts Circuit Gob GobLemmas Spec2 Phase2Claims Fs Spec3 Init2 Init2Pure
  Toy1 Toy2 Toy3 Spec4 Keys.

(* phase-2 contributions with secrets 3 and 7, product 4 *)
Definition kws : list (Toy2 * Toy2) := [(u 3, u 5); (u 7, u 2)].
Definition kh : hdr := mkHdr 6 4 2 0 3 4 0.
Definition kq0 : par2 Toy2 := mkPar2 (u 1) (u 1) [u 12; u 6; u 2] [u 15; u 11; u 9; u 7].
Lemma k_unsplit j : 1 <= j <= 2 -> unsplit (set_contribs kh (Z.of_nat j)) kq0 j.
Proof.
  intros Hj i Hi. assert (j = 1 \/ j = 2) as [-> | ->] by lia.
  - destruct i as [|i]; [|lia]. apply tle. vm_compute. reflexivity.
  - destruct i as [|[|i]]; [| |lia]; apply tle; vm_compute; reflexivity.
Qed.
Definition kfa : fs := snd (p2n (E := Toy2) p1n r1n p2n' (tfs 0)).
Definition kF : bytes := cer_file (ceremony2 (E := Toy2) 2 (file2 kh kq0 []) kws).
Definition pzn : string := "phase2-2"%string.
Definition kfs : fs := fset kfa pzn kF.
(* the keys for trapdoor alpha 5, beta 7, gamma 1, delta 4, tau 3 *)
Definition kpk : pkey Toy2 := mkPk (u 5) (u 7) (u 4) [u 0; u 0; u 11; u 9; u 12; u 12] [u 12; u 0; u 8; u 10; u 0; u 0]
  [u 3; u 10; u 9] [u 8; u 7; u 15; u 6] (u 7) (u 4) [u 12; u 0; u 8; u 10; u 0; u 0].
Definition kvk : vkey Toy2 := mkVk (u 5) (u 7) (u 7) (u 4) (u 4) [u 9; u 12] [].
Definition has (f : fs) (p : string) (b : bytes) : bool := match f p with Some c => bytes_eqb c b | None => false end.

(* evals of a circuit with 3 wires and a phase-2 file for it *)
Definition kv : evals Toy2 := mkEvals (u 5) (u 7) (u 7) [u 1; u 2; u 3] [u 4; u 5; u 6] [u 4; u 5; u 6] [u 9; u 12] [u 3] [b8 1].
Definition kfile : bytes := file2 (mkHdr 3 2 1 0 1 2 0) (mkPar2 (u 4) (u 4) [u 9] [u 1; u 2]) [].

(* x = 2, y = 3, out = 14 *)
Definition kx (i : nat) : Toy2 := nth i [u 1; u 14; u 2; u 3; u 6; u 2] (u 0).
Definition kbad (i : nat) : Toy2 := nth i [u 1; u 13; u 2; u 3; u 6; u 2] (u 0).
Ltac by17 := apply Zp_ext; vm_compute; reflexivity.
Lemma kx_sat : satisfies (tcs 0) kx.
Proof. intros c H. change (In c tcons) in H. destruct H as [<-|[<-|[<-|[]]]]; by17. Qed.
Lemma kbad_sat : ~ satisfies (tcs 0) kbad.
Proof. intros H. specialize (H (mkR1c [mkTerm 1 4; mkTerm 4 2; mkTerm 1 5] [mkTerm 1 0] [mkTerm 1 1]) ltac:(right; right; left; reflexivity)). revert H. fld_neq. Qed.
Lemma all17 (P : F17 -> bool) : forallb (fun n => P (f17 (Z.of_nat n))) (seq 0 17) = true -> forall y, P y = true.
Proof.
  intros H y. rewrite forallb_forall in H. pose proof (toy_range y) as R.
  assert (Y : y = f17 (Z.of_nat (Z.to_nat (zv 17 y)))).
  { apply Zp_ext. cbn. rewrite Z2Nat.id by lia. symmetry. apply Z.mod_small. exact R. }
  rewrite Y. apply H. apply in_seq. lia.
Qed.
Lemma kquot : quotient (tcs 0) kx (2 ^ 2) (root (e := Toy2) 2) [u 14; u 3; u 6].
Proof.
  split; [reflexivity|]. exists [u 0; u 15; u 8; u 13], [u 10; u 11; u 9; u 7], [u 14; u 0; u 13; u 13].
  assert (V : forall n, n < 4 -> n = 0 \/ n = 1 \/ n = 2 \/ n = 3) by lia.
  split; [split; [reflexivity|intros i Hi; destruct (V i Hi) as [->|[->|[->| ->]]]; by17]|].
  split; [split; [reflexivity|intros i Hi; destruct (V i Hi) as [->|[->|[->| ->]]]; by17]|].
  split; [split; [reflexivity|intros i Hi; destruct (V i Hi) as [->|[->|[->| ->]]]; by17]|].
  intros y. apply (feqb_ok F17). revert y.
  apply (all17 (fun y => feqb (f := F17) (fsub (f := F17) (fmul (f := F17) (peval (K := F17) [u 0; u 15; u 8; u 13] y) (peval (K := F17) [u 10; u 11; u 9; u 7] y)) (peval (K := F17) [u 14; u 0; u 13; u 13] y))
    (fmul (f := F17) (peval (K := F17) [u 14; u 3; u 6] y) (fsub (f := F17) (fpow (K := F17) y (2 ^ 2)) f1)))).
  vm_compute. reflexivity.
Qed.
(* prover randomness 2 and 3 *)
Lemma kproves : proves kpk (tcs 0) 2 kx [u 14; u 3; u 6] (u 2) (u 3) (u 5) (u 9) (u 5).
Proof.
  exists (u 10). split; [|split; [by17|split; [by17|by17]]].
  exists (fun i => match i with 1 => 2 | 2 => 1 | _ => i end). split; [|by17].
  assert (V : forall n, n < 2 ^ 2 -> n = 0 \/ n = 1 \/ n = 2 \/ n = 3) by (cbn; lia).
  intros i Hi. destruct (V i Hi) as [->|[->|[->| ->]]]; (split; [cbn; lia|]);
    (intros [|[|b]] Hb; [reflexivity|reflexivity|lia]).
Qed.

(* two circuits in one directory *)
Definition r2n : string := "circuit2"%string.
Definition p2n'' : string := "phase2b"%string.
Definition tfs2 : fs := fset (tfs 0) r2n [b8 1].
Lemma tfs2_input1 : init_input 2 tsrs (tcs 0) tfs2 p1n r1n p2n'.
Proof. destruct (tfs_input 0 ltac:(lia)) as [H1 [H2 [H3 [H4 [H5 H6]]]]]. repeat (split; [assumption|]). exact H6. Qed.
Lemma tfs2_input2 : init_input 2 tsrs (tcs 1) tfs2 p1n r2n p2n''.
Proof.
  destruct (tfs_input 1 ltac:(lia)) as [H1 [H2 [H3 [H4 [H5 H6]]]]]. split; [repeat split; discriminate|].
  split; [assumption|]. split; [assumption|]. split; [assumption|]. split; [|exact H6]. exists [b8 1]. split; reflexivity.
Qed.
