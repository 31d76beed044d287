(* Toy23.v -- concrete data for Prop43.v: the file kF of Toy4.v with 1 added to the point of x in PKK and subtracted from
   that of y. *)
From Coq Require Import String.
From Verif Require Import Base Fld Poly BitRev IO Ext Toy Spec1 Phase1 Circuit Gob Spec2 Phase2Claims Fs Spec3 Init2 Toy1 Toy2 Toy3 Spec4 Keys Toy4 Toy8 Toy18 Spec34.
Local Open Scope fld_scope.

Definition nd : list Toy2 := [u 1; u 16; u 0; u 0].
Definition nrecs : list (contrib2 Toy2) := snd (honest2 kq0 [] kws).
Definition nF : bytes := file2 (set_contribs kh 2) (tilt nd (upd_par2 (u 4) kq0)) nrecs.
(* what p2n wrote, without its last byte *)
Definition nF0 : bytes := firstn (List.length kF0 - 1) kF0.
Definition npk : pkey Toy2 := mkPk (u 5) (u 7) (u 4) [u 0; u 0; u 11; u 9; u 12; u 12] [u 12; u 0; u 8; u 10; u 0; u 0]
  [u 3; u 10; u 9] [u 9; u 6; u 15; u 6] (u 7) (u 4) [u 12; u 0; u 8; u 10; u 0; u 0].
(* prover randomness 2 and 3 *)
Lemma nproves_x : proves npk (tcs 0) 2 kx [u 14; u 3; u 6] (u 2) (u 3) (u 5) (u 9) (u 4).
Proof. exists (u 10). split; [|split; [by17|split; [by17|by17]]]. eexists. split; [exact yswap|by17]. Qed.
Lemma nproves_z : proves npk (tcs 0) 2 kz [u 2; u 16; u 13] (u 2) (u 3) (u 13) (u 16) (u 16).
Proof. exists (u 8). split; [|split; [by17|split; [by17|by17]]]. eexists. split; [exact yswap|by17]. Qed.
