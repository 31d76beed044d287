(* Toy8.v -- concrete data for Prop9.v: sessions without contributions to one phase, forged proofs for the keys
   of Toy4.v, a phase-2 file with one wrong entry. *)
From Coq Require Import Ring Field String.
From Verif Require Import Base Fld Poly BitRev IO Ext Toy Spec1 Phase1 Phase1Facts Circuit Gob GobLemmas Spec2 Phase2 Phase2Claims Fs Spec3 Init2 Init2Pure Interp
  Toy1 Toy2 Toy3 Spec4 Keys Toy4 Live Spec6 Cli Session Toy7 Spec8.
Local Open Scope fld_scope.

Section Swap.
Context {K : Fld}.
Add Field Kt8 : (f_th K).
Lemma mul_swap (a b c : K) : a * (b * c) = b * (a * c).
Proof. ring. Qed.
End Swap.
(* the values of the Lagrange polynomials of the fourth roots of unity at 3 *)
Definition klag : list Toy2 := [u 10; u 8; u 12; u 5].
Lemma klag_ok : lag_values (2 ^ 2) (root (e := Toy2) 2) (u 3) klag.
Proof.
  split; [reflexivity|]. intros j c Hj [Lc V].
  assert (S : peval c (u 3) = sumn 4 (fun m => nth m klag 0 * peval c (root (e := Toy2) 2 ^ m))).
  { unfold peval. rewrite Lc. change (2 ^ 2)%nat with 4%nat.
    rewrite (sumn_ext _ 4 (fun m => nth m klag 0 * _) (fun m => sumn 4 (fun i => nth m klag 0 * (nth i c 0 * (root (e := Toy2) 2 ^ m) ^ i)))).
    2:{ intros m _. now rewrite sumn_scal. }
    rewrite sumn_swap. apply sumn_ext. intros i Hi.
    rewrite (sumn_ext _ 4 (fun m => nth m klag 0 * (nth i c 0 * _)) (fun m => nth i c 0 * (nth m klag 0 * (root (e := Toy2) 2 ^ m) ^ i))).
    2:{ intros m _. apply mul_swap. }
    rewrite sumn_scal. f_equal.
    assert (i = 0 \/ i = 1 \/ i = 2 \/ i = 3)%nat as [->|[->|[->| ->]]] by lia; by17. }
  rewrite S. change (2 ^ 2)%nat with 4%nat in *.
  rewrite (sumn_ext _ 4 (fun m => _ * peval c _) (fun m => nth m klag 0 * (if (m =? j)%nat then 1 else 0))).
  2:{ intros m Hm. now rewrite V. }
  assert (j = 0 \/ j = 1 \/ j = 2 \/ j = 3)%nat as [->|[->|[->| ->]]] by lia; by17.
Qed.
Lemma kpair : is_keypair (tcs 0) 2 (root (e := Toy2) 2) (u 5) (u 7) (u 4) (u 3) kpk kvk.
Proof.
  exists klag. split; [exact klag_ok|].
  assert (X : forall l l' : list Toy2, map (zv 17) l = map (zv 17) l' -> l = l').
  { induction l as [|a l IH]; intros [|b l'] H; try discriminate; [reflexivity|]. cbn [map] in H. injection H as H1 H2. f_equal; [now apply Zp_ext|auto]. }
  repeat (split; [first [reflexivity|apply X; vm_compute; reflexivity]|]). split.
  - intros i r Hi [R M]. assert (i = 0 \/ i = 1 \/ i = 2)%nat as [->|[->| ->]] by (cbn in Hi; lia);
    (assert (r = 0 \/ r = 1 \/ r = 2 \/ r = 3)%nat as [->|[->|[->| ->]]] by (cbn in R; lia));
    pose proof (M 0%nat ltac:(lia)) as M0; pose proof (M 1%nat ltac:(lia)) as M1; try discriminate M0; try discriminate M1;
    cbn [nth_error kpk q_Z]; f_equal; by17.
  - repeat (split; [first [reflexivity|apply X; vm_compute; reflexivity]|]). reflexivity.
Qed.
(* C64 *)
Definition wlines1 : list (line Toy2) :=
  mkLine i0 "p1n" ["2"; "p1"]%string :: chain "p1c" ivs1 "p1" p1s ++ [mkLine i0 "p1v" ["p1b"]%string;
  mkLine i0 "p2n" ["p1b"; "r1cs"; "p2"]%string; mkLine i0 "key" ["p2"]%string].
Definition wlines2 : list (line Toy2) :=
  mkLine i0 "p1n" ["2"; "p1"]%string :: mkLine i0 "p2n" ["p1"; "r1cs"; "p2"]%string :: chain "p2c" ivs2 "p2" p2s ++
  [mkLine i0 "p2v" ["p2b"; "p2"]%string; mkLine i0 "key" ["p2b"]%string].
(* C67: kF with the last entry of Z wrong: 14 for 9 *)
Definition kF0 : bytes := file2 kh kq0 [].
Definition kFx : bytes := file2 (set_contribs kh 2) (mkPar2 (u 4) (u 4) [u 3; u 10; u 14] [u 8; u 7; u 15; u 6]) (snd (honest2 kq0 [] kws)).
(* C65: prover randomness 2 and 3 *)
Lemma kforged : proves_tau kpk (tcs 0) 2 (root (e := Toy2) 2) kbad (u 3) (u 2) (u 3) (u 5) (u 9) (u 8).
Proof.
  exists [u 0; u 15; u 8; u 13], [u 10; u 11; u 9; u 7], [u 1; u 13; u 0; u 9].
  assert (V : forall n, (n < 4 -> n = 0 \/ n = 1 \/ n = 2 \/ n = 3)%nat) by lia.
  split; [split; [reflexivity|intros i Hi; destruct (V i Hi) as [->|[->|[->| ->]]]; by17]|].
  split; [split; [reflexivity|intros i Hi; destruct (V i Hi) as [->|[->|[->| ->]]]; by17]|].
  split; [split; [reflexivity|intros i Hi; destruct (V i Hi) as [->|[->|[->| ->]]]; by17]|].
  cbv zeta. split; [by17|]. split; by17.
Qed.
