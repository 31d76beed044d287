(* Toy9.v -- concrete data for Prop10.v: a ceremony that starts from a powers-of-tau file, a phase-1 file and
   evaluations replaced by someone else. *)
From Coq Require Import String.
From Verif Require Import Base Fld IO Ext Toy Spec1 Phase1 Phase1Verify Phase1Facts Circuit Gob Spec2 Fs Spec3 Init2 Toy1 Toy2 Toy3 Spec4 Keys Toy4 Live Spec6 Cli Session Toy7 Spec9.
Local Open Scope string_scope.

(* C68: tau 2, alpha 3, beta 2 in the file of power 3; the contributors bring them to 3, 5 and 7 *)
Definition xppot : bytes := ppot (repeat (b8 7) 64) (srs_of 3 (u 2) (u 3) (u 2)) [b8 1; b8 2].
Definition xfs : fs := fset wfs "pot" xppot.
Definition ivs3 : list (inv Toy2) := [inv_of 5 13 1 1 1; inv_of 2 1 12 1 1].
Definition xlines : list (line Toy2) :=
  mkLine i0 "p1t" ["pot"; "p1"; "3"; "2"] :: chain "p1c" ivs3 "p1" p1s ++ mkLine i0 "p1vt" ["p1b"; "p1"] ::
  mkLine i0 "p2n" ["p1b"; "r1cs"; "p2"] :: chain "p2c" ivs2 "p2" p2s ++
  [mkLine i0 "p2v" ["p2b"; "p2"]; mkLine i0 "keys" ["p2b"; "s"]; mkLine i0 "sol" ["s"]].
Lemma num3 : numeral "3" 3.
Proof. split; [lia|]. left. apply (decimal1 _ 3). split; [lia|reflexivity]. Qed.
Lemma sol_all c i (w : vkey Toy2) : v_sol i0 (vk_bytes c i w) <> None.
Proof.
  assert (L : List.length (vk_bytes c i w) <> 0%nat) by (unfold vk_bytes; rewrite !app_length, (g1r_len Toy2); lia).
  change (v_sol i0) with (fun b : bytes => match b with [] => None | _ => Some (firstn 3 b) end). cbv beta.
  destruct (vk_bytes c i w); [now destruct (L eq_refl)|discriminate].
Qed.
(* C69: tau 10, alpha 13, beta 7 contributed; tau 3 and alpha 5 put in their place *)
Definition ivs4 : list (inv Toy2) := [inv_of 5 13 1 1 1; inv_of 2 1 7 1 1].
Definition xlines1 : list (line Toy2) := mkLine i0 "p1n" ["2"; "p1"] :: chain "p1c" ivs4 "p1" p1s.
Definition xlines2 : list (line Toy2) :=
  mkLine i0 "p1v" ["p1b"] :: mkLine i0 "p2n" ["p1b"; "r1cs"; "p2"] :: chain "p2c" ivs2 "p2" p2s ++
  [mkLine i0 "p2v" ["p2b"; "p2"]; mkLine i0 "key" ["p2b"]].
Definition contents_of (f : fs) (p : string) : bytes := match f p with Some b => b | None => [] end.
Definition xf1 : fs := snd (session no_limit 2 xlines1 wfs).
Definition xF1 : bytes := contents_of xf1 "p1b".
(* header, new parameters, the records *)
Definition xrigged : bytes :=
  firstn 3 xF1 ++ srs_bytes (rig 2 (u 3) (u 5) (srs_of 2 (u 10) (u 13) (u 7))) ++ skipn (3 + List.length (srs_bytes (srs_of 2 (u 10) (u 13) (u 7)))) xF1.
(* C50: evaluations for six wires made of nothing but ones, alpha 2, beta 3 *)
Definition xones : list Toy2 := repeat (u 1) 6.
Definition xevals : evals Toy2 := mkEvals (u 2) (u 3) (u 3) xones xones xones [u 1; u 1] [] [].
Definition xlines3 : list (line Toy2) :=
  mkLine i0 "p1n" ["2"; "p1"] :: chain "p1c" ivs1 "p1" p1s ++ mkLine i0 "p1v" ["p1b"] ::
  mkLine i0 "p2n" ["p1b"; "r1cs"; "p2"] :: chain "p2c" ivs2 "p2" p2s.
Definition xf2 : fs := fset (snd (session no_limit 2 xlines3 wfs)) evals_path (evals_bytes xevals).
Lemma xfile : exists l, xF1 = file1 2 (srs_of 2 (u 10) (u 13) (u 7)) l.
Proof.
  exists (snd (honest (srs_of 2 (u 1) (u 1) (u 1)) [] (map v_w ivs4))). vm_compute. reflexivity.
Qed.
Lemma xrigged_is l : xF1 = file1 2 (srs_of 2 (u 10) (u 13) (u 7)) l -> xrigged = file1 2 (rig 2 (u 3) (u 5) (srs_of 2 (u 10) (u 13) (u 7))) l.
Proof.
  intros H. unfold xrigged. rewrite H. unfold file1. generalize (srs_bytes (rig 2 (u 3) (u 5) (srs_of 2 (u 10) (u 13) (u 7)))).
  generalize (srs_bytes (srs_of (E := Toy2) 2 (u 10) (u 13) (u 7))). intros a b.
  pose proof (hdr1_length 2 (List.length l)) as L.
  rewrite firstn_app, L, firstn_all2 by lia. cbn [Nat.sub firstn]. rewrite app_nil_r. f_equal. f_equal.
  rewrite app_assoc, skipn_app, skipn_all2, !app_length, L by (rewrite app_length, L; lia). rewrite Nat.sub_diag. reflexivity.
Qed.
