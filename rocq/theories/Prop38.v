(* Prop38.v -- property C98: which files p1v and p1vt accept.  accepts1, seen1, chain1: Spec30.v; starts: Spec22.v;
   origin_gen: Spec1.v. *)
From Verif Require Import Base Fld IO Ext Toy Spec1 Phase1 Phase1Io Phase1Verify Phase1Facts Phase1Claims Spec21 Spec22 Spec27 Spec30 Vt V1Iff Toy1.

(* f and g are any bytes *)
Theorem C98_p1v : forall (E : Ext) bs (rho : nat -> nat -> nat -> E) f g hs, mexp_strict E -> 1 <= bs ->
  (exec (verify bs rho None) f g = (Ok hs, []) <-> accepts1 f (@origin_gen E) hs).
Proof. exact @v1_iff. Qed.
Print Assumptions C98_p1v.

(* and nothing else, whatever MultiExp does with slices of different lengths *)
Theorem C98_only : forall (E : Ext) bs (rho : nat -> nat -> nat -> E) f g hs, 1 <= bs ->
  fst (exec (verify bs rho None) f g) = Ok hs -> accepts1 f (@origin_gen E) hs.
Proof. exact @v1_none. Qed.
Print Assumptions C98_only.

Theorem C98_p1vt : forall (E : Ext) bs (rho : nat -> nat -> nat -> E) f g hs, mexp_strict E -> 1 <= bs ->
  (exec (verify bs rho (Some true)) f g = (Ok hs, []) <->
   exists q (t a b t2 b2 : E), q <= 55 /\ starts q g t a b t2 b2 /\
     accepts1 f (mkContrib t a b t2 b2 (mkKey 0 0 0) (mkKey 0 0 0) (mkKey 0 0 0) [])%F hs).
Proof. exact @vt1_iff. Qed.
Print Assumptions C98_p1vt.

(* two honest records; the last 30 bytes of the last hash, which are zero here, may be missing, one byte more may not *)
Example C98_case : mexp_strict (Toy true) /\ accepts1 (tfile true) (@origin_gen (Toy true)) (thashes true) /\
  accepts1 (firstn (length (tfile true) - 30) (tfile true)) (@origin_gen (Toy true)) (thashes true) /\ length (thashes true) = 2%nat /\
  ~ accepts1 (firstn (length (tfile true) - 31) (tfile true)) (@origin_gen (Toy true)) (thashes true).
Proof.
  assert (I : forall f, exec (verify 2 (trho true) None) f [] = (Ok (thashes true), []) <-> accepts1 f (@origin_gen (Toy true)) (thashes true))
    by (intros f; apply v1_iff; [exact toy_strict|lia]).
  split; [exact toy_strict|]. split; [apply I; vm_compute; reflexivity|]. split; [apply I; vm_compute; reflexivity|].
  split; [reflexivity|]. rewrite <- I. vm_compute. discriminate.
Qed.

(* 50 bytes of a record: one point, and 18 bytes too few for the next one; the rest stays *)
Example C98_short_case : let a := @idle_rec (Toy true) (z17 true 2) (z17 true 3) (z17 true 4) (z17 true 5) 0 0 0 0 in
  let b := @idle_rec (Toy true) (z17 true 6) (z17 true 7) (z17 true 8) (z17 true 9) 0 0 0 0 in
  let c := mkContrib (c_tau1 b) (c_alpha1 a) (c_beta1 a) (c_tau2 a) (c_beta2 a) (c_kt a) (c_ka a) (c_kb a) (c_hash a) in
  seen1 a (firstn 50 (rec_bytes b)) [c; c] /\ feqb (c_tau1 a) (c_tau1 b) = false.
Proof.
  cbv zeta. split; [|vm_compute; reflexivity].
  apply (seen1_cons _ _ _ []). { 
    apply rec1_part; [|reflexivity].
    match goal with |- points _ ?u _ _ _ => replace u with (firstn 32 u ++ skipn 32 u) by apply firstn_skipn end.
    apply pts_ok; [left; repeat split; vm_compute; reflexivity|exact I|]. apply pts_short. left. vm_compute. lia. }
  apply (seen1_cons _ _ _ []); [|constructor]. apply rec1_part; [|reflexivity]. apply pts_short. left. vm_compute. lia.
Qed.

(* a transformed file with nothing but the five points *)
Example C98_p1vt_case : let c1 (x : Z) := g1c (e := Toy true) (z17 true x) in let c2 (x : Z) := g2c (e := Toy true) (z17 true x) in
  let g := b8 1 :: repeat xff 34 ++ c1 3%Z ++ repeat xff 32 ++ c1 5%Z ++ repeat xff 32 ++ c1 7%Z ++ repeat xff 96 ++ c2 3%Z ++ c2 7%Z in
  let r := continue1 2 (file1 2 (srs_of (E := Toy true) 2 (z17 true 3) (z17 true 5) (z17 true 7)) []) [tw1 true; tw2 true] in
  starts 1 g (z17 true 3) (z17 true 5) (z17 true 7) (z17 true 3) (z17 true 7) /\ length (cer_hashes r) = 2%nat /\
  exec (verify 2 (trho true) (Some true)) (cer_file r) g = (Ok (cer_hashes r), []).
Proof.
  cbv zeta. split; [|split; vm_compute; reflexivity].
  assert (A1 : forall g n (x : Toy true), bytes_eqb (firstn 32 (skipn n g)) (g1c x) = true -> at1 g n [x]).
  { intros g n x H. apply bytes_eqb_true in H. exists (g1c x), (skipn 32 (skipn n g)). split; [rewrite <- H; symmetry; apply firstn_skipn|].
    rewrite <- (app_nil_r (g1c x)). constructor; [apply is1_c|constructor]. }
  assert (A2 : forall g n (x : Toy true), bytes_eqb (firstn 64 (skipn n g)) (g2c x) = true -> at2 g n [x]).
  { intros g n x H. apply bytes_eqb_true in H. exists (g2c x), (skipn 64 (skipn n g)). split; [rewrite <- H; symmetry; apply firstn_skipn|].
    rewrite <- (app_nil_r (g2c x)). constructor; [apply is2_c|constructor]. }
  split; [eexists; reflexivity|]. cbv zeta.
  split; [apply A1; vm_compute; reflexivity|]. split; [apply A1; vm_compute; reflexivity|]. split; [apply A1; vm_compute; reflexivity|].
  split; apply A2; vm_compute; reflexivity.
Qed.
