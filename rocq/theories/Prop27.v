(* Prop27.v -- property C88: what p1vt takes from the transformed file.  starts is in Spec22.v, sized, cut and ppot in
   Spec1.v. *)
From Verif Require Import Base Fld IO Ext Toy Spec1 Phase1 Phase1Io Phase1Verify Phase1Facts Phase1Claims Spec21 Spec22 Vt Toy1.

(* whatever p1vt accepts, the transformed file has the five points *)
Theorem C88_needs : forall (E : Ext) bs (rho : nat -> nat -> nat -> E) f g hs O, 1 <= bs ->
  exec (verify bs rho (Some true)) f g = (Ok hs, O) ->
  exists q (t a b t2 b2 : E), q <= 55 /\ starts q g t a b t2 b2.
Proof. exact @vt_needs. Qed.
Print Assumptions C88_needs.

(* and nothing but these points counts *)
Theorem C88_same : forall (E : Ext) bs (rho : nat -> nat -> nat -> E) f g g' q q' (t a b t2 b2 : E) hs,
  mexp_strict E -> 1 <= bs -> q <= 55 -> q' <= 55 -> starts q g t a b t2 b2 -> starts q' g' t a b t2 b2 ->
  (exec (verify bs rho (Some true)) f g = (Ok hs, []) <-> exec (verify bs rho (Some true)) f g' = (Ok hs, [])).
Proof. exact @vt_same. Qed.
Print Assumptions C88_same.

(* so a ceremony of power b is accepted with a transformed file of another power *)
Theorem C88_power_refuted : forall (E : Ext) bs a b b' h (s : srs E) junk (ws : list (@rnd1 E)),
  mexp_strict E -> 2 <= bs -> 1 <= b <= a -> 1 <= b' <= a -> a <= 54 ->
  sized a s -> length h = 64%nat -> firsts_ok bs (cut b s) -> ws <> [] -> length ws <= N.to_nat 65535 ->
  exists g g' f hs, exec (transform (E := E) (b8 (N.of_nat a)) (b8 (N.of_nat b))) (ppot h s junk) [] = (Ok tt, g) /\
    exec (transform (E := E) (b8 (N.of_nat a)) (b8 (N.of_nat b'))) (ppot h s junk) [] = (Ok tt, g') /\
    continue1 bs g ws = Ok (f, hs) /\ length hs = length ws /\
    forall bs' (rho : nat -> nat -> nat -> E), 1 <= bs' -> exec (verify bs' rho (Some true)) f g' = (Ok hs, []).
Proof. exact @vt_power. Qed.
Print Assumptions C88_power_refuted.

(* if the first record's keys are not the identity, the five points are determined by the file that is checked *)
Theorem C88_origin : forall (E : Ext) bs (rho rho' : nat -> nat -> nat -> E) f g g' q q' (t a b t2 b2 t' a' b' t2' b2' : E) p (s : srs E)
    (c : contrib E) l hs hs',
  mexp_strict E -> 1 <= bs -> p <= 62 -> length (c :: l) < N.to_nat 65536 -> is_file1 f p s (c :: l) ->
  kSX (c_kt c) <> 0%F -> kSX (c_kb c) <> 0%F -> kSPX (c_kt c) <> 0%F -> kSPX (c_ka c) <> 0%F -> kSPX (c_kb c) <> 0%F ->
  q <= 55 -> q' <= 55 -> starts q g t a b t2 b2 -> starts q' g' t' a' b' t2' b2' ->
  exec (verify bs rho (Some true)) f g = (Ok hs, []) -> exec (verify bs rho' (Some true)) f g' = (Ok hs', []) ->
  t = t' /\ a = a' /\ b = b' /\ t2 = t2' /\ b2 = b2'.
Proof. exact @vt_origin. Qed.
Print Assumptions C88_origin.

(* and p1v accepts it as well only if they are the generators *)
Theorem C88_p1v : forall (E : Ext) bs (rho rho' : nat -> nat -> nat -> E) f g g' q (t a b t2 b2 : E) p (s : srs E) (c : contrib E) l hs hs',
  mexp_strict E -> 1 <= bs -> p <= 62 -> length (c :: l) < N.to_nat 65536 -> is_file1 f p s (c :: l) ->
  kSX (c_kt c) <> 0%F -> kSX (c_kb c) <> 0%F -> kSPX (c_kt c) <> 0%F -> kSPX (c_ka c) <> 0%F -> kSPX (c_kb c) <> 0%F ->
  q <= 55 -> starts q g t a b t2 b2 ->
  exec (verify bs rho (Some true)) f g = (Ok hs, []) -> exec (verify bs rho' None) f g' = (Ok hs', []) ->
  t = 1%F /\ a = 1%F /\ b = 1%F /\ t2 = 1%F /\ b2 = 1%F.
Proof. exact @vt_and_v. Qed.
Print Assumptions C88_p1v.

Example C88_case_origin : let s0 := srs_of (E := Toy true) 2 (z17 true 3) (z17 true 5) (z17 true 7) in
  let f := cer_file (continue1 2 (file1 2 s0 []) [tw1 true; tw2 true]) in
  exists (s : srs (Toy true)) (c : contrib (Toy true)) l, is_file1 f 2 s (c :: l) /\ length l = 1%nat /\
  map (fun x => feqb x 0%F) [kSX (c_kt c); kSX (c_kb c); kSPX (c_kt c); kSPX (c_ka c); kSPX (c_kb c)] = repeat false 5.
Proof.
  cbv zeta. set (s0 := srs_of (E := Toy true) 2 (z17 true 3) (z17 true 5) (z17 true 7)).
  set (x := honest s0 [] [tw1 true; tw2 true]). exists (fst x), (hd zero_contrib (snd x)), (tl (snd x)). split; [|split; vm_compute; reflexivity].
  assert (Q : cer_file (continue1 2 (file1 2 s0 []) [tw1 true; tw2 true]) = file1 2 (fst x) (hd zero_contrib (snd x) :: tl (snd x))) by (vm_compute; reflexivity).
  rewrite Q. apply file1_is0; [repeat split; vm_compute; reflexivity|].
  assert (L : forallb (fun c => Nat.eqb (length (c_hash c)) 32) (hd zero_contrib (snd x) :: tl (snd x)) = true) by (vm_compute; reflexivity).
  intros c H. apply Nat.eqb_eq. exact (proj1 (forallb_forall _ _) L c H).
Qed.

(* two contributions to power 2, checked against power 1, against a file of five points and other bytes, and against a
   file in which one of the five points is another one *)
Example C88_case : let T := ppot (repeat x00 64) (srs_of 3 (z17 true 3) (z17 true 5) (z17 true 7)) [] in
  let g2 := out_of (exec (transform (E := Toy true) (b8 3) (b8 2)) T []) in
  let g1 := out_of (exec (transform (E := Toy true) (b8 3) (b8 1)) T []) in
  let c1 (x : Z) := g1c (e := Toy true) (z17 true x) in let c2 (x : Z) := g2c (e := Toy true) (z17 true x) in
  let five (x : Z) := b8 1 :: repeat xff 34 ++ c1 x ++ repeat xff 32 ++ c1 5%Z ++ repeat xff 32 ++ c1 7%Z ++ repeat xff 96 ++ c2 3%Z ++ c2 7%Z in
  let r := continue1 2 g2 [tw1 true; tw2 true] in
  let ok g := fst (exec (verify 2 (trho true) (Some true)) (cer_file r) g) in
  length (cer_hashes r) = 2%nat /\ ok g2 = Ok (cer_hashes r) /\ ok g1 = Ok (cer_hashes r) /\ ok (five 3%Z) = Ok (cer_hashes r) /\
  ok (five 4%Z) = Err EUpdTau1.
Proof. vm_compute. repeat split. Qed.
