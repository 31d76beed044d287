(* Origin2.v -- what p2v does with the file it is given as origin. *)
From Coq Require Import Ring Field.
From Verif Require Import Base Fld IO Ext Spec1 Phase1 Phase1Io Phase1Verify Phase1Trans Phase1Facts Phase1Inv Phase1Claims Gob GobLemmas Circuit Spec2 Phase2 Phase2Io Phase2Lemmas Phase2Claims Phase2More Spec3 Spec4.
Local Open Scope fld_scope.
Local Open Scope io_scope.

Section Origin2.
Context {E : Ext2}.
Add Field Eor2 : (f_th E).

(* the records are read from the input alone *)
Lemma uses_chain2 : forall n (x pd : E) ph, uses false (verify_chain2 n x pd ph).
Proof.
  induction n as [|n IH]; intros x pd ph; cbn [verify_chain2]; [exact I|]. apply uses_bind.
  - unfold read_contrib2. do 3 (apply uses_bind; [apply uses_decode1|]; intros ?). apply uses_bind; [apply uses_decode2|]; intros ?.
    cbn. split; auto. intros []; exact I.
  - intros c. destruct (verify_contrib2 c pd ph); [exact I|]. apply uses_bind; [apply IH|]. intros [? ?]. exact I.
Qed.
Lemma quiet_chain2 : forall n (x pd : E) ph, quiet (verify_chain2 n x pd ph).
Proof.
  induction n as [|n IH]; intros x pd ph; cbn [verify_chain2]; [exact I|]. apply quiet_bind.
  - unfold read_contrib2. do 3 (apply quiet_bind; [apply quiet_decode1|]; intros ?). apply quiet_bind; [apply quiet_decode2|]; intros ?.
    cbn. intros []; exact I.
  - intros c. destruct (verify_contrib2 c pd ph); [exact I|]. apply quiet_bind; [apply IH|]. intros [? ?]. exact I.
Qed.

Lemma origin_bytes bs (rho : nat -> nat -> nat -> E) F G G' h ho ho' (q qo : par2 E) : 1 <= bs -> ph2 F h q -> ph2 G ho qo -> ph2 G' ho' qo ->
  set_contribs ho 0 = set_contribs ho' 0 -> exec (verify2 bs rho) F G = exec (verify2 bs rho) F G'.
Proof.
  intros B [H1 [H2 [pb [jk [HF HP]]]]] [G1 [G2 [pb1 [jk1 [HG HP1]]]]] [G3 [G4 [pb2 [jk2 [HG' HP2]]]]] HE.
  set (tl := '(delta, hs) <- verify_chain2 (Z.to_nat (h_contribs h)) 0 (p_d1 qo) [] ;;
       require (feqb delta (p_d1 q)) ELastDelta ;;; Ret hs).
  set (st0 := setr false (at_ F defBuf (length (gob_hdr h) + length pb) jk) (opened F, opened G)).
  destruct (run tl st0) as [[r s1] w] eqn:R.
  assert (U : uses false tl) by (apply uses_bind; [apply uses_chain2|]; intros [? ?]; unfold require; destruct (feqb _ _); exact I).
  assert (Q : quiet tl) by (apply quiet_bind; [apply quiet_chain2|]; intros [? ?]; unfold require; destruct (feqb _ _); exact I).
  assert (T : forall st, getr false st = at_ F defBuf (length (gob_hdr h) + length pb) jk -> exists s', ev tl st r s' none).
  { intros st G0. destruct (uses_same false _ U st0 st r s1 w) as [s2 [R2 _]]; [unfold st0; now rewrite getr_setr|exact R|].
    pose proof (quiet_run _ Q st) as Z. rewrite R2 in Z. cbn in Z. subst w. exists s2, []. split; [exact R2|]. intros o. reflexivity. }
  destruct (verify2_gen bs rho F G h ho q qo pb pb1 jk jk1 (opened F, opened G) r B H1 G1 HF HG HP HP1 H2 G2 eq_refl eq_refl T) as [s2 V1].
  destruct (verify2_gen bs rho F G' h ho' q qo pb pb2 jk jk2 (opened F, opened G') r B H1 G3 HF HG' HP HP2 H2 G4 eq_refl eq_refl T) as [s3 V2].
  apply ev_exec in V1, V2. rewrite V1, V2.
  replace (hdr_eqb h ho') with (hdr_eqb h ho); [reflexivity|].
  unfold hdr_eqb. unfold set_contribs in HE. injection HE as -> -> -> -> -> ->. reflexivity.
Qed.

Lemma honest2_prefix : forall ws (q : par2 E) l, exists t, snd (honest2 q l ws) = l ++ t.
Proof.
  induction ws as [|w ws IH]; intros q l; cbn [honest2]; [exists []; cbn; now rewrite app_nil_r|].
  destruct (IH (upd_par2 (fst w) q) (l ++ [new_rec2 (fst w) (snd w) (fst w * p_d1 q) (last_hash2 l)])) as [t ->].
  rewrite <- app_assoc. eauto.
Qed.

(* an honest chain that starts at q, checked against the origin upd_par2 y q *)
Lemma other_origin bs (rho : nat -> nat -> nat -> E) h n (q : par2 E) (d s : E) ws y : (forall w, In w ((d, s) :: ws) -> fst w <> 0) -> y <> 0 -> p_d1 q <> 0 ->
  chal s (d * s) [] 1 <> 0 ->
  let r := honest2 q [] ((d, s) :: ws) in
  verdict2 bs rho (set_contribs h (Z.of_nat (length ((d, s) :: ws)))) (set_contribs h n) (fst r) (upd_par2 y q) (snd r) =
    if feqb y 1 then Ok (map d_hash (snd r)) else Err EUpdDelta.
Proof.
  intros NZ Y Q0 R0 r. assert (d0 : d <> 0) by (apply (NZ (d, s)); now left).
  assert (D0 := prodf_nz _ NZ). set (D := prodf ((d, s) :: ws)) in *.
  assert (P : fst r = upd_par2 D q) by (unfold r, D; apply honest2_par).
  unfold verdict2. cbn [set_contribs h_contribs].
  destruct (Z.eqb_spec (Z.of_nat (length ((d, s) :: ws))) 0); [cbn in *; lia|].
  change (mkHdr _ _ _ _ _ _ n) with (set_contribs h n).
  change (mkHdr _ _ _ _ _ _ (Z.of_nat (length ((d, s) :: ws)))) with (set_contribs h (Z.of_nat (length ((d, s) :: ws)))).
  rewrite hdr_eqb_refl. cbn [negb]. unfold same_ratio. rewrite P. cbn [upd_par2 p_d1 p_d2 p_Z p_K].
  replace (feqb (y * p_d1 q * (D * p_d2 q)) (D * p_d1 q * (y * p_d2 q))) with true by (symmetry; apply feqb_ok; ring).
  assert (EQ : forall k (L : list E), feqb (agg bs (rho k) (map (fun x => x / D) L) * (D * p_d2 q)) (agg bs (rho k) (map (fun x => x / y) L) * (y * p_d2 q)) = true).
  { intros k L. apply feqb_ok. rewrite !(ltac:(intros; ring) : forall a b : E, a * (b * p_d2 q) = a * b * p_d2 q), !agg_div by auto. reflexivity. }
  rewrite !EQ. cbn [negb].
  destruct (feqb y 1) eqn:Y1.
  - apply feqb_ok in Y1. subst y. rewrite (ltac:(ring) : 1 * p_d1 q = p_d1 q).
    destruct (honest2_chain (p_d1 q) ((d, s) :: ws) q [] eq_refl eq_refl) as [C L]. fold r in C, L. rewrite C.
    assert (LL : last (map d_delta (snd r)) 0 = D * p_d1 q).
    { rewrite P in L. cbn [upd_par2 p_d1] in L. rewrite <- L. pose proof (honest2_len ((d, s) :: ws) q []) as Len. fold r in Len.
      destruct (snd r) as [|c l']; [cbn in Len; discriminate|]. cbn [map]. now rewrite !last_cons. }
    now rewrite LL, feqb_refl.
  - unfold r. cbn [honest2 fst snd app].
    destruct (honest2_prefix ws (upd_par2 d q) [new_rec2 d s (d * p_d1 q) (last_hash2 (E := E) [])]) as [t ->].
    cbn [app chain2_err]. change (last_hash2 (E := E) []) with (@nil byte).
    unfold verify_contrib2, new_rec2. cbn [d_key d_delta mk_key kS kSX kSPX]. change (@gen_sp E) with (@chal E). unfold same_ratio.
    rewrite (proj2 (feqb_ok _ _ _)) by ring. cbn [check].
    destruct (feqb (d * p_d1 q * _) _) eqn:X; [|reflexivity]. exfalso. apply feqb_ok in X.
    assert (y = 1); [|subst y; rewrite feqb_refl in Y1; discriminate].
    apply (fmul_cancel_l _ (p_d1 q * d * chal s (d * s) [] 1)); [repeat apply fmul_neq0; auto|].
    symmetry. transitivity (d * p_d1 q * chal s (d * s) [] 1); [ring|]. rewrite X. ring.
Qed.

Lemma upd_par2_comp (x y : E) q : x <> 0 -> y <> 0 -> upd_par2 y (upd_par2 x q) = upd_par2 (y * x) q.
Proof.
  intros X Y. unfold upd_par2. cbn [p_d1 p_d2 p_Z p_K]. f_equal; [ring|ring| |]; rewrite map_map; apply map_ext; intros z; field; auto.
Qed.
Lemma upd_par2_one (q : par2 E) : upd_par2 1 q = q.
Proof.
  destruct q as [a b z k]. unfold upd_par2. cbn [p_d1 p_d2 p_Z p_K].
  assert (M : forall l : list E, map (fun x => x / 1) l = l).
  { intros l. rewrite <- (map_id l) at 2. apply map_ext. intros w. field. apply (F_1_neq_0 (f_th E)). }
  rewrite !M. f_equal; ring.
Qed.
Lemma prodf_app (a b : list (E * E)) : prodf (a ++ b) = prodf a * prodf b.
Proof.
  unfold prodf. induction a as [|x a IH]; cbn [app map].
  - change (prodl (map fst b) = 1 * prodl (map fst b)). ring.
  - change (fst x * prodl (map fst (a ++ b)) = fst x * prodl (map fst a) * prodl (map fst b)). rewrite IH. ring.
Qed.
Lemma is_file2_ph2 f h (q : par2 E) l : hdr_ok h -> is_file2 f h q l -> ph2 f h q.
Proof. intros H [pb [rb [jk [-> [P [S _]]]]]]. split; [exact H|]. split; [exact S|]. exists pb, (rb ++ jk). auto. Qed.
Lemma verify2_ph2 bs (rho : nat -> nat -> nat -> E) f g h ho (q qo : par2 E) l : 1 <= bs -> hdr_ok h -> is_file2 f h q l -> ph2 g ho qo ->
  exec (verify2 bs rho) f g = (verdict2 bs rho h ho q qo l, []).
Proof.
  intros B H F [Ho [Sz [pb [junk [Eg P]]]]].
  destruct (verify2_ev bs rho f g h ho q qo pb junk l (opened f, opened g) B H Ho F Eg P Sz eq_refl eq_refl) as [s' Q].
  apply ev_exec in Q. exact Q.
Qed.

(* the honest file against an earlier one of the same ceremony *)
Lemma intermediate bs f1 h (q : par2 E) (d s : E) ws1 ws2 :
  let ws := ((d, s) :: ws1) ++ ws2 in
  1 <= bs -> hdr_ok h -> h_contribs h = 0%Z -> is_file2 f1 h q [] ->
  (Z.of_nat (length ws) < 9223372036854775808)%Z ->
  (forall j, (1 <= j <= length ws)%nat -> unsplit (set_contribs h (Z.of_nat j)) q j) ->
  (forall w, In w ws -> fst w <> 0) -> p_d1 q <> 0 -> chal s (d * s) [] 1 <> 0 ->
  exists m hs1 f hs, ceremony2 bs f1 ((d, s) :: ws1) = Ok (m, hs1) /\ ceremony2 bs f1 ws = Ok (f, hs) /\
    forall bs' (rho : nat -> nat -> nat -> E), 1 <= bs' ->
      (prodf ((d, s) :: ws1) = 1 -> exec (verify2 bs' rho) f m = (Ok hs, [])) /\
      (prodf ((d, s) :: ws1) <> 1 -> exec (verify2 bs' rho) f m = (Err EUpdDelta, [])).
Proof.
  intros ws B HO H0 F Bd U NZ Q0 R0.
  assert (Len : length ws = (length ((d, s) :: ws1) + length ws2)%nat) by apply app_length.
  destruct (ceremony2_result bs f1 h q ((d, s) :: ws1) B HO H0 F) as [M1 [M2 M3]]; [lia|discriminate|intros j J; apply U; lia|].
  destruct (ceremony2_result bs f1 h q ws B HO H0 F Bd) as [R1 [R2 R3]]; [discriminate|exact U|].
  do 4 eexists. split; [exact M1|]. split; [exact R1|]. intros bs' rho B'.
  assert (V := verify2_ph2 bs' rho _ _ _ _ _ _ _ B' R3 R2 (is_file2_ph2 _ _ _ _ M3 M2)).
  rewrite (honest2_par ((d, s) :: ws1) q []) in V at 2.
  assert (X0 : prodf ((d, s) :: ws1) <> 0) by (apply prodf_nz; intros w Hw; apply NZ, in_or_app; now left).
  change ws with ((d, s) :: (ws1 ++ ws2)) in V, NZ |- *. rewrite (other_origin bs' rho h _ q d s (ws1 ++ ws2) _ NZ X0 Q0 R0) in V. rewrite V.
  split; intros X.
  - now rewrite X, feqb_refl.
  - destruct (feqb (prodf ((d, s) :: ws1)) 1) eqn:Y; [apply feqb_ok in Y; contradiction|reflexivity].
Qed.

(* a file of the ceremony whose records were taken away: what is contributed to it is accepted with the file itself as origin *)
Lemma restart bs f1 h (q : par2 E) ws1 (d s : E) ws2 :
  1 <= bs -> hdr_ok h -> h_contribs h = 0%Z -> is_file2 f1 h q [] -> ws1 <> [] ->
  (Z.of_nat (length ws1) < 9223372036854775808)%Z -> (Z.of_nat (length ((d, s) :: ws2)) < 9223372036854775808)%Z ->
  (forall j, (1 <= j <= length ws1)%nat -> unsplit (set_contribs h (Z.of_nat j)) q j) ->
  (forall j, (1 <= j <= length ((d, s) :: ws2))%nat -> unsplit (set_contribs h (Z.of_nat j)) q j) ->
  (forall w, In w (ws1 ++ (d, s) :: ws2) -> fst w <> 0) -> p_d1 q <> 0 -> chal s (d * s) [] 1 <> 0 ->
  exists m hs1 f hs2, ceremony2 bs f1 ws1 = Ok (m, hs1) /\
    ceremony2 bs (file2 h (upd_par2 (prodf ws1) q) []) ((d, s) :: ws2) = Ok (f, hs2) /\ length hs2 = S (length ws2) /\
    (exists l, f = file2 (set_contribs h (Z.of_nat (S (length ws2)))) (upd_par2 (prodf (ws1 ++ (d, s) :: ws2)) q) l) /\
    forall bs' (rho : nat -> nat -> nat -> E), 1 <= bs' -> exec (verify2 bs' rho) f m = (Ok hs2, []) /\
      (prodf ws1 <> 1 -> exec (verify2 bs' rho) f f1 = (Err EUpdDelta, [])).
Proof.
  intros B HO H0 F Ne Bd1 Bd2 U1 U2 NZ Q0 R0.
  assert (Hh : set_contribs h 0 = h) by (destruct h; cbn in *; now subst).
  assert (Sz : sized2 h q) by (destruct F as [? [? [? [? [? [S0 _]]]]]]; exact S0).
  destruct (ceremony2_result bs f1 h q ws1 B HO H0 F Bd1 Ne U1) as [M1 [M2 M3]].
  set (x := prodf ws1) in *. assert (X0 : x <> 0) by (apply prodf_nz; intros w Hw; apply NZ, in_or_app; now left).
  assert (NZ2 : forall w, In w ((d, s) :: ws2) -> fst w <> 0) by (intros w Hw; apply NZ, in_or_app; now right).
  assert (F' : is_file2 (file2 h (upd_par2 x q) []) h (upd_par2 x q) []).
  { rewrite <- (app_nil_r (file2 _ _ _)). apply file2_is; [rewrite <- Hh; now apply sized2_upd|now rewrite H0|intros c []|intros i Hi; cbn in Hi; lia]. }
  destruct (ceremony2_result bs _ h (upd_par2 x q) ((d, s) :: ws2) B HO H0 F' Bd2) as [R1 [R2 R3]]; [discriminate|intros j J; now apply unsplit_upd, U2|].
  do 4 eexists. split; [exact M1|]. split; [exact R1|]. split; [rewrite map_length; apply (honest2_len ((d, s) :: ws2) (upd_par2 x q) [])|].
  assert (P : fst (honest2 (upd_par2 x q) [] ((d, s) :: ws2)) = upd_par2 (prodf (ws1 ++ (d, s) :: ws2)) q).
  { rewrite honest2_par, upd_par2_comp by (auto using prodf_nz). rewrite prodf_app. f_equal. unfold x. ring. }
  split; [eexists; now rewrite P|]. intros bs' rho B'. split; [|intros X1].
  - rewrite (verify2_ph2 bs' rho _ _ _ _ _ _ _ B' R3 R2 (is_file2_ph2 _ _ _ _ M3 M2)).
    rewrite (honest2_par ws1 q []). fold x.
    rewrite honest_verdict by discriminate.
    destruct (feqb (prodf ((d, s) :: ws2)) 0) eqn:D0; [|reflexivity]. apply feqb_ok in D0. now apply prodf_nz in NZ2.
  - rewrite (verify2_ph2 bs' rho _ _ _ _ _ _ _ B' R3 R2 (is_file2_ph2 _ _ _ _ HO F)).
    assert (I0 : finv x <> 0).
    { intros I0. apply X0. transitivity (x * (x * finv x)); [|rewrite I0; ring]. field. exact X0. }
    assert (QQ : q = upd_par2 (finv x) (upd_par2 x q)).
    { rewrite upd_par2_comp by auto. replace (finv x * x) with (1 : E) by (field; exact X0). now rewrite upd_par2_one. }
    rewrite QQ at 2. rewrite <- Hh at 2.
    rewrite (other_origin bs' rho h 0 (upd_par2 x q) d s ws2 (finv x) NZ2 I0); [|cbn [upd_par2 p_d1]; now apply fmul_neq0|exact R0].
    destruct (feqb (finv x) 1) eqn:Y; [|reflexivity]. apply feqb_ok in Y. exfalso. apply X1.
    transitivity (x * finv x); [rewrite Y; ring|]. field. exact X0.
Qed.
End Origin2.
