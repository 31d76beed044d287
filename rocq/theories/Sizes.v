(* Sizes.v -- the lengths of the files. *)
From Coq Require Import String ZifyBool ZifyNat ZifyN.
From Verif Require Import Base Fld IO Ext Spec1 Phase1 Phase1Io Phase1Verify Phase1Facts Gob GobLemmas Circuit Spec2 Phase2 Phase2Lemmas Phase2Claims Phase2More Fs Spec3 Init2 Init2Pure Init2More KeysProps Cut4 Spec20.

Lemma be_min_log fuel : forall n, (0 < n)%N -> (n < 256 ^ N.of_nat fuel)%N -> length (be_min fuel n []) = S (N.to_nat (N.log2 n / 8)).
Proof.
  induction fuel as [|f IH]; intros n P L; [cbn in L; lia|]. cbn [be_min]. destruct (N.eqb_spec n 0); [lia|].
  rewrite be_min_acc, app_length. cbn [length]. destruct (N.ltb_spec n 256) as [Q|Q].
  - rewrite N.div_small by lia. assert (B : length (be_min f 0 []) = 0) by (destruct f; reflexivity). rewrite B.
    assert (Lg : (N.log2 n < 8)%N) by (apply N.log2_lt_pow2; [lia|exact Q]). rewrite (N.div_small (N.log2 n)) by lia. reflexivity.
  - assert (D1 : (0 < n / 256)%N) by (apply N.div_str_pos; lia).
    rewrite IH; [|exact D1|].
    + change 256%N with (2 ^ 8)%N at 1. rewrite <- N.shiftr_div_pow2, N.log2_shiftr.
      assert (G : (8 <= N.log2 n)%N) by (change 8%N with (N.log2 256); apply N.log2_le_mono; lia).
      replace (N.log2 n) with (N.log2 n - 8 + 1 * 8)%N at 2 by lia. rewrite N.div_add by lia. lia.
    + rewrite Nat2N.inj_succ, N.pow_succ_r' in L. apply N.div_lt_upper_bound; lia.
Qed.
Lemma log2_N u : Z.log2 (Z.of_N u) = Z.of_N (N.log2 u).
Proof. destruct u as [|[q|q|]]; reflexivity. Qed.
Lemma gob_int_len z : int64 z -> length (gob_int z) = int_len z.
Proof.
  intros H. unfold int64 in H. unfold gob_int, int_len, zigzag. cbv zeta.
  assert (U : exists u, (if (z <? 0)%Z then Z.to_N (2 * (- z - 1) + 1) else Z.to_N (2 * z)) = u /\
    (if (z <? 0)%Z then - 2 * z - 1 else 2 * z)%Z = Z.of_N u /\ (u < 18446744073709551616)%N).
  { destruct (Z.ltb_spec z 0); eexists; (split; [reflexivity|]); split; lia. }
  destruct U as [u [-> [-> L]]]. unfold gob_uint. destruct (N.ltb_spec u 128) as [Q|Q]; destruct (Z.ltb_spec (Z.of_N u) 128); try lia; [reflexivity|].
  cbv zeta. cbn [length]. rewrite be_min_log by (change (256 ^ N.of_nat 8)%N with 18446744073709551616%N; lia).
  rewrite log2_N. change 8%Z with (Z.of_N 8). rewrite <- N2Z.inj_div. lia.
Qed.
Lemma small_uint n : (n < 128)%N -> length (gob_uint n) = 1.
Proof. intros H. unfold gob_uint. now destruct (N.ltb_spec n 128); [|lia]. Qed.
Definition flen (z : Z) : nat := if (z =? 0)%Z then 0 else 1 + int_len z.
Lemma fields_length l : Forall int64 l -> forall d, (d + N.of_nat (length l) < 128)%N -> length (gob_fields d l) = 1 + list_sum (map flen l).
Proof.
  induction l as [|z l IH]; intros F d D; [reflexivity|]. apply Forall_cons_iff in F as [Z F]. cbn [length] in D.
  change (list_sum (map flen (z :: l))) with (flen z + list_sum (map flen l)). cbn [gob_fields]. unfold flen at 1.
  destruct (Z.eqb_spec z 0); [rewrite IH; [lia|exact F|lia]|].
  rewrite !app_length, small_uint, gob_int_len, IH by (try exact F; try exact Z; lia). lia.
Qed.
Lemma flen_le z : int64 z -> flen z <= 10.
Proof.
  intros Z. unfold flen. destruct (z =? 0)%Z; [lia|]. rewrite <- gob_int_len by exact Z. unfold gob_int, gob_uint.
  destruct (zigzag z <? 128)%N; [cbn; lia|]. cbv zeta. cbn [length]. pose proof (GobLemmas.be_min_len 8 (zigzag z)). lia.
Qed.
Lemma gob_hdr_len h : hdr_ok h -> length (gob_hdr h) = 124 + fields_len h.
Proof.
  intros H. unfold gob_hdr, message. rewrite !app_length. change (length (gob_uint (N.of_nat (length typedef))) + length typedef) with 120.
  assert (V : length (value h) = 3 + fields_len h).
  { unfold value. rewrite app_length, (fields_length (hdr_fields h) H 1) by (cbn; lia). change (length (gob_int 65)) with 2. unfold fields_len, flen. lia. }
  rewrite small_uint; [lia|]. rewrite V. unfold fields_len. change (map (fun z => if (z =? 0)%Z then 0 else 1 + int_len z)) with (map flen).
  unfold hdr_ok in H. destruct h as [a b c d e f g]. unfold hdr_fields in *. cbn [h_wires h_witness h_public h_privc h_cons h_domain h_contribs] in *.
  rewrite !Forall_cons_iff in H. destruct H as [A [B [C [D [E0 [F [G _]]]]]]].
  apply flen_le in A, B, C, D, E0, F, G. cbn [map list_sum fold_right]. unfold list_sum. cbn [fold_right]. lia.
Qed.

Section Sizes1.
Context {E : Ext}.
Lemma recs_bytes_len (l : list (contrib E)) : hashed32 l -> length (recs_bytes l) = (640 * length l)%nat.
Proof.
  induction l as [|c l IH]; intros H; [reflexivity|]. change (recs_bytes (c :: l)) with (rec_bytes c ++ recs_bytes l).
  rewrite app_length, rec_bytes_length, IH by (try intros x Hx; apply H; cbn; auto). cbn [length]. lia.
Qed.
Lemma size1 bs p (ws : list (@rnd1 E)) : 2 <= bs -> 1 <= p <= 62 -> length ws <= N.to_nat 65535 ->
  exists f hs, ceremony1 bs p ws = Ok (f, hs) /\ length f = (3 + (192 * 2 ^ p + 32) + 640 * length ws)%nat.
Proof.
  intros B P L. destruct (ceremony_result bs p ws B P L) as [l [H [Hl [Sz [_ [HH _]]]]]]. eexists _, _. split; [exact H|].
  unfold file1. rewrite !app_length, hdr1_length, (srs_bytes_length p), recs_bytes_len, Hl by assumption. lia.
Qed.
(* the sections as documented add up to the documented total only for power 1 *)
Lemma size1_doc bs p (ws : list (@rnd1 E)) : 2 <= bs -> 2 <= p <= 62 -> length ws <= N.to_nat 65535 ->
  exists f hs, ceremony1 bs p ws = Ok (f, hs) /\
    (length f < 3 + (32 * (2 ^ (2 * p) - 1) + 32 * 2 ^ p + 32 * 2 ^ p + 64 * 2 ^ p + 64) + 640 * length ws)%nat.
Proof.
  intros B P L. destruct (size1 bs p ws B ltac:(lia) L) as [f [hs [H Q]]]. exists f, hs. split; [exact H|]. rewrite Q.
  replace (2 * p) with (p + p) by lia. rewrite Nat.pow_add_r.
  assert (4 <= 2 ^ p) by (change 4 with (2 ^ 2); apply Nat.pow_le_mono_r; lia). generalize dependent (2 ^ p). intros n Hn. nia.
Qed.
End Sizes1.

Section Sizes2.
Context {E : Ext2}.
Lemma head2_len h (q : par2 E) : hdr_ok h -> sized2 h q ->
  Z.of_nat (length (head2 h q)) = (124 + Z.of_nat (fields_len h) + 96 + 32 * (h_domain h - 1) + 32 * h_witness h)%Z.
Proof. intros H [A B]. unfold head2. rewrite app_length, gob_hdr_len, par2_bytes_length by exact H. lia. Qed.
Lemma recs2_len (l : list (contrib2 E)) : hashed2 l -> length (recs2_bytes l) = (192 * length l)%nat.
Proof.
  induction l as [|c l IH]; intros H; [reflexivity|]. change (recs2_bytes (c :: l)) with (rec2_bytes c ++ recs2_bytes l).
  rewrite app_length, Cut4.rec2_len, IH by (try intros x Hx; apply H; cbn; auto). cbn [length]. lia.
Qed.
Lemma size2 bs f0 h (q : par2 E) ws : 1 <= bs -> hdr_ok h -> h_contribs h = 0%Z -> is_file2 f0 h q [] ->
  (Z.of_nat (length ws) < 9223372036854775808)%Z -> ws <> [] ->
  (forall j, (1 <= j <= length ws)%nat -> unsplit (set_contribs h (Z.of_nat j)) q j) ->
  exists f hs, ceremony2 (E := E) bs f0 ws = Ok (f, hs) /\
    Z.of_nat (length f) = (124 + Z.of_nat (fields_len (set_contribs h (Z.of_nat (length ws)))) + 96 + 32 * (h_domain h - 1) +
      32 * h_witness h + 192 * Z.of_nat (length ws))%Z.
Proof.
  intros B HO H0 F Bd Ne U. assert (Sz : sized2 h q) by (destruct F as [? [? [? [_ [_ [S0 _]]]]]]; exact S0).
  destruct (ceremony2_result bs f0 h q ws B HO H0 F Bd Ne U) as [R [_ HO']]. eexists _, _. split; [exact R|].
  unfold file2. rewrite app_length, Nat2Z.inj_add, head2_len.
  - rewrite recs2_len by (apply honest2_hashed; intros c []). rewrite honest2_len. cbn [length set_contribs h_domain h_witness]. lia.
  - exact HO'.
  - rewrite honest2_par. now apply sized2_upd.
Qed.
Lemma size2_grow bs (d s : E) h (q : par2 E) l g : 1 <= bs -> hdr_ok h -> count_ok (h_contribs h) -> is_file2 (file2 h q l) h q l ->
  exists hh g', exec (contribute2 bs d s) (file2 h q l) g = (Ok hh, g') /\
    (Z.of_nat (length g') = Z.of_nat (length (file2 h q l)) + 192 +
      (Z.of_nat (fields_len (set_contribs h (h_contribs h + 1))) - Z.of_nat (fields_len h)))%Z.
Proof.
  intros B HO C F. assert (Sz : sized2 h q) by (destruct F as [? [? [? [_ [_ [S0 _]]]]]]; exact S0).
  assert (N0 : (0 <= h_contribs h)%Z) by (destruct F as [? [? [? [_ [_ [_ [-> _]]]]]]]; lia).
  eexists _, _. split; [apply (c35 bs d s _ g h q l); assumption|].
  unfold file2. rewrite !app_length, !Nat2Z.inj_add, !head2_len.
  - unfold recs2_bytes. rewrite flat_map_app, app_length. cbn [flat_map]. rewrite app_nil_r, Cut4.rec2_len by apply new_rec2_hash.
    cbn [set_contribs h_domain h_witness]. lia.
  - exact HO.
  - exact Sz.
  - apply hdr_ok_set; [exact HO|]. unfold count_ok in C. unfold int64. lia.
  - now apply sized2_upd.
Qed.

Lemma slice1_len (l : list E) : length (slice1 l) = (32 * length l + 4)%nat.
Proof. unfold slice1. rewrite app_length, enc1_length. cbn [be32 length]. lia. Qed.
Lemma slice2_len (l : list E) : length (slice2 l) = (64 * length l + 4)%nat.
Proof. unfold slice2. rewrite app_length, enc2_length. cbn [be32 length]. lia. Qed.
Lemma size_init p S0 (cs : r1cs E) f p1 r1 p2 : init_input p S0 cs f p1 r1 p2 -> no_cmt cs -> (N.of_nat (wires cs) < 4294967296)%N ->
  exists f' k bl be b2, p2n (E := E) p1 r1 p2 f = (Ok tt, f') /\ is_dom (length (r_cons cs)) k /\ k <= p /\
    f' lag_path = Some bl /\ f' evals_path = Some be /\ f' p2 = Some b2 /\
    length bl = (3 * (32 * 2 ^ k + 4) + (64 * 2 ^ k + 4))%nat /\
    length be = (32 + 32 + 64 + 2 * (32 * wires cs + 4) + (64 * wires cs + 4) + (32 * nb_public cs + 4) + 4 + length (cmt_bytes (e := E) (r_cmt cs)))%nat /\
    length b2 = (124 + fields_len (hdr_of cs k) + 32 + 64 + 32 * (2 ^ k - 1) + 32 * (nb_secret cs + nb_internal cs))%nat.
Proof.
  intros HI Hnc HW. destruct (init_dom _ _ _ _ _ _ _ HI) as [k' [KD [K27 _]]].
  destruct (p2n_ok _ _ _ _ _ _ _ HI Hnc) as [f' [k [t [a [b [t2 [z [H1 [_ [H3 [H4 [[T _] [[A _] [[B _] [[T2 _] [[LZ _] [H7 [H8 H9]]]]]]]]]]]]]]]]]].
  assert (k = k') by (destruct H3 as [A1 [A2 A3]], KD as [B1 [B2 B3]]; specialize (A3 k' B1 B2); specialize (B3 k A1 A2); lia).
  subst k'. pose proof HI as [_ [_ [_ [_ [_ [_ [_ [L27 _]]]]]]]].
  pose proof (hdr_of_ok cs k HW L27 K27) as HO.
  eexists f', k, _, _, _. split; [exact H1|]. split; [exact H3|]. split; [exact H4|]. split; [exact H7|]. split; [exact H8|]. split; [exact H9|].
  assert (LL : length (Lsum cs t a b) = wires cs) by (unfold Lsum; now rewrite map_length, seq_length).
  split; [|split].
  - unfold lag_bytes. rewrite !app_length, !slice1_len, slice2_len, T, A, B, T2. lia.
  - unfold evals_bytes. cbn [v_alpha v_beta1 v_beta2 v_A v_B v_B2 v_vkk v_ckk v_cmt].
    rewrite !app_length, !slice1_len, slice2_len, !g1c_len, g2c_len, firstn_length, LL. unfold cols. rewrite !map_length, !seq_length.
    cbn [length]. unfold wires. lia.
  - unfold file2, head2. cbn [recs2_bytes flat_map]. rewrite app_nil_r, app_length, gob_hdr_len, par2_bytes_length by exact HO.
    cbn [p_Z p_K]. rewrite skipn_length, LL, LZ. unfold wires. lia.
Qed.
(* srs.lag is documented with the power of the phase-1 file *)
Lemma size_lag_doc p S0 (cs : r1cs E) f p1 r1 p2 : init_input p S0 cs f p1 r1 p2 -> no_cmt cs -> (N.of_nat (wires cs) < 4294967296)%N ->
  2 <= p -> length (r_cons cs) <= 2 ^ (p - 1) ->
  exists f' b, p2n (E := E) p1 r1 p2 f = (Ok tt, f') /\ f' lag_path = Some b /\ (length b < 3 * (32 * 2 ^ p + 4) + (64 * 2 ^ p + 4))%nat.
Proof.
  intros HI Hnc HW P L. destruct (size_init _ _ _ _ _ _ _ HI Hnc HW) as [f' [k [bl [be [b2 [H1 [[_ [_ K]] [_ [H4 [_ [_ [Q _]]]]]]]]]]]].
  exists f', bl. split; [exact H1|]. split; [exact H4|]. rewrite Q. specialize (K (p - 1) ltac:(lia) L).
  assert (2 ^ k < 2 ^ p) by (apply Nat.pow_lt_mono_r; lia). lia.
Qed.
Lemma fields_set h n m : (fields_len (set_contribs h n) + flen m = fields_len (set_contribs h m) + flen n)%nat.
Proof.
  unfold fields_len. change (map (fun z => if (z =? 0)%Z then 0 else 1 + int_len z)) with (map flen). unfold hdr_fields. cbn [set_contribs h_wires h_witness h_public h_privc h_cons h_domain h_contribs].
  unfold list_sum. cbn [map fold_right]. lia.
Qed.
Lemma grow_by bs (d s : E) h (q : par2 E) l g : 1 <= bs -> hdr_ok h -> is_file2 (file2 h q l) h q l ->
  (length l = 0 -> exists hh g', exec (contribute2 bs d s) (file2 h q l) g = (Ok hh, g') /\ length g' = (length (file2 h q l) + 194)%nat) /\
  (length l = 63 -> exists hh g', exec (contribute2 bs d s) (file2 h q l) g = (Ok hh, g') /\ length g' = (length (file2 h q l) + 193)%nat).
Proof.
  intros B HO F. assert (HC : h_contribs h = Z.of_nat (length l)) by (destruct F as [? [? [? [_ [_ [_ [Q _]]]]]]]; exact Q).
  assert (Hh : set_contribs h (h_contribs h) = h) by now destruct h.
  split; intros L; (destruct (size2_grow bs d s h q l g B HO) as [hh [g' [R Q]]]; [unfold count_ok; lia|exact F|]);
    exists hh, g'; (split; [exact R|]); pose proof (fields_set h (h_contribs h + 1) (h_contribs h)) as X;
    rewrite Hh in X; rewrite HC, L in *.
  - change (flen (Z.of_nat 0)) with 0 in X. change (flen (Z.of_nat 0 + 1)) with 2 in X. lia.
  - change (flen (Z.of_nat 63)) with 2 in X. change (flen (Z.of_nat 63 + 1)) with 3 in X. lia.
Qed.
End Sizes2.
