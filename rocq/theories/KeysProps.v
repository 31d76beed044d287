(* KeysProps.v -- lemmas behind Prop4.v. *)
From Coq Require Import Ring Field String.
From Verif Require Import Base Fld Poly BitRev IO Ext Spec1 Phase1 Phase1Io Phase1Verify Phase1Facts Phase1Claims Gob GobLemmas Circuit Spec2 Phase2 Phase2Io Phase2Lemmas Phase2More Phase2Claims Spec3 Fs Init2 Init2Pure Init2Io Init2Claims Init2More Interp Spec4 Keys KeysLemmas KeysClaims Groth.
Local Open Scope fld_scope.

Section Props.
Context {E : Ext2}.
Add Field Ekp : (f_th E).

Lemma div1 (x : E) : x / 1 = x. Proof. field. apply (F_1_neq_0 (f_th E)). Qed.
Lemma div_mul (a b d : E) : a * b / d = a * (b / d).
Proof. rewrite <- !inv_div. ring. Qed.
Lemma upd1 (q : par2 E) : upd_par2 1 q = q.
Proof.
  destruct q as [a b z k]. unfold upd_par2. cbn [p_d1 p_d2 p_Z p_K]. f_equal; [ring|ring| |];
    rewrite <- (map_id z) at 2 || rewrite <- (map_id k) at 2; apply map_ext, div1.
Qed.
Lemma u64_nat n : (Z.of_nat n < 18446744073709551616)%Z -> u64 (Z.of_nat n) = N.of_nat n.
Proof. intros H. unfold u64. rewrite Z.mod_small by lia. lia. Qed.

Lemma hdr_of_ok (cs : r1cs E) k : (N.of_nat (wires cs) < 4294967296)%N -> (Z.of_nat (length (r_cons cs)) <= 2 ^ 27)%Z -> k <= 27 ->
  hdr_ok (hdr_of cs k).
Proof.
  intros H1 H2 H3. unfold hdr_ok, hdr_fields, hdr_of.
  assert (P : (2 ^ k <= 2 ^ 27)%nat) by (apply Nat.pow_le_mono_r; lia).
  assert (P2 : (Z.of_nat (2 ^ k) <= 2 ^ 27)%Z) by (rewrite Nat2Z.inj_pow; apply Z.pow_le_mono_r; lia). clear P.
  change (2 ^ 27)%Z with 134217728%Z in *. unfold wires in H1.
  cbn [h_wires h_witness h_public h_privc h_cons h_domain h_contribs].
  repeat constructor; unfold int64; try lia; unfold wires; lia.
Qed.
Lemma file2_ph2 h (q : par2 E) l : hdr_ok h -> sized2 h q -> ph2 (file2 h q l) h q.
Proof.
  intros A B. split; [exact A|]. split; [exact B|]. exists (par2_bytes q), (recs2_bytes l). split.
  - unfold file2, head2. now rewrite <- !app_assoc.
  - apply par2_is.
Qed.

(* the state after p2n and a phase-2 ceremony *)
Lemma after_ceremony p T A B (cs : r1cs E) f p1 r1 p2 bs ws :
  init_input p (srs_of p T A B) cs f p1 r1 p2 -> no_cmt cs -> (N.of_nat (wires cs) < 4294967296)%N ->
  1 <= bs -> (Z.of_nat (length ws) < 9223372036854775808)%Z ->
  exists fa k (t z : list E) h (q0 : par2 E) (v : evals E), let D := prodf ws in
    p2n (E := E) p1 r1 p2 f = (Ok tt, fa) /\ only3 p2 f fa /\ fa p2 = Some (file2 h q0 []) /\ fa evals_path = Some (evals_bytes v) /\
    is_dom (length (r_cons cs)) k /\ 1 <= k <= kmax E /\ lag_values (2 ^ k) (root k) T t /\
    (length z = (2 ^ k - 1)%nat /\ forall i r, i < 2 ^ k - 1 -> mirrors k i r -> nth_error z r = Some (T ^ i * (T ^ (2 ^ k) - 1))) /\
    h = hdr_of cs k /\ q0 = mkPar2 1 1 z (map (kat cs A B t) (seq (nb_public cs) (nb_secret cs + nb_internal cs))) /\
    v = mkEvals A B B (cols cs r_L t) (cols cs r_R t) (cols cs r_R t) (map (kat cs A B t) (seq 0 (nb_public cs))) [] (cmt_bytes (e := E) (r_cmt cs)) /\
    new_domain (E := E) (h_domain h) = Some k /\ smalls v /\ same_wires (wires cs) v /\
    ((forall j, (1 <= j <= length ws)%nat -> unsplit (set_contribs h (Z.of_nat j)) q0 j) ->
     exists F hs l, ceremony2 (E := E) bs (file2 h q0 []) ws = Ok (F, hs) /\ F = file2 (set_contribs h (Z.of_nat (length ws))) (upd_par2 D q0) l /\
       ph2 F (set_contribs h (Z.of_nat (length ws))) (upd_par2 D q0)).
Proof.
  intros HI Hnc HW HB HL.
  destruct (p2n_trapdoor _ _ _ _ _ _ _ _ _ HI Hnc) as [fa [k [t [z [H1 [H2 [H3 [H4 [H5 [[LZ H6] [H7 [H8 H9]]]]]]]]]]]].
  destruct (init_dom _ _ _ _ _ _ _ HI) as [k' [KD [K27 [KM [_ _]]]]].
  assert (k = k') by (destruct H3 as [A1 [A2 A3]], KD as [B1 [B2 B3]]; specialize (A3 k' B1 B2); specialize (B3 k A1 A2); lia).
  subst k'. pose proof HI as [_ [_ [_ [_ [_ [_ [_ [L27 _]]]]]]]].
  pose proof (hdr_of_ok cs k HW L27 K27) as HO.
  set (q0 := mkPar2 1 1 z (map (kat cs A B t) (seq (nb_public cs) (nb_secret cs + nb_internal cs)))) in *.
  assert (SZ : sized2 (hdr_of cs k) q0).
  { split; unfold hdr_of, q0; cbn [h_domain h_witness p_Z p_K].
    - rewrite LZ. pose proof (pow2_pos k). lia.
    - now rewrite map_length, seq_length. }
  eexists fa, k, t, z, (hdr_of cs k), q0, _. cbv zeta.
  split; [exact H1|]. split; [exact H2|]. split; [exact H9|]. split; [exact H8|]. split; [exact H3|].
  split; [split; [apply H3|exact KM]|]. split; [exact H5|]. split.
  { split; [exact LZ|]. intros i r Hi Hr. rewrite (H6 i r Hi Hr). f_equal. rewrite fpow_add. ring. }
  split; [reflexivity|]. split; [reflexivity|]. split; [reflexivity|]. split; [now apply new_domain_pow|].
  split.
  { unfold smalls, small, cols. cbn [v_A v_B v_B2 v_vkk v_ckk]. rewrite !map_length, !seq_length. unfold wires in HW. cbn [length]. unfold wires. lia. }
  split.
  { unfold same_wires, cols. cbn [v_A v_B v_B2]. now rewrite !map_length, !seq_length. }
  intros U. destruct ws as [|w0 ws].
  - exists (file2 (hdr_of cs k) q0 []), [], []. split; [reflexivity|].
    assert (X : set_contribs (hdr_of cs k) (Z.of_nat (length (@nil (E * E)))) = hdr_of cs k) by reflexivity.
    change (prodf (@nil (E * E))) with (1 : E). rewrite X, upd1. split; [reflexivity|]. now apply file2_ph2.
  - assert (F0 : is_file2 (file2 (hdr_of cs k) q0 []) (hdr_of cs k) q0 []).
    { rewrite <- (app_nil_r (file2 _ _ _)). apply file2_is; [exact SZ|reflexivity|intros c []|]. intros i Hi. cbn in Hi. lia. }
    destruct (ceremony2_result bs _ (hdr_of cs k) q0 (w0 :: ws) HB HO eq_refl F0 HL ltac:(discriminate) U) as [R1 [R2 R3]].
    rewrite honest2_par in R1. eexists _, _, _. split; [exact R1|]. split; [reflexivity|].
    apply file2_ph2; [exact R3|]. now apply sized2_upd.
Qed.

Lemma keypair_of (cs : r1cs E) k t z A B T D cb : lag_values (2 ^ k) (root k) T t ->
  (length z = (2 ^ k - 1)%nat /\ forall i r, i < 2 ^ k - 1 -> mirrors k i r -> nth_error z r = Some (T ^ i * (T ^ (2 ^ k) - 1))) ->
  let q0 := mkPar2 1 1 z (map (kat cs A B t) (seq (nb_public cs) (nb_secret cs + nb_internal cs))) in
  let v := mkEvals A B B (cols cs r_L t) (cols cs r_R t) (cols cs r_R t) (map (kat cs A B t) (seq 0 (nb_public cs))) [] cb in
  is_keypair cs k (root k) A B D T (pk_of (upd_par2 D q0) v) (vk_of (upd_par2 D q0) v).
Proof.
  intros HT [LZ HZ] q0 v. exists t. split; [exact HT|].
  unfold pk_of, vk_of, upd_par2, q0, v.
  cbn [q_alpha q_beta q_delta q_A q_B q_Z q_K q_beta2 q_delta2 q_B2 w_alpha w_beta w_beta2 w_delta w_delta2 w_K w_ck
       p_d1 p_d2 p_Z p_K v_alpha v_beta1 v_beta2 v_A v_B v_B2 v_vkk v_ckk].
  assert (D1 : D * 1 = D) by ring. rewrite D1.
  repeat (split; [reflexivity|]). split.
  { rewrite map_map. f_equal. unfold wires. f_equal. lia. }
  split; [now rewrite map_length|]. split.
  { intros i r Hi Hr. rewrite nth_error_map, (HZ i r Hi Hr). reflexivity. }
  repeat split.
Qed.

(* C46 *)
Lemma c46x p T A B (cs : r1cs E) f p1 r1 p2 bs (ws : list (E * E)) :
  init_input p (srs_of p T A B) cs f p1 r1 p2 -> no_cmt cs -> (N.of_nat (wires cs) < 4294967296)%N ->
  1 <= bs -> (Z.of_nat (length ws) < 9223372036854775808)%Z ->
  exists fa k h (q0 : par2 E), p2n (E := E) p1 r1 p2 f = (Ok tt, fa) /\ fa p2 = Some (file2 h q0 []) /\
    is_dom (length (r_cons cs)) k /\ 1 <= k <= kmax E /\
    ((forall j, (1 <= j <= length ws)%nat -> unsplit (set_contribs h (Z.of_nat j)) q0 j) ->
     exists F hs, ceremony2 (E := E) bs (file2 h q0 []) ws = Ok (F, hs) /\ (hdr_ok h /\ h_contribs h = 0%Z /\ sized2 h q0) /\
     forall g sg pz, pz <> pk_path -> pz <> vk_path -> pz <> evals_path ->
     exists fb (q : pkey E) (v : vkey E), extract_keys wrap64 g sg pz (fset fa pz F) = (Ok tt, fb) /\
       fb pk_path = Some (pk_bytes k (N.of_nat (wires cs)) q) /\
       fb vk_path = Some (vk_bytes (ped (e := E) g sg []) (empty_info (E := E)) v) /\
       is_keypair cs k (root k) A B (prodf ws) T q v).
Proof.
  intros HI Hnc HW HB HL.
  destruct (after_ceremony p T A B cs f p1 r1 p2 bs ws HI Hnc HW HB HL) as
    [fa [k [t [z [h [q0 [v [H1 [H2 [H3 [H4 [H5 [H6 [H7 [H8 [H9 [H10 [H11 [H12 [H13 [H14 H15]]]]]]]]]]]]]]]]]]]]].
  exists fa, k, h, q0. split; [exact H1|]. split; [exact H3|]. split; [exact H5|]. split; [exact H6|].
  intros U. destruct (H15 U) as [F [hs [l [C1 [C2 C3]]]]]. exists F, hs. split; [exact C1|]. split.
  { destruct C3 as [O [SZ _]]. pose proof (hdr_ok_set _ 0%Z O ltac:(unfold int64, two63; lia)) as O'. rewrite H9 in *. split; [exact O'|]. split; [reflexivity|].
    unfold sized2 in *. unfold upd_par2 in SZ. cbn [p_Z p_K set_contribs h_domain h_witness] in SZ. rewrite !map_length in SZ. exact SZ. }
  intros g sg pz N1 N2 N3.
  destruct (read_pk_ok F _ _ v C3 H13) as [s1 R1].
  assert (HWZ : h_wires (set_contribs h (Z.of_nat (length ws))) = Z.of_nat (wires cs)) by (rewrite H9; reflexivity).
  destruct (read_vk_ok wrap64 F _ _ v (wires cs) C3 H13 H14 HWZ) as [s2 R2]; [apply pos64; lia|].
  destruct (extract_keys_run wrap64 g sg pz (fset fa pz F) F (evals_bytes v) _ _ k _ s1 s2 N1 N2 (fset_same _ _ _)
    (eq_trans (fset_other _ _ _ _ N3) H4) R1 H12 R2) as [fb [B1 [B2 [B3 B4]]]].
  eexists fb, _, _. split; [exact B1|]. split; [|split].
  - rewrite B2, HWZ, u64_nat by lia. reflexivity.
  - rewrite B3. unfold vk_of. cbn [w_ck]. rewrite H11. cbn [v_ckk]. reflexivity.
  - rewrite H10, H11. now apply keypair_of.
Qed.
Lemma c46 p T A B (cs : r1cs E) f p1 r1 p2 bs (ws : list (E * E)) :
  init_input p (srs_of p T A B) cs f p1 r1 p2 -> no_cmt cs -> (N.of_nat (wires cs) < 4294967296)%N ->
  1 <= bs -> (Z.of_nat (length ws) < 9223372036854775808)%Z ->
  exists fa k h (q0 : par2 E), p2n (E := E) p1 r1 p2 f = (Ok tt, fa) /\ fa p2 = Some (file2 h q0 []) /\
    is_dom (length (r_cons cs)) k /\ 1 <= k <= kmax E /\
    ((forall j, (1 <= j <= length ws)%nat -> unsplit (set_contribs h (Z.of_nat j)) q0 j) ->
     exists F hs, ceremony2 (E := E) bs (file2 h q0 []) ws = Ok (F, hs) /\
     forall g sg pz, pz <> pk_path -> pz <> vk_path -> pz <> evals_path ->
     exists fb (q : pkey E) (v : vkey E), extract_keys wrap64 g sg pz (fset fa pz F) = (Ok tt, fb) /\
       fb pk_path = Some (pk_bytes k (N.of_nat (wires cs)) q) /\
       fb vk_path = Some (vk_bytes (ped (e := E) g sg []) (empty_info (E := E)) v) /\
       is_keypair cs k (root k) A B (prodf ws) T q v).
Proof.
  intros HI Hnc HW HB HL. destruct (c46x p T A B cs f p1 r1 p2 bs ws HI Hnc HW HB HL) as [fa [k [h [q0 [H1 [H2 [H3 [H4 H5]]]]]]]].
  exists fa, k, h, q0. repeat (split; [assumption|]). intros U. destruct (H5 U) as [F [hs [C1 [_ C2]]]]. exists F, hs. auto.
Qed.
(* the same for split extraction *)
Lemma c48_pipeline p T A B (cs : r1cs E) f p1 r1 p2 bs ws :
  init_input p (srs_of p T A B) cs f p1 r1 p2 -> no_cmt cs -> (N.of_nat (wires cs) < 4294967296)%N ->
  1 <= bs -> (Z.of_nat (length ws) < 9223372036854775808)%Z ->
  exists fa k h (q0 : par2 E), p2n (E := E) p1 r1 p2 f = (Ok tt, fa) /\ fa p2 = Some (file2 h q0 []) /\
    is_dom (length (r_cons cs)) k /\
    ((forall j, (1 <= j <= length ws)%nat -> unsplit (set_contribs h (Z.of_nat j)) q0 j) ->
     exists F hs, ceremony2 (E := E) bs (file2 h q0 []) ws = Ok (F, hs) /\
     forall g sg pz session, ~ In pz (split_names session) -> pz <> vks_path session -> pz <> evals_path ->
     exists fb (q : pkey E) (v : vkey E), extract_split_keys wrap64 g sg pz session (fset fa pz F) = (Ok tt, fb) /\
       map fb (split_names session) = map Some (split_bytes (N.of_nat (2 ^ k)) (N.of_nat (wires cs)) q) /\
       fb (vks_path session) = Some (vk_bytes (ped (e := E) g sg []) (empty_info (E := E)) v) /\
       is_keypair cs k (root k) A B (prodf ws) T q v).
Proof.
  intros HI Hnc HW HB HL.
  destruct (init_dom _ _ _ _ _ _ _ HI) as [k' [KD [K27 [KM [_ _]]]]].
  destruct (after_ceremony p T A B cs f p1 r1 p2 bs ws HI Hnc HW HB HL) as
    [fa [k [t [z [h [q0 [v [H1 [H2 [H3 [H4 [H5 [H6 [H7 [H8 [H9 [H10 [H11 [H12 [H13 [H14 H15]]]]]]]]]]]]]]]]]]]]].
  assert (k = k') by (destruct H5 as [A1 [A2 A3]], KD as [B1 [B2 B3]]; specialize (A3 k' B1 B2); specialize (B3 k A1 A2); lia).
  subst k'. exists fa, k, h, q0. split; [exact H1|]. split; [exact H3|]. split; [exact H5|].
  intros U. destruct (H15 U) as [F [hs [l [C1 [C2 C3]]]]]. exists F, hs. split; [exact C1|].
  intros g sg pz ss N1 N2 N3.
  destruct (read_pk_ok F _ _ v C3 H13) as [s1 R1].
  assert (HWZ : h_wires (set_contribs h (Z.of_nat (length ws))) = Z.of_nat (wires cs)) by (rewrite H9; reflexivity).
  assert (HDZ : h_domain (set_contribs h (Z.of_nat (length ws))) = Z.of_nat (2 ^ k)) by (rewrite H9; reflexivity).
  destruct (read_vk_ok wrap64 F _ _ v (wires cs) C3 H13 H14 HWZ) as [s2 R2]; [apply pos64; lia|].
  destruct (extract_split_run wrap64 g sg pz ss (fset fa pz F) F (evals_bytes v) _ _ _ s1 s2 N1 N2 (fset_same _ _ _)
    (eq_trans (fset_other _ _ _ _ N3) H4) R1 R2) as [fb [B1 [B2 [B3 [B4 B5]]]]].
  assert (P2 : (Z.of_nat (2 ^ k) <= 2 ^ 27)%Z) by (rewrite Nat2Z.inj_pow; apply Z.pow_le_mono_r; lia).
  change (2 ^ 27)%Z with 134217728%Z in P2.
  rewrite HWZ, HDZ, !u64_nat in B2 by lia.
  eexists fb, _, _. split; [exact B1|]. split; [|split].
  - cbn [split_names List.map map]. unfold split_bytes. cbn [map].
    pose proof (B2 0%nat _ eq_refl) as Q0. pose proof (B2 1%nat _ eq_refl) as Q1. pose proof (B2 2%nat _ eq_refl) as Q2.
    pose proof (B2 3%nat _ eq_refl) as Q3. pose proof (B2 4%nat _ eq_refl) as Q4. pose proof (B2 5%nat _ eq_refl) as Q5.
    cbn [nth_error split_bytes] in *. rewrite Q0, Q1, Q2, Q3, Q4, Q5. reflexivity.
  - rewrite B3. unfold vk_of. cbn [w_ck]. rewrite H11. cbn [v_ckk]. reflexivity.
  - rewrite H10, H11. now apply keypair_of.
Qed.
(* C47 *)
Lemma c47_spec k (cs : r1cs E) alpha beta delta tau q v x : 1 <= k <= kmax E -> (length (r_cons cs) <= 2 ^ k)%nat ->
  delta <> 0 -> is_keypair cs k (root k) alpha beta delta tau q v ->
  (satisfies cs x <-> exists h, quotient cs x (2 ^ k) (root k) h) /\
  forall h r s ar bs krs, quotient cs x (2 ^ k) (root k) h -> proves q cs k x h r s ar bs krs -> accepts v cs x ar bs krs.
Proof.
  intros HK HL D KP. destruct (root_conds k HK) as [R1 R2]. split; [split|].
  - intros SAT. exact (quotient_ex k (root k) (proj1 HK) R1 R2 cs x HL SAT).
  - intros [h Hh]. exact (quotient_sat k (root k) (proj1 HK) R1 R2 cs x HL h Hh).
  - intros h r s ar bs krs HQ HP. exact (complete k (root k) (proj1 HK) R1 R2 cs x HL alpha beta delta tau q v h r s ar bs krs D KP HQ HP).
Qed.

Lemma c47 p T A B (cs : r1cs E) f p1 r1 p2 bs (ws : list (E * E)) :
  init_input p (srs_of p T A B) cs f p1 r1 p2 -> no_cmt cs -> (N.of_nat (wires cs) < 4294967296)%N ->
  1 <= bs -> (Z.of_nat (length ws) < 9223372036854775808)%Z -> prodf (E := E) ws <> 0 ->
  exists fa k h (q0 : par2 E), p2n (E := E) p1 r1 p2 f = (Ok tt, fa) /\ fa p2 = Some (file2 h q0 []) /\
    ((forall j, (1 <= j <= length ws)%nat -> unsplit (set_contribs h (Z.of_nat j)) q0 j) ->
     exists F hs, ceremony2 (E := E) bs (file2 h q0 []) ws = Ok (F, hs) /\
     forall g sg pz, pz <> pk_path -> pz <> vk_path -> pz <> evals_path ->
     exists fb (q : pkey E) (v : vkey E), extract_keys wrap64 g sg pz (fset fa pz F) = (Ok tt, fb) /\
       fb pk_path = Some (pk_bytes k (N.of_nat (wires cs)) q) /\
       fb vk_path = Some (vk_bytes (ped (e := E) g sg []) (empty_info (E := E)) v) /\
       forall x, (satisfies cs x <-> exists h, quotient cs x (2 ^ k) (root k) h) /\
         forall h r s ar bs krs, quotient cs x (2 ^ k) (root k) h -> proves q cs k x h r s ar bs krs -> accepts v cs x ar bs krs).
Proof.
  intros HI Hnc HW HB HL ND. destruct (c46 p T A B cs f p1 r1 p2 bs ws HI Hnc HW HB HL) as [fa [k [h [q0 [H1 [H2 [H3 [H4 H5]]]]]]]].
  exists fa, k, h, q0. split; [exact H1|]. split; [exact H2|]. intros U. destruct (H5 U) as [F [hs [C1 C2]]].
  exists F, hs. split; [exact C1|]. intros g sg pz N1 N2 N3. destruct (C2 g sg pz N1 N2 N3) as [fb [q [v [D1 [D2 [D3 D4]]]]]].
  exists fb, q, v. split; [exact D1|]. split; [exact D2|]. split; [exact D3|]. intros x.
  apply (c47_spec k cs A B (prodf ws) T q v x H4 (proj1 (proj2 H3)) ND D4).
Qed.

(* C46 from the first phase-1 contribution on *)
Lemma phase1_input bs p (ws1 : list (@rnd1 E)) (cs : r1cs E) f p1 r1 p2 rb : 2 <= bs -> 1 <= p <= 54 -> length ws1 <= N.to_nat 65535 ->
  names_ok p1 r1 p2 -> p1 <> r1 -> f r1 = Some rb -> parse_r1cs rb = Some cs ->
  circuit_ok cs -> length (r_cons cs) <= 2 ^ p -> (Z.of_nat (length (r_cons cs)) <= 2 ^ 27)%Z -> 1 <= kmax E -> length (r_cons cs) <= 2 ^ kmax E ->
  exists F1 hs1, ceremony1 bs p ws1 = Ok (F1, hs1) /\ length hs1 = length ws1 /\
    init_input p (srs_of p (prodl (map (fun w => r_tau w) ws1)) (prodl (map (fun w => r_alpha w) ws1)) (prodl (map (fun w => r_beta w) ws1)))
      cs (fset f p1 F1) p1 r1 p2.
Proof.
  intros HB HP HL HN NR FR PR CO L1 L2 K1 K2.
  destruct (c04 bs p ws1 HB ltac:(lia) HL) as [l [C1 C2]]. eexists _, _. split; [exact C1|]. split; [now rewrite map_length|].
  split; [exact HN|]. split; [exact HP|]. split; [apply srs_of_sized|]. split.
  - eexists _, _, (recs_bytes l). rewrite fset_same. unfold file1, hdr1, be16, phase1_file. reflexivity.
  - split; [|repeat (split; [assumption|]); assumption]. exists rb. split; [|exact PR]. rewrite fset_other by exact NR. exact FR.
Qed.
Lemma c46_full bs p (ws1 : list (@rnd1 E)) (ws2 : list (E * E)) (cs : r1cs E) f p1 r1 p2 rb : 2 <= bs -> 1 <= p <= 54 -> length ws1 <= N.to_nat 65535 ->
  names_ok p1 r1 p2 -> p1 <> r1 -> f r1 = Some rb -> parse_r1cs rb = Some cs ->
  circuit_ok cs -> length (r_cons cs) <= 2 ^ p -> (Z.of_nat (length (r_cons cs)) <= 2 ^ 27)%Z -> 1 <= kmax E -> length (r_cons cs) <= 2 ^ kmax E ->
  no_cmt cs -> (N.of_nat (wires cs) < 4294967296)%N -> (Z.of_nat (length ws2) < 9223372036854775808)%Z ->
  exists F1 hs1 fa k h (q0 : par2 E), ceremony1 bs p ws1 = Ok (F1, hs1) /\ length hs1 = length ws1 /\
    p2n (E := E) p1 r1 p2 (fset f p1 F1) = (Ok tt, fa) /\ fa p2 = Some (file2 h q0 []) /\
    is_dom (length (r_cons cs)) k /\
    ((forall j, (1 <= j <= length ws2)%nat -> unsplit (set_contribs h (Z.of_nat j)) q0 j) ->
     exists F hs, ceremony2 (E := E) bs (file2 h q0 []) ws2 = Ok (F, hs) /\
     forall g sg pz, pz <> pk_path -> pz <> vk_path -> pz <> evals_path ->
     exists fb (q : pkey E) (v : vkey E), extract_keys wrap64 g sg pz (fset fa pz F) = (Ok tt, fb) /\
       fb pk_path = Some (pk_bytes k (N.of_nat (wires cs)) q) /\
       fb vk_path = Some (vk_bytes (ped (e := E) g sg []) (empty_info (E := E)) v) /\
       is_keypair cs k (root k) (prodl (map (fun w => r_alpha w) ws1)) (prodl (map (fun w => r_beta w) ws1)) (prodf ws2)
         (prodl (map (fun w => r_tau w) ws1)) q v).
Proof.
  intros HB HP HL HN NR FR PR CO L1 L2 K1 K2 Hnc HW HL2.
  destruct (phase1_input bs p ws1 cs f p1 r1 p2 rb HB HP HL HN NR FR PR CO L1 L2 K1 K2) as [F1 [hs1 [C1 [C2 C3]]]].
  destruct (c46 _ _ _ _ cs _ p1 r1 p2 bs ws2 C3 Hnc HW ltac:(lia) HL2) as [fa [k [h [q0 [H1 [H2 [H3 [H4 H5]]]]]]]].
  exists F1, hs1, fa, k, h, q0. repeat (split; [assumption|]). exact H5.
Qed.

(* C48 *)
Lemma c48 wr (g sg : E) p s f f1 : p <> pk_path -> p <> vk_path -> ~ In p (split_names s) -> p <> vks_path s ->
  extract_keys wr g sg p f = (Ok tt, f1) ->
  exists f2 k dom nw (q : pkey E) (v : vkey E), let ck := ped (e := E) g sg (w_ck v) in
    extract_split_keys wr g sg p s f = (Ok tt, f2) /\
    f1 pk_path = Some (pk_bytes k nw q) /\ map f2 (split_names s) = map Some (split_bytes dom nw q) /\
    f1 vk_path = Some (vk_bytes ck (empty_info (E := E)) v) /\ f2 (vks_path s) = f1 vk_path /\
    f2 (ckey_path s) = Some (ck ++ ck).
Proof.
  intros N1 N2 N3 N4 H. destruct (extract_keys_inv wr g sg p f f1 N1 N2 H) as [F [G [h [q [k [v [s1 [s2 [HF [HG [R1 [ND R2]]]]]]]]]]]].
  destruct (extract_keys_run wr g sg p f F G h q k v s1 s2 N1 N2 HF HG R1 ND R2) as [f1' [A1 [A2 [A3 A4]]]].
  assert (f1' = f1) by congruence. subst f1'.
  destruct (extract_split_run wr g sg p s f F G h q v s1 s2 N3 N4 HF HG R1 R2) as [f2 [B1 [B2 [B3 [B4 B5]]]]].
  exists f2, k, (u64 (h_domain h)), (u64 (h_wires h)), q, v. cbv zeta. split; [exact B1|]. split; [exact A2|]. split; [|split; [exact A3|split; [|exact B4]]].
  - cbn [split_names List.map map]. unfold split_bytes. cbn [map].
    pose proof (B2 0%nat _ eq_refl) as Q0. pose proof (B2 1%nat _ eq_refl) as Q1. pose proof (B2 2%nat _ eq_refl) as Q2.
    pose proof (B2 3%nat _ eq_refl) as Q3. pose proof (B2 4%nat _ eq_refl) as Q4. pose proof (B2 5%nat _ eq_refl) as Q5.
    cbn [nth_error split_bytes] in *. rewrite Q0, Q1, Q2, Q3, Q4, Q5. reflexivity.
  - rewrite B3. symmetry. exact A3.
Qed.

(* C44 *)
Lemma c44 (g sg : E) wr F h q v w : ph2 F h q -> smalls v -> same_wires w v -> h_wires h = Z.of_nat w ->
  (wr = wrap64 /\ (Z.of_nat w < 72057594037927935)%Z) \/ (wr = wrap32 /\ (Z.of_nat w < 16777215)%Z) ->
  exec (extract_vk wr g sg) F (evals_bytes v) =
    (Ok (ped (e := E) g sg (v_ckk v)), vk_bytes (ped (e := E) g sg (v_ckk v)) (empty_info (E := E)) (vk_of q v)).
Proof.
  intros H1 H2 H3 H4 H5. destruct (read_vk_ok wr F h q v w H1 H2 H3 H4) as [s' R].
  - destruct H5 as [[-> L]|[-> L]]; [apply pos64|apply pos32]; lia.
  - apply vk_fwd with (g := g) (sg := sg) in R. apply ev_exec in R. exact R.
Qed.

Lemma c44_32 (g sg : E) F G h t ck out : F = gob_hdr h ++ t -> hdr_ok h -> (16777215 <= h_wires h < 33554431)%Z ->
  exec (extract_vk wrap32 g sg) F G <> (Ok ck, out).
Proof. intros H1 H2 H3. apply (vk_negative wrap32 g sg F G h t); auto. now apply pos32_neg. Qed.

(* C45 *)
Lemma c45_flags p S0 (cs : r1cs E) f p1 r1 p2 : init_input p S0 cs f p1 r1 p2 -> no_cmt cs ->
  tau2 S0 = firstn (2 ^ p) (tau1 S0) ->
  exists f' (v : evals E), p2n (E := E) p1 r1 p2 f = (Ok tt, f') /\ f' evals_path = Some (evals_bytes v) /\
    length (v_B v) = wires cs /\ absent (v_B2 v) = absent (v_B v) /\
    restore (absent (v_B v)) (present (v_B2 v)) = v_B2 v.
Proof.
  intros HI Hnc HT. pose proof HI as [_ [Hp [SZ [_ [_ [_ [_ [_ [KM1 KM2]]]]]]]]].
  destruct (p2n_ok _ _ _ _ _ _ _ HI Hnc) as [f' [k [t [a [b [t2 [z [S [O [KD [KP [Bt [Ba [Bb [Bt2 [Hz [G1 [G2 G3]]]]]]]]]]]]]]]]]].
  assert (KM : k <= kmax E) by (apply KD; auto).
  destruct (root_conds k (conj (proj1 KD) KM)) as [Rt Ch].
  assert (T2 : firstn (2 ^ k) (tau2 S0) = firstn (2 ^ k) (tau1 S0)).
  { rewrite HT, firstn_firstn. f_equal. apply Nat.min_l. apply Nat.pow_le_mono_r; lia. }
  rewrite T2 in Bt2. assert (t2 = t) by exact (lag_basis_unique k (root k) (proj1 KD) Rt Ch _ _ _ Bt2 Bt). subst t2.
  eexists f', _. split; [exact S|]. split; [exact G2|]. cbn [v_B v_B2]. split; [unfold cols; now rewrite map_length, seq_length|].
  split; [reflexivity|]. apply restore_present.
Qed.
Lemma c45_filter (l : list E) : filterInfinity l = (present l, absent l, N.of_nat (count_absent l)) /\ restore (absent l) (present l) = l.
Proof. split; [apply filter_inf_spec|apply restore_present]. Qed.

(* C49 *)
Lemma c49 wr (g sg : E) F G ck out : exec (extract_vk wr g sg) F G = (Ok ck, out) ->
  exists v : vkey E, out = vk_bytes ck (empty_info (E := E)) v.
Proof.
  intros H. apply exec_ev in H. destruct H as [s' [D [H <-]]]. destruct (vk_bwd _ _ _ _ _ _ _ H) as [v R].
  exists v. pose proof (vk_fwd wr g sg _ _ _ R) as R2. destruct (ev_det _ _ _ _ _ _ _ _ H R2) as [X [_ Y]].
  injection X as ->. rewrite Y. reflexivity.
Qed.

(* C50: two circuits initialised in one directory *)
Lemma c50 p T A B (cs1 cs2 : r1cs E) f p1 r1 r2 p2 p2' :
  init_input p (srs_of p T A B) cs1 f p1 r1 p2 -> init_input p (srs_of p T A B) cs2 f p1 r2 p2' ->
  no_cmt cs1 -> no_cmt cs2 -> p2 <> p2' -> r2 <> p2 -> p2 <> pk_path -> p2 <> vk_path ->
  wires cs1 = wires cs2 -> (N.of_nat (wires cs1) < 4294967296)%N ->
  exists fa fb k1 k2 t1 t2, p2n (E := E) p1 r1 p2 f = (Ok tt, fa) /\ p2n (E := E) p1 r2 p2' fa = (Ok tt, fb) /\
    is_dom (length (r_cons cs1)) k1 /\ lag_values (2 ^ k1) (root k1) T t1 /\
    is_dom (length (r_cons cs2)) k2 /\ lag_values (2 ^ k2) (root k2) T t2 /\
    forall g sg, exists fc (q : pkey E) (v : vkey E), extract_keys wrap64 g sg p2 fb = (Ok tt, fc) /\
      fc pk_path = Some (pk_bytes k1 (N.of_nat (wires cs1)) q) /\
      fc vk_path = Some (vk_bytes (ped (e := E) g sg []) (empty_info (E := E)) v) /\
      q_K q = map (kat cs1 A B t1) (seq (nb_public cs1) (wires cs1 - nb_public cs1)) /\ length (q_Z q) = (2 ^ k1 - 1)%nat /\
      q_A q = map (col cs2 r_L t2) (seq 0 (wires cs2)) /\ q_B q = map (col cs2 r_R t2) (seq 0 (wires cs2)) /\ q_B2 q = q_B q /\
      w_K v = map (kat cs2 A B t2) (seq 0 (nb_public cs2)).
Proof.
  intros HI1 HI2 C1 C2 NP NR NK NV EW HW.
  destruct (after_ceremony p T A B cs1 f p1 r1 p2 1 [] HI1 C1 HW (le_n 1) ltac:(cbn; lia)) as
    [fa [k1 [t1 [z1 [h1 [q1 [v1 [A1 [A2 [A3 [A4 [A5 [A6 [A7 [A8 [A9 [A10 [A11 [A12 [A13 [A14 A15]]]]]]]]]]]]]]]]]]]]].
  assert (HI2' : init_input p (srs_of p T A B) cs2 fa p1 r2 p2').
  { destruct HI2 as [X1 [X2 [X3 [X4 [X5 X6]]]]]. split; [exact X1|]. split; [exact X2|]. split; [exact X3|].
    destruct X1 as [Y1 [Y2 [Y3 [Y4 [Y5 [Y6 [Y7 Y8]]]]]]]. destruct HI1 as [[W1 _] _].
    split; [|split; [|exact X6]].
    - now rewrite A2 by auto.
    - now rewrite A2 by auto. }
  assert (HW2 : (N.of_nat (wires cs2) < 4294967296)%N) by congruence.
  destruct (after_ceremony p T A B cs2 fa p1 r2 p2' 1 [] HI2' C2 HW2 (le_n 1) ltac:(cbn; lia)) as
    [fb [k2 [t2 [z2 [h2 [q2 [v2 [B1 [B2 [B3 [B4 [B5 [B6 [B7 [B8 [B9 [B10 [B11 [B12 [B13 [B14 B15]]]]]]]]]]]]]]]]]]]]].
  exists fa, fb, k1, k2, t1, t2. repeat (split; [solve [auto]|]). intros g sg.
  destruct HI1 as [[W1 [W2 [W3 [W4 [W5 [W6 [W7 W8]]]]]]] _].
  assert (HF : fb p2 = Some (file2 h1 q1 [])) by (rewrite B2; auto).
  destruct (A15 ltac:(cbn; lia)) as [F [hs [l [D1 [D2 D3]]]]].
  injection D1 as <- _. cbn [length] in D3. change (prodf (@nil (E * E))) with (1 : E) in D3. rewrite upd1 in D3.
  assert (Hh : set_contribs h1 (Z.of_nat 0) = h1) by (rewrite A9; reflexivity). rewrite Hh in D3.
  destruct (read_pk_ok _ _ _ v2 D3 B13) as [s1 R1].
  assert (HWZ : h_wires h1 = Z.of_nat (wires cs2)) by (rewrite A9, <- EW; reflexivity).
  destruct (read_vk_ok wrap64 _ _ _ v2 (wires cs2) D3 B13 B14 HWZ) as [s2 R2]; [apply pos64; lia|].
  destruct (extract_keys_run wrap64 g sg p2 fb _ (evals_bytes v2) _ _ k1 _ s1 s2 NK NV HF B4 R1 A12 R2) as [fc [E1 [E2 [E3 E4]]]].
  eexists fc, _, _. split; [exact E1|]. split; [|split].
  - rewrite E2, HWZ, u64_nat, EW by lia. reflexivity.
  - rewrite E3. unfold vk_of. cbn [w_ck]. rewrite B11. cbn [v_ckk]. reflexivity.
  - unfold pk_of, vk_of. rewrite A10, B11. cbn [q_K q_Z q_A q_B q_B2 w_K p_K p_Z v_A v_B v_B2 v_vkk].
    split; [f_equal; f_equal; unfold wires; lia|]. split; [apply A8|]. repeat split.
Qed.
End Props.

Lemma c48_names (s : string) :
  split_names s = [s ++ ".pk.E.save"; s ++ ".pk.A.save"; s ++ ".pk.B1.save"; s ++ ".pk.Z.save"; s ++ ".pk.K.save"; s ++ ".pk.B2.save"]%string /\
  vks_path s = (s ++ ".vk.save")%string /\ ckey_path s = (s ++ ".pk.CommitmentKey.save")%string /\
  pk_path = "pk"%string /\ vk_path = "vk"%string /\ evals_path = "evals"%string.
Proof. repeat split. Qed.
