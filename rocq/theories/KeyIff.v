(* KeyIff.v -- which files key accepts, and what it writes. *)
From Coq Require Import String.
From Verif Require Import Base Fld IO Ext Spec1 Phase1 Phase1Io Phase1Verify Phase1Inv Cut1 Gob GobLemmas Circuit Spec2 Phase2 Phase2Io Phase2Lemmas Spec3 Fs Init2 Init2Io Init2More Spec4 Keys KeysLemmas KeysClaims Spec28.
Local Open Scope fld_scope.

Lemma be32_of b : length b = 4%nat -> be32 (be_val 0 b) = b /\ (be_val 0 b < 4294967296)%N.
Proof.
  intros L. destruct b as [|w [|x [|y [|z [|]]]]]; try discriminate. cbn [be_val]. unfold be32.
  pose proof (bN_lt w) as W. pose proof (bN_lt x) as X. pose proof (bN_lt y) as Y. pose proof (bN_lt z) as Z.
  assert (Q : forall a b, (a < 256)%N -> b8 (b * 256 + a) = b8 a).
  { intros a b H. rewrite <- (b8_bN (b8 (b * 256 + a))), <- (b8_bN (b8 a)), !bN_b8. f_equal.
    rewrite N.add_comm, N.mod_add by lia. reflexivity. }
  assert (D : forall a b, (a < 256)%N -> ((b * 256 + a) / 256 = b)%N).
  { intros a b H. rewrite N.div_add_l by lia. rewrite N.div_small by lia. lia. }
  split; [|lia].
  assert (E1 : (16777216 = 256 * 256 * 256)%N) by reflexivity. assert (E2 : (65536 = 256 * 256)%N) by reflexivity.
  rewrite E1, E2, <- !N.div_div by lia. rewrite !D, !Q by lia. rewrite ?N.mul_0_l, ?N.add_0_l, !b8_bN. reflexivity.
Qed.

Section K.
Context {E : Ext2}.
Lemma ev_slice1_any h file p (l : list E) b t s : is_slice1 b l -> getr h s = at_ file defBuf p (b ++ t) ->
  ev (read_slice1 h) s (Ok l) (setr h (at_ file defBuf (p + length b) t) s) none.
Proof.
  intros [pb [-> [S A]]] G. unfold read_slice1. rewrite <- app_assoc in G.
  eapply evb; [eapply readfull_ok; [apply (be32_length (N.of_nat (length l)))|apply (bigcap_le defBuf 4); [exact defBuf_big|lia]|exact G]|].
  cbv beta. rewrite be32_val, Nat2N.id by exact S. rewrite app_length, be32_length, Nat.add_assoc.
  eapply ev_set2, ev_decodes1; [exact defBuf_big|exact A|apply getr_setr].
Qed.
Lemma ev_slice2_any h file p (l : list E) b t s : is_slice2 b l -> getr h s = at_ file defBuf p (b ++ t) ->
  ev (read_slice2 h) s (Ok l) (setr h (at_ file defBuf (p + length b) t) s) none.
Proof.
  intros [pb [-> [S A]]] G. unfold read_slice2. rewrite <- app_assoc in G.
  eapply evb; [eapply readfull_ok; [apply (be32_length (N.of_nat (length l)))|apply (bigcap_le defBuf 4); [exact defBuf_big|lia]|exact G]|].
  cbv beta. rewrite be32_val, Nat2N.id by exact S. rewrite app_length, be32_length, Nat.add_assoc.
  eapply ev_set2, ev_decodes2; [exact defBuf_big|exact A|apply getr_setr].
Qed.
Lemma len_inv h file p rest s b s' d : getr h s = at_ file defBuf p rest -> ev (readfull h 4) s (Ok b) s' d ->
  exists t, rest = b ++ t /\ length b = 4%nat /\ s' = setr h (at_ file defBuf (p + 4) t) s.
Proof.
  intros G H. assert (C : defBuf = 0%nat \/ 4 < defBuf) by (apply (bigcap_le defBuf 4); [exact defBuf_big|lia]).
  pose proof (readfull_take h file defBuf p rest s 4 C G) as Q. destruct (Nat.ltb_spec (length rest) 4) as [L|L];
    destruct (ev_det _ _ _ _ _ _ _ _ H Q) as [Y [-> _]]; [discriminate|].
  assert (b = firstn 4 rest) by congruence. subst b.
  exists (skipn 4 rest). split; [now rewrite firstn_skipn|]. split; [apply firstn_length_le; exact L|reflexivity].
Qed.
Lemma slice1_inv h file p rest s (l : list E) s' d : ev (read_slice1 h) s (Ok l) s' d -> getr h s = at_ file defBuf p rest ->
  exists b t, rest = b ++ t /\ is_slice1 b l /\ s' = setr h (at_ file defBuf (p + length b) t) s.
Proof.
  intros H G. unfold read_slice1 in H. apply bind_ok_inv in H as [nb [s1 [d1 [d2 [H1 [H _]]]]]].
  destruct (len_inv _ _ _ _ _ _ _ _ G H1) as [t [-> [L ->]]]. destruct (be32_of nb L) as [Q S].
  destruct (decodes1_inv _ _ _ defBuf_big _ _ _ _ _ _ _ (getr_setr _ _ _) H) as [pb [u [-> [A [N ->]]]]].
  exists (nb ++ pb), u. rewrite <- app_assoc. split; [reflexivity|]. split.
  - exists pb. rewrite N, N2Nat.id, Q. auto.
  - now rewrite setr_setr, app_length, L, Nat.add_assoc.
Qed.
Lemma slice2_inv h file p rest s (l : list E) s' d : ev (read_slice2 h) s (Ok l) s' d -> getr h s = at_ file defBuf p rest ->
  exists b t, rest = b ++ t /\ is_slice2 b l /\ s' = setr h (at_ file defBuf (p + length b) t) s.
Proof.
  intros H G. unfold read_slice2 in H. apply bind_ok_inv in H as [nb [s1 [d1 [d2 [H1 [H _]]]]]].
  destruct (len_inv _ _ _ _ _ _ _ _ G H1) as [t [-> [L ->]]]. destruct (be32_of nb L) as [Q S].
  destruct (decodes2_inv _ _ _ defBuf_big _ _ _ _ _ _ _ (getr_setr _ _ _) H) as [pb [u [-> [A [N ->]]]]].
  exists (nb ++ pb), u. rewrite <- app_assoc. split; [reflexivity|]. split.
  - exists pb. rewrite N, N2Nat.id, Q. auto.
  - now rewrite setr_setr, app_length, L, Nat.add_assoc.
Qed.
Lemma read_n_inv n F p rest s (l : list E) s' d : ev (read_n n) s (Ok l) s' d -> getr false s = at_ F defBuf p rest ->
  exists b t, rest = b ++ t /\ are1 b l /\ n = Z.of_nat (length l) /\ s' = setr false (at_ F defBuf (p + length b) t) s.
Proof.
  intros H G. unfold read_n in H. destruct (Z.ltb_spec n 0) as [L|L]; [destruct H as [w [H _]]; discriminate|].
  destruct (decodes1_inv _ _ _ defBuf_big _ _ _ _ _ _ _ G H) as [b [t [-> [A [N ->]]]]].
  exists b, t. split; [reflexivity|]. split; [exact A|]. split; [lia|reflexivity].
Qed.
Lemma least_new m k : (1 <= m)%Z -> (new_domain (E := E) m = Some k <-> least_pow m k /\ k <= kmax E).
Proof.
  intros M. unfold new_domain. destruct (Z.ltb_spec m 0) as [L|L]; [lia|]. cbv zeta.
  assert (P : least_pow m (Z.to_nat (Z.log2_up m))).
  { pose proof (Z.log2_up_nonneg m) as N0. split.
    - rewrite Z2Nat.id by exact N0. apply Z.log2_up_le_pow2; [lia|reflexivity].
    - intros j Hj. apply Z.log2_up_le_pow2 in Hj; [lia|lia]. }
  assert (U : least_pow m k -> k = Z.to_nat (Z.log2_up m)).
  { intros [K1 K2]. destruct P as [P1 P2]. specialize (K2 _ P1). specialize (P2 _ K1). lia. }
  destruct (Nat.ltb_spec (kmax E) (Z.to_nat (Z.log2_up m))) as [X|X]; split.
  - discriminate.
  - intros [Y1 Y2]. apply U in Y1. lia.
  - intros Q. injection Q as <-. auto.
  - intros [Y1 Y2]. apply U in Y1. now subst k.
Qed.

Ltac rd L := rewrite <- ?app_assoc; eapply evb; [eapply L; [first [apply defBuf_big|apply defBuf_gob]| |cbn [getr setr fst snd]; reflexivity]; eassumption|];
  cbn [getr setr fst snd]; cbn beta.
Lemma read_pk_gen h (q : par2 E) v G w t : ph2 (gob_hdr h ++ t) h q -> evals_read w G v -> exists s',
  ev (read_pk (E := E)) (opened (gob_hdr h ++ t), opened G) (Ok (h, pk_of q v)) s' none.
Proof.
  intros [HO [[SZ SK] [pb [junk [EF [b1 [b2 [b3 [b4 [EP [I1 [I2 [A3 A4]]]]]]]]]]]]] [[c1 [c2 [c3 [c4 [c5 [c6 [u [EG [J1 [J2 [J3 [J4 [J5 J6]]]]]]]]]]]]] _].
  assert (W : wrap64 (h_domain h - 1) = Z.of_nat (length (p_Z q))).
  { rewrite <- SZ. apply wrap64_small. unfold hdr_ok, hdr_fields in HO. rewrite !Forall_cons_iff in HO. unfold int64, two63 in *. lia. }
  remember (gob_hdr h ++ t) as F eqn:EF0. clear EF0.
  eexists. unfold read_pk. eapply newrd_opened; [reflexivity|]. eapply newrd_opened; [reflexivity|].
  cbn [setr fst snd]. rewrite EG at 2. clear EG. rewrite EF at 2. clear EF. subst pb.
  rd (ev_read_hdr (gob_alt (e := E))).
  do 2 rd (@ev_decode1 E). rd (@ev_decode1 E). rd (@ev_decode2 E). rd (@ev_decode2 E).
  eapply evb; [eapply ev_slice1_any; [exact J4|cbn [getr setr fst snd]; rewrite <- ?app_assoc; reflexivity]|]. cbn [getr setr fst snd]. cbn beta.
  eapply evb; [eapply ev_slice1_any; [exact J5|cbn [getr setr fst snd]; rewrite <- ?app_assoc; reflexivity]|]. cbn [getr setr fst snd]. cbn beta.
  eapply evb; [eapply ev_read_n; [exact W|exact A3|cbn [getr setr fst snd]; rewrite <- ?app_assoc; reflexivity]|]. cbn [getr setr fst snd]. cbn beta.
  eapply evb; [eapply ev_read_n; [exact SK|exact A4|cbn [getr setr fst snd]; rewrite <- ?app_assoc; reflexivity]|]. cbn [getr setr fst snd]. cbn beta.
  eapply evb; [eapply ev_slice2_any; [exact J6|cbn [getr setr fst snd]; rewrite <- ?app_assoc; reflexivity]|]. cbn [getr setr fst snd]. cbn beta.
  apply ev_ret.
Qed.
Lemma read_vk_gen h (q : par2 E) v G t : ph2 (gob_hdr h ++ t) h q -> evals_read (h_wires h) G v -> (0 <= h_wires h < 72057594037927935)%Z -> exists s',
  ev (read_vk (E := E) wrap64) (opened (gob_hdr h ++ t), opened G) (Ok (vk_of q v)) s' none.
Proof.
  intros [HO [_ [pb [junk [EF [b1 [b2 [b3 [b4 [EP [I1 [I2 _]]]]]]]]]]]] [[c1 [c2 [c3 [c4 [c5 [c6 [u [EG [J1 [J2 [J3 _]]]]]]]]]]] [e1 [e2 [u2 [ES [K1 K2]]]]]] HW.
  pose proof (pos64 (h_wires h) ltac:(lia)) as HP.
  remember (gob_hdr h ++ t) as F eqn:EF0. clear EF0.
  eexists. unfold read_vk. eapply newrd_opened; [reflexivity|]. eapply newrd_opened; [reflexivity|].
  cbn [setr fst snd]. rewrite EG at 2. clear EG. rewrite EF at 2. clear EF. subst pb.
  rd (ev_read_hdr (gob_alt (e := E))). change (wrap64 (wrap64 (128 * wrap64 (h_wires h + 1)) + 12)%Z) with (pos_of wrap64 (h_wires h)). rewrite HP.
  rd (@ev_decode1 E). rd (@ev_decode1 E). rd (@ev_decode2 E). rd (@ev_decode1 E). rd (@ev_decode2 E).
  eapply evb; [eapply ev_seek; [cbn [getr setr fst snd]; reflexivity|symmetry; apply Z2Nat.id; unfold vkk_off; lia]|].
  cbn [getr setr fst snd]. rewrite ES. cbn beta.
  eapply ev_newrd0; [cbn [getr setr fst snd]; reflexivity|]. cbn [getr setr fst snd].
  eapply evb; [eapply ev_slice1_any; [exact K1|cbn [getr setr fst snd]; rewrite <- ?app_assoc; reflexivity]|]. cbn [getr setr fst snd]. cbn beta.
  eapply evb; [eapply ev_slice1_any; [exact K2|cbn [getr setr fst snd]; rewrite <- ?app_assoc; reflexivity]|]. cbn [getr setr fst snd]. cbn beta.
  apply ev_ret.
Qed.

(* the other direction *)
Lemma hdr_inv F G h t h' s' d : F = gob_hdr h ++ t -> hdr_ok h ->
  ev (read_hdr2 (E := E) false) (at_ F defBuf 0 F, at_ G defBuf 0 G) (Ok h') s' d ->
  h' = h /\ s' = (at_ F defBuf (0 + length (gob_hdr h)) t, at_ G defBuf 0 G).
Proof.
  intros EF HO R.
  assert (R2 : ev (read_hdr2 (E := E) false) (at_ F defBuf 0 F, at_ G defBuf 0 G) (Ok h) (at_ F defBuf (0 + length (gob_hdr h)) t, at_ G defBuf 0 G) none).
  { apply (ev_read_hdr (gob_alt (e := E)) false F defBuf 0 h t (at_ F defBuf 0 F, at_ G defBuf 0 G) defBuf_gob HO). cbn [getr fst]. now rewrite EF at 2. }
  destruct (ev_det _ _ _ _ _ _ _ _ R R2) as [X [Y _]]. injection X as ->. auto.
Qed.
Lemma d1i h file p rest s (x : E) s' d : ev (decode1 h) s (Ok x) s' d -> getr h s = at_ file defBuf p rest ->
  exists b t, rest = b ++ t /\ is1 b x /\ s' = setr h (at_ file defBuf (p + length b) t) s.
Proof. intros H G. exact (decode1_ok_inv h file defBuf p rest s x s' d defBuf_big G H). Qed.
Lemma d2i h file p rest s (x : E) s' d : ev (decode2 h) s (Ok x) s' d -> getr h s = at_ file defBuf p rest ->
  exists b t, rest = b ++ t /\ is2 b x /\ s' = setr h (at_ file defBuf (p + length b) t) s.
Proof. intros H G. exact (decode2_ok_inv h file defBuf p rest s x s' d defBuf_big G H). Qed.
Lemma read_pk_only F G h t h' (k : pkey E) s' : F = gob_hdr h ++ t -> hdr_ok h -> (- two63 < h_domain h)%Z ->
  ev (read_pk (E := E)) (opened F, opened G) (Ok (h', k)) s' none ->
  h' = h /\ exists (q : par2 E), ph2 F h q /\ k = mkPk (q_alpha k) (q_beta k) (p_d1 q) (q_A k) (q_B k) (p_Z q) (p_K q) (q_beta2 k) (p_d2 q) (q_B2 k) /\
  exists b1 b2 b3 b4 b5 b6 u, G = b1 ++ b2 ++ b3 ++ b4 ++ b5 ++ b6 ++ u /\ is1 b1 (q_alpha k) /\ is1 b2 (q_beta k) /\ is2 b3 (q_beta2 k) /\
    is_slice1 b4 (q_A k) /\ is_slice1 b5 (q_B k) /\ is_slice2 b6 (q_B2 k).
Proof.
  intros EF HO DM H. unfold read_pk in H. do 2 apply newrd_inv in H. cbn [getr setr fst snd] in H. unfold opened in H. rewrite !rd_buf_at in H.
  apply bind_ok_inv in H as [h0 [s1 [? [? [R [H _]]]]]]. destruct (hdr_inv F G h t h0 s1 _ EF HO R) as [-> ->]. clear R.
  apply bind_ok_inv in H as [xa [s1 [? [? [R [H _]]]]]].
  destruct (d1i _ _ _ _ _ _ _ _ R eq_refl) as [b1 [t1 [E1 [I1 ->]]]]. clear R. cbn [setr] in H.
  apply bind_ok_inv in H as [xb [s1 [? [? [R [H _]]]]]].
  destruct (d1i _ _ _ _ _ _ _ _ R eq_refl) as [b2 [t2 [-> [I2 ->]]]]. clear R. cbn [setr] in H.
  apply bind_ok_inv in H as [xd [s1 [? [? [R [H _]]]]]].
  destruct (d1i _ _ _ _ _ _ _ _ R eq_refl) as [c1 [u1 [ET [J1 ->]]]]. clear R. cbn [setr] in H.
  apply bind_ok_inv in H as [xb2 [s1 [? [? [R [H _]]]]]].
  destruct (d2i _ _ _ _ _ _ _ _ R eq_refl) as [b3 [t3 [-> [I3 ->]]]]. clear R. cbn [setr] in H.
  apply bind_ok_inv in H as [xd2 [s1 [? [? [R [H _]]]]]].
  destruct (d2i _ _ _ _ _ _ _ _ R eq_refl) as [c2 [u2 [-> [J2 ->]]]]. clear R. cbn [setr] in H.
  apply bind_ok_inv in H as [lA [s1 [? [? [R [H _]]]]]].
  destruct (slice1_inv _ _ _ _ _ _ _ _ R eq_refl) as [b4 [t4 [-> [I4 ->]]]]. clear R. cbn [setr] in H.
  apply bind_ok_inv in H as [lB [s1 [? [? [R [H _]]]]]].
  destruct (slice1_inv _ _ _ _ _ _ _ _ R eq_refl) as [b5 [t5 [-> [I5 ->]]]]. clear R. cbn [setr] in H.
  apply bind_ok_inv in H as [lz [s1 [? [? [R [H _]]]]]].
  destruct (read_n_inv _ _ _ _ _ _ _ _ R eq_refl) as [c3 [u3 [-> [J3 [N3 ->]]]]]. clear R. cbn [setr] in H.
  apply bind_ok_inv in H as [lk [s1 [? [? [R [H _]]]]]].
  destruct (read_n_inv _ _ _ _ _ _ _ _ R eq_refl) as [c4 [u4 [-> [J4 [N4 ->]]]]]. clear R. cbn [setr] in H.
  apply bind_ok_inv in H as [lB2 [s1 [? [? [R [H _]]]]]].
  destruct (slice2_inv _ _ _ _ _ _ _ _ R eq_refl) as [b6 [t6 [-> [I6 ->]]]]. clear R. cbn [setr] in H.
  apply ret_inv in H as [Q _]. injection Q as Q1 Q2. subst k. split; [congruence|].
  exists (mkPar2 xd xd2 lz lk). cbn [q_alpha q_beta q_A q_B q_beta2 q_B2 p_d1 p_d2 p_Z p_K]. split; [|split; [reflexivity|]].
  - split; [exact HO|]. split.
    + rewrite wrap64_small in N3 by (unfold hdr_ok, hdr_fields in HO; rewrite !Forall_cons_iff in HO; unfold int64, two63 in *; lia).
      split; cbn [p_Z p_K]; [exact N3|exact N4].
    + exists (c1 ++ c2 ++ c3 ++ c4), u4. split; [rewrite EF, ET, <- !app_assoc; reflexivity|]. exists c1, c2, c3, c4. auto.
  - exists b1, b2, b3, b4, b5, b6, t6. auto 10.
Qed.
Lemma seek_inv o pos n s file cap p rest s' d : ev (seek o pos) s (Ok tt) s' d -> getr o s = at_ file cap p rest -> pos = Z.of_nat n ->
  s' = setr o (at_ file 0 0 (skipn n file)) s.
Proof. intros R G N. destruct (ev_det _ _ _ _ _ _ _ _ R (ev_seek o pos n s file cap p rest G N)) as [_ [Q _]]. exact Q. Qed.
Lemma read_vk_only F G h t (v : vkey E) s' : F = gob_hdr h ++ t -> hdr_ok h -> (0 <= h_wires h < 72057594037927935)%Z ->
  ev (read_vk (E := E) wrap64) (opened F, opened G) (Ok v) s' none ->
  (exists b1 b2 b3 u, G = b1 ++ b2 ++ b3 ++ u /\ is1 b1 (w_alpha v) /\ is1 b2 (w_beta v) /\ is2 b3 (w_beta2 v)) /\
  (exists b1 b2 u, t = b1 ++ b2 ++ u /\ is1 b1 (w_delta v) /\ is2 b2 (w_delta2 v)) /\
  exists b1 b2 u, skipn (Z.to_nat (vkk_off (h_wires h))) G = b1 ++ b2 ++ u /\ is_slice1 b1 (w_K v) /\ is_slice1 b2 (w_ck v).
Proof.
  intros EF HO HW H.
  assert (HS : vkk_off (h_wires h) = Z.of_nat (Z.to_nat (vkk_off (h_wires h)))) by (symmetry; apply Z2Nat.id; unfold vkk_off; lia).
  unfold read_vk in H. do 2 apply newrd_inv in H. cbn [getr setr fst snd] in H. unfold opened in H. rewrite !rd_buf_at in H.
  apply bind_ok_inv in H as [h0 [s1 [? [? [R [H _]]]]]]. destruct (hdr_inv F G h t h0 s1 _ EF HO R) as [-> ->]. clear R.
  apply bind_ok_inv in H as [xa [s1 [? [? [R [H _]]]]]].
  destruct (d1i _ _ _ _ _ _ _ _ R eq_refl) as [b1 [t1 [E1 [I1 ->]]]]. clear R. cbn [setr] in H.
  apply bind_ok_inv in H as [xb [s1 [? [? [R [H _]]]]]].
  destruct (d1i _ _ _ _ _ _ _ _ R eq_refl) as [b2 [t2 [-> [I2 ->]]]]. clear R. cbn [setr] in H.
  apply bind_ok_inv in H as [xb2 [s1 [? [? [R [H _]]]]]].
  destruct (d2i _ _ _ _ _ _ _ _ R eq_refl) as [b3 [t3 [-> [I3 ->]]]]. clear R. cbn [setr] in H.
  apply bind_ok_inv in H as [xd [s1 [? [? [R [H _]]]]]].
  destruct (d1i _ _ _ _ _ _ _ _ R eq_refl) as [c1 [u1 [ET [J1 ->]]]]. clear R. cbn [setr] in H.
  apply bind_ok_inv in H as [xd2 [s1 [? [? [R [H _]]]]]].
  destruct (d2i _ _ _ _ _ _ _ _ R eq_refl) as [c2 [u2 [-> [J2 ->]]]]. clear R. cbn [setr] in H.
  apply bind_ok_inv in H as [[] [s1 [? [? [R [H _]]]]]].
  fold (pos_of wrap64 (h_wires h)) in R. rewrite pos64 in R by lia.
  apply (seek_inv _ _ _ _ _ _ _ _ _ _ R eq_refl) in HS as ->. clear R. cbn [setr] in H.
  apply newrd_inv in H. cbn [getr setr fst snd] in H. rewrite rd_buf_at in H.
  apply bind_ok_inv in H as [lk [s1 [? [? [R [H _]]]]]].
  destruct (slice1_inv _ _ _ _ _ _ _ _ R eq_refl) as [e1 [v1 [ES [K1 ->]]]]. clear R. cbn [setr] in H.
  apply bind_ok_inv in H as [lc [s1 [? [? [R [H _]]]]]].
  destruct (slice1_inv _ _ _ _ _ _ _ _ R eq_refl) as [e2 [v2 [-> [K2 ->]]]]. clear R. cbn [setr] in H.
  apply ret_inv in H as [Q _]. subst v. cbn [w_alpha w_beta w_beta2 w_delta w_delta2 w_K w_ck].
  split; [exists b1, b2, b3, t3; auto|]. split; [exists c1, c2, u2; auto|]. exists e1, e2, v2. auto.
Qed.

Lemma is1_same b (x : E) b' (x' : E) t t' : is1 b x -> is1 b' x' -> b ++ t = b' ++ t' -> x = x' /\ t = t'.
Proof.
  intros H H' Q. pose proof (is1_det b x b' x' t t' H H' Q) as <-. apply app_inv_head in Q. split; [|exact Q].
  destruct H as [[? [? ?]]|[? [? ?]]], H' as [[? [? ?]]|[? [? ?]]]; congruence.
Qed.
Lemma is2_same b (x : E) b' (x' : E) t t' : is2 b x -> is2 b' x' -> b ++ t = b' ++ t' -> x = x' /\ t = t'.
Proof.
  intros H H' Q. pose proof (is2_det b x b' x' t t' H H' Q) as <-. apply app_inv_head in Q. split; [|exact Q].
  destruct H as [[? [? ?]]|[? [? ?]]], H' as [[? [? ?]]|[? [? ?]]]; congruence.
Qed.
Lemma both_inv h t G h' (kk : pkey E) (w : vkey E) s1 s2 : hdr_ok h -> (- two63 < h_domain h)%Z -> (0 <= h_wires h < 72057594037927935)%Z ->
  ev (read_pk (E := E)) (opened (gob_hdr h ++ t), opened G) (Ok (h', kk)) s1 none ->
  ev (read_vk (E := E) wrap64) (opened (gob_hdr h ++ t), opened G) (Ok w) s2 none ->
  h' = h /\ exists (q : par2 E) v, ph2 (gob_hdr h ++ t) h q /\ evals_read (h_wires h) G v /\ kk = pk_of q v /\ w = vk_of q v.
Proof.
  intros HO DM HW R1 R2.
  destruct (read_pk_only _ G h t h' kk s1 eq_refl HO DM R1) as [-> [q [PH [KQ [b1 [b2 [b3 [b4 [b5 [b6 [u [EG [I1 [I2 [I3 [I4 [I5 I6]]]]]]]]]]]]]]]]].
  destruct (read_vk_only _ G h t w s2 eq_refl HO HW R2) as [[c1 [c2 [c3 [u1 [EG' [J1 [J2 J3]]]]]]] [[e1 [e2 [u2 [ET [L1 L2]]]]] [d1 [d2 [u3 [ES [K1 K2]]]]]]].
  rewrite EG in EG'. destruct (is1_same _ _ _ _ _ _ I1 J1 EG') as [Q1 EG2]. destruct (is1_same _ _ _ _ _ _ I2 J2 EG2) as [Q2 EG3].
  destruct (is2_same _ _ _ _ _ _ I3 J3 EG3) as [Q3 _]. clear EG2 EG3.
  pose proof PH as [_ [_ [pb [junk [EF [f1 [f2 [f3 [f4 [EP [M1 [M2 _]]]]]]]]]]]]. apply app_inv_head in EF. rewrite ET in EF. subst pb. rewrite <- !app_assoc in EF.
  destruct (is1_same _ _ _ _ _ _ L1 M1 EF) as [Q4 EF2]. destruct (is2_same _ _ _ _ _ _ L2 M2 EF2) as [Q5 _].
  split; [reflexivity|]. exists q, (mkEvals (q_alpha kk) (q_beta kk) (q_beta2 kk) (q_A kk) (q_B kk) (q_B2 kk) (w_K w) (w_ck w) []).
  split; [exact PH|]. split; [|split].
  - split; [exists b1, b2, b3, b4, b5, b6, u; auto 10|exists d1, d2, u3; auto].
  - exact KQ.
  - unfold vk_of. cbn [v_alpha v_beta1 v_beta2 v_vkk v_ckk]. destruct w as [x1 x2 x3 x4 x5 x6 x7]. cbn [w_alpha w_beta w_beta2 w_delta w_delta2 w_K w_ck] in *. congruence.
Qed.
Lemma key_iff (g sg : E) p f h t G P V : p <> pk_path -> p <> vk_path -> f p = Some (gob_hdr h ++ t) -> f evals_path = Some G ->
  hdr_ok h -> (- two63 < h_domain h)%Z -> (0 <= h_wires h < 72057594037927935)%Z ->
  (exists f', extract_keys wrap64 g sg p f = (Ok tt, f') /\ f' pk_path = Some P /\ f' vk_path = Some V) <->
  exists k (q : par2 E) v, ph2 (gob_hdr h ++ t) h q /\ least_pow (h_domain h) k /\ k <= kmax E /\ evals_read (h_wires h) G v /\
    P = pk_bytes k (u64 (h_wires h)) (pk_of q v) /\ V = vk_bytes (ped (e := E) g sg (v_ckk v)) (empty_info (E := E)) (vk_of q v).
Proof.
  intros N1 N2 HF HG HO DM HW. split.
  - intros [f' [H [HP HV]]]. destruct (extract_keys_inv wrap64 g sg p f f' N1 N2 H) as [F0 [G0 [h' [kk [k [w [s1 [s2 [A1 [A2 [R1 [D R2]]]]]]]]]]]].
    assert (F0 = gob_hdr h ++ t) by congruence. assert (G0 = G) by congruence. subst F0 G0. clear A1 A2.
    destruct (extract_keys_run wrap64 g sg p f _ G h' kk k w s1 s2 N1 N2 HF HG R1 D R2) as [f2 [H2 [P2 [V2 _]]]].
    destruct (both_inv h t G h' kk w s1 s2 HO DM HW R1 R2) as [-> [q [v [PH [EV [-> ->]]]]]].
    rewrite H in H2. injection H2 as <-. rewrite HP in P2. rewrite HV in V2. injection P2 as ->. injection V2 as ->.
    assert (DP : (1 <= h_domain h)%Z) by (destruct PH as [_ [[SZ _] _]]; lia).
    apply (least_new (h_domain h) k DP) in D as [D1 D2].
    exists k, q, v. auto 10.
  - intros [k [q [v [PH [D1 [D2 [EV [-> ->]]]]]]]].
    destruct (read_pk_gen h q v G (h_wires h) t PH EV) as [s1 R1]. destruct (read_vk_gen h q v G t PH EV HW) as [s2 R2].
    assert (DP : (1 <= h_domain h)%Z) by (destruct PH as [_ [[SZ _] _]]; lia).
    assert (D : new_domain (E := E) (h_domain h) = Some k) by (apply (least_new (h_domain h) k DP); auto).
    destruct (extract_keys_run wrap64 g sg p f _ G h (pk_of q v) k (vk_of q v) s1 s2 N1 N2 HF HG R1 D R2) as [f2 [H2 [P2 [V2 _]]]].
    exists f2. auto.
Qed.

(* the split keys: no domain is built *)
Lemma split_inv (g sg : E) p s f f' : ~ In p (split_names s) -> p <> vks_path s -> extract_split_keys wrap64 g sg p s f = (Ok tt, f') ->
  exists F G h q v s1 s2, f p = Some F /\ f evals_path = Some G /\
    ev (read_pk (E := E)) (opened F, opened G) (Ok (h, q)) s1 none /\ ev (read_vk (E := E) wrap64) (opened F, opened G) (Ok v) s2 none.
Proof.
  intros N1 N2 H. assert (D4 : evals_path <> vks_path s) by (apply not_eq_sym, save_evals; cbn; lia).
  unfold extract_split_keys in H. apply cbind_inv in H. destruct H as [x [f1 [H1 H2]]].
  rewrite c_split_pk_eq in H1. apply extraction_bwd in H1; [|apply split_nodup|exact N1|apply split_evals].
  destruct H1 as [F [G [s1 [d [HF [HG [H1 [A2 A3]]]]]]]].
  rewrite c_split_vk_eq in H2. apply cbind_inv in H2. destruct H2 as [ck [f2 [H2 _]]].
  apply extraction_bwd in H2; [|apply nd1|now apply in1|now apply in1].
  destruct H2 as [F2 [G2 [s2 [d2 [HF2 [HG2 [H2 _]]]]]]].
  rewrite A2 in HF2 by exact N1. rewrite A2 in HG2 by apply split_evals.
  assert (F2 = F) by congruence. assert (G2 = G) by congruence. subst F2 G2. destruct x.
  destruct (split_bwd _ _ _ H1) as [h [q R]]. destruct (vk_bwd _ _ _ _ _ _ _ H2) as [v RV].
  exists F, G, h, q, v, s1, s2. auto.
Qed.
Lemma split_iff (g sg : E) p s f h t G Ps V C : ~ In p (split_names s) -> p <> vks_path s -> f p = Some (gob_hdr h ++ t) -> f evals_path = Some G ->
  hdr_ok h -> (- two63 < h_domain h)%Z -> (0 <= h_wires h < 72057594037927935)%Z ->
  (exists f', extract_split_keys wrap64 g sg p s f = (Ok tt, f') /\ map f' (split_names s) = map Some Ps /\ f' (vks_path s) = Some V /\ f' (ckey_path s) = Some C) <->
  exists (q : par2 E) v, ph2 (gob_hdr h ++ t) h q /\ evals_read (h_wires h) G v /\ let ck := ped (e := E) g sg (v_ckk v) in
    Ps = split_bytes (u64 (h_domain h)) (u64 (h_wires h)) (pk_of q v) /\ V = vk_bytes ck (empty_info (E := E)) (vk_of q v) /\ C = ck ++ ck.
Proof.
  intros N1 N2 HF HG HO DM HW.
  assert (MP : forall f' : fs, forall l, length l = 6%nat -> (forall i x, nth_error (split_names s) i = Some x -> f' x = nth_error l i) -> map f' (split_names s) = map Some l).
  { intros f' l L A. destruct l as [|y0 [|y1 [|y2 [|y3 [|y4 [|y5 [|]]]]]]]; try discriminate L. unfold split_names in *. cbn [List.map] in *.
    rewrite (A 0%nat _ eq_refl), (A 1%nat _ eq_refl), (A 2%nat _ eq_refl), (A 3%nat _ eq_refl), (A 4%nat _ eq_refl), (A 5%nat _ eq_refl). reflexivity. }
  assert (SI : forall a b : list bytes, map Some a = map Some b -> a = b).
  { induction a as [|x a IH]; intros [|y b] Q; try discriminate Q; [reflexivity|]. cbn [List.map] in Q. injection Q as -> Q. f_equal. auto. }
  split.
  - intros [f' [H [HP [HV HC]]]]. destruct (split_inv g sg p s f f' N1 N2 H) as [F0 [G0 [h' [kk [w [s1 [s2 [A1 [A2 [R1 R2]]]]]]]]]].
    assert (F0 = gob_hdr h ++ t) by congruence. assert (G0 = G) by congruence. subst F0 G0. clear A1 A2.
    destruct (extract_split_run wrap64 g sg p s f _ G h' kk w s1 s2 N1 N2 HF HG R1 R2) as [f2 [H2 [P2 [V2 [C2 _]]]]].
    destruct (both_inv h t G h' kk w s1 s2 HO DM HW R1 R2) as [-> [q [v [PH [EV [-> ->]]]]]].
    rewrite H in H2. injection H2 as <-. rewrite HV in V2. rewrite HC in C2. injection V2 as ->. injection C2 as ->.
    apply MP in P2; [|reflexivity]. rewrite HP in P2. apply SI in P2. exists q, v. cbv zeta. auto.
  - intros [q [v [PH [EV [-> [-> ->]]]]]].
    destruct (read_pk_gen h q v G (h_wires h) t PH EV) as [s1 R1]. destruct (read_vk_gen h q v G t PH EV HW) as [s2 R2].
    destruct (extract_split_run wrap64 g sg p s f _ G h (pk_of q v) (vk_of q v) s1 s2 N1 N2 HF HG R1 R2) as [f2 [H2 [P2 [V2 [C2 _]]]]].
    exists f2. apply MP in P2; [auto|reflexivity].
Qed.

(* slices that are too short, with anything between them and VKK *)
Lemma slice1_is (l : list E) : (N.of_nat (length l) < 4294967296)%N -> is_slice1 (slice1 l) l.
Proof. intros L. exists (enc1 l). split; [reflexivity|]. split; [exact L|apply are1_enc]. Qed.
Lemma slice2_is (l : list E) : (N.of_nat (length l) < 4294967296)%N -> is_slice2 (slice2 l) l.
Proof. intros L. exists (enc2 l). split; [reflexivity|]. split; [exact L|apply are2_enc]. Qed.
Lemma gap_read (v : evals E) w gap : smalls v -> (32 * length (v_A v) + 32 * length (v_B v) + 64 * length (v_B2 v) + length gap = 128 * w)%nat ->
  evals_read (Z.of_nat w) (g1c (v_alpha v) ++ g1c (v_beta1 v) ++ g2c (v_beta2 v) ++ slice1 (v_A v) ++ slice1 (v_B v) ++ slice2 (v_B2 v) ++
    gap ++ slice1 (v_vkk v) ++ slice1 (v_ckk v) ++ v_cmt v) v.
Proof.
  intros [S1 [S2 [S3 [S4 S5]]]] L. split.
  - do 7 eexists. split; [reflexivity|]. repeat split; try apply is1_c; try apply is2_c; try (apply slice1_is; assumption). now apply slice2_is.
  - exists (slice1 (v_vkk v)), (slice1 (v_ckk v)), (v_cmt v). split; [|split; apply slice1_is; assumption].
    match goal with |- skipn ?n (?a ++ ?b ++ ?c ++ ?d ++ ?e ++ ?x ++ ?y ++ ?r) = _ => replace (a ++ b ++ c ++ d ++ e ++ x ++ y ++ r) with ((a ++ b ++ c ++ d ++ e ++ x ++ y) ++ r) by (rewrite <- !app_assoc; reflexivity);
      replace n with (length (a ++ b ++ c ++ d ++ e ++ x ++ y)) end.
    + rewrite skipn_app, skipn_all, Nat.sub_diag. reflexivity.
    + rewrite !app_length. unfold slice1, slice2. rewrite !app_length, enc1_length, enc1_length, enc2_length, !g1c_len, g2c_len. unfold be32. cbn [length]. unfold vkk_off. lia.
Qed.
Lemma gap_keys (g sg : E) p f h t k (q : par2 E) v w gap : p <> pk_path -> p <> vk_path -> f p = Some (gob_hdr h ++ t) -> ph2 (gob_hdr h ++ t) h q ->
  least_pow (h_domain h) k -> k <= kmax E -> h_wires h = Z.of_nat w -> (Z.of_nat w < 72057594037927935)%Z -> smalls v ->
  (32 * length (v_A v) + 32 * length (v_B v) + 64 * length (v_B2 v) + length gap = 128 * w)%nat ->
  f evals_path = Some (g1c (v_alpha v) ++ g1c (v_beta1 v) ++ g2c (v_beta2 v) ++ slice1 (v_A v) ++ slice1 (v_B v) ++ slice2 (v_B2 v) ++
    gap ++ slice1 (v_vkk v) ++ slice1 (v_ckk v) ++ v_cmt v) ->
  exists f', extract_keys wrap64 g sg p f = (Ok tt, f') /\ f' pk_path = Some (pk_bytes k (N.of_nat w) (pk_of q v)) /\
    f' vk_path = Some (vk_bytes (ped (e := E) g sg (v_ckk v)) (empty_info (E := E)) (vk_of q v)).
Proof.
  intros N1 N2 HF PH D1 D2 HW LW SM L HG.
  assert (U : N.of_nat w = u64 (h_wires h)).
  { rewrite HW. unfold u64. rewrite Z.mod_small by lia. lia. }
  rewrite U. apply (key_iff g sg p f h t _ _ _ N1 N2 HF HG).
  - now destruct PH.
  - destruct PH as [HO [[SZ _] _]]. unfold two63. lia.
  - lia.
  - exists k, q, v. split; [exact PH|]. split; [exact D1|]. split; [exact D2|]. split; [|auto]. rewrite HW. now apply gap_read.
Qed.
End K.
