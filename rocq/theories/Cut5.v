(* Cut5.v -- whole phase-2 files that end early. *)
From Coq Require Import Ring Field.
From Verif Require Import Base Fld Conc Parallel IO Ext Spec1 Phase1 Phase1Io Phase1Verify Phase1Trans Phase1Facts Phase1Inv Gob GobLemmas Circuit Spec2 Phase2 Phase2Io Phase2Lemmas Phase2Claims Phase2More Cut1 Cut2 Cut4.
Local Open Scope fld_scope.
Local Open Scope io_scope.

Section Cut5.
Context {E : Ext2}.
Add Field Kcut8 : (f_th E).

Lemma accepted_good (o : E) l : chain2_err o [] l = None -> forall c, In c l -> hash_good2 c.
Proof.
  intros C c I. apply In_nth_error in I as [i Hi]. pose proof (chain2_nth l o [] C i c Hi) as V. now apply verify2_inv in V.
Qed.

Lemma truncated2 bs bs' (rho rho' : nat -> nat -> nat -> E) g h ho (q qo : par2 E) l lo hs k hs' : 1 <= bs -> 1 <= bs' -> hdr_ok h -> hdr_ok ho ->
  sized2 h q -> h_contribs h = Z.of_nat (length l) -> hashed2 l -> unsplit h q (length l) -> is_file2 g ho qo lo ->
  fst (exec (verify2 bs rho) (file2 h q l) g) = Ok hs -> k < length (file2 h q l) ->
  fst (exec (verify2 bs' rho') (firstn k (file2 h q l)) g) = Ok hs' ->
  exists z, z <= 31 /\ file2 h q l = firstn k (file2 h q l) ++ repeat x00 z /\ hs' = hs.
Proof.
  intros B B' H Ho SZ HL H32 U IG V K V'. pose proof defBuf_big as BB.
  assert (IF : is_file2 (file2 h q l) h q l) by (rewrite <- (app_nil_r (file2 h q l)); now apply file2_is).
  rewrite (verify2_exec bs rho _ g h ho q qo l lo B H Ho IF IG) in V. cbn [fst] in V.
  apply verdict2_ok in V as [NZ [HE [_ [_ [_ [C [_ ->]]]]]]].
  pose proof (accepted_good _ _ C) as HG. assert (LP : 1 <= length l) by lia.
  destruct IG as [pbo [rbo [jo [Eg [Po [[SZo SKo] _]]]]]]. destruct Po as [c1 [c2 [c3 [c4 [-> [J1 [J2 [B3 B4]]]]]]]].
  destruct SZ as [SZ SK]. destruct (hdr_eqb_dom _ _ HE) as [HD HW].
  assert (LZ : length (p_Z qo) = length (p_Z q)) by (apply Nat2Z.inj; rewrite <- SZ, <- SZo; lia).
  assert (LK : length (p_K qo) = length (p_K q)) by (apply Nat2Z.inj; rewrite <- SK, <- SKo; lia).
  assert (Dm : int64 (h_domain h)). { unfold hdr_ok, hdr_fields in H. rewrite !Forall_cons_iff in H. tauto. }
  unfold int64 in Dm.
  destruct (exec (verify2 bs' rho') (firstn k (file2 h q l)) g) as [r out0] eqn:X. cbn [fst] in V'. subst r.
  set (f := file2 h q l) in *. set (f' := firstn k f) in *.
  apply exec_ev in X as [s' [D [X _]]]. unfold verify2 in X.
  assert (NR : forall (Q : io (list bytes)) r s2 d, ev (NewRd false defBuf (NewRd true defBuf Q)) (opened f', opened g) r s2 d ->
    ev Q (at_ f' defBuf 0 f', at_ g defBuf 0 g) r s2 d).
  { intros Q r s2 d [v [Q1 Q2]]. exists v. split; [|exact Q2]. cbn [run getr setr fst snd] in Q1. unfold opened in Q1. now rewrite !rd_buf_at in Q1. }
  apply NR in X. clear NR. set (s0 := (at_ f' defBuf 0 f', at_ g defBuf 0 g)) in *.
  assert (G1 : getr false s0 = at_ f' defBuf 0 (firstn k (gob_hdr h ++ par2_bytes q ++ recs2_bytes l))).
  { unfold s0. cbn [getr fst]. f_equal. unfold f', f, file2, head2. now rewrite <- app_assoc. }
  assert (G2 : getr true s0 = at_ g defBuf 0 (gob_hdr ho ++ c1 ++ c2 ++ c3 ++ c4 ++ rbo ++ jo)).
  { unfold s0. cbn [getr snd]. f_equal. rewrite Eg. now rewrite <- !app_assoc. }
  clearbody s0.
  (* headers *)
  apply bind_ok_inv in X as [cur [s1 [d1 [d2 [H1 [X _]]]]]].
  destruct (Nat.lt_ge_cases k (length (gob_hdr h))) as [KH|KH].
  { exfalso. destruct (hdr_cut (@gob_alt E) false f' defBuf 0 h k _ s0 defBuf_gob G1 KH) as [sx Q].
    destruct (ev_det _ _ _ _ _ _ _ _ H1 Q) as [Y _]. discriminate. }
  rewrite firstn_app_le in G1 by exact KH.
  pose proof (ev_read_hdr (@gob_alt E) false f' defBuf 0 h _ s0 defBuf_gob H G1) as Q.
  destruct (ev_det _ _ _ _ _ _ _ _ H1 Q) as [Y [-> _]]. injection Y as ->. clear H1 Q.
  set (sa := setr false _ s0) in *. assert (G1a : getr false sa = _) by apply getr_setr.
  assert (G2a : getr true sa = getr true s0) by (unfold sa; now rewrite getr_other by reflexivity). rewrite G2 in G2a. clearbody sa. clear G1 G2 s0.
  apply bind_ok_inv in X as [org [s1 [d3 [d4 [H1 [X _]]]]]].
  pose proof (ev_read_hdr (@gob_alt E) true g defBuf 0 ho _ sa defBuf_gob Ho G2a) as Q.
  destruct (ev_det _ _ _ _ _ _ _ _ H1 Q) as [Y [-> _]]. injection Y as ->. clear H1 Q.
  set (sb := setr true _ sa) in *. assert (G2 : getr true sb = _) by apply getr_setr.
  assert (G1 : getr false sb = getr false sa) by (unfold sb; now rewrite getr_other by reflexivity). rewrite G1a in G1. clearbody sb. clear G1a G2a sa.
  apply require_inv in X as [_ X]. apply require_inv in X as [_ X].
  (* the origin's points *)
  apply bind_ok_inv in X as [g1 [s1 [d5 [d6 [H1 [X _]]]]]].
  pose proof (ev_decode1 true g defBuf _ c1 _ _ sb BB J1 G2) as Q.
  destruct (ev_det _ _ _ _ _ _ _ _ H1 Q) as [_ [-> _]]. clear H1 Q.
  set (sa := setr true _ sb) in *. assert (G2a : getr true sa = _) by apply getr_setr.
  assert (G1a : getr false sa = getr false sb) by (unfold sa; now rewrite getr_other by reflexivity). rewrite G1 in G1a. clearbody sa. clear G1 G2 sb.
  apply bind_ok_inv in X as [g2 [s1 [d7 [d8 [H1 [X _]]]]]].
  pose proof (ev_decode2 true g defBuf _ c2 _ _ sa BB J2 G2a) as Q.
  destruct (ev_det _ _ _ _ _ _ _ _ H1 Q) as [_ [-> _]]. clear H1 Q.
  set (sb := setr true _ sa) in *. assert (G2 : getr true sb = _) by apply getr_setr.
  assert (G1 : getr false sb = getr false sa) by (unfold sb; now rewrite getr_other by reflexivity). rewrite G1a in G1. clearbody sb. clear G1a G2a sa.
  (* the file's points *)
  unfold par2_bytes in G1. rewrite <- !app_assoc in G1. set (m := (k - length (gob_hdr h))%nat) in *.
  apply bind_ok_inv in X as [x1 [s1 [d9 [d10 [H1 [X _]]]]]].
  pose proof (dec1_cut false f' defBuf _ m _ _ sb BB G1) as Q. destruct (Nat.ltb_spec m 32).
  { exfalso. destruct Q as [p' Q]. destruct (ev_det _ _ _ _ _ _ _ _ H1 Q) as [Y _]. discriminate. }
  destruct (ev_det _ _ _ _ _ _ _ _ H1 Q) as [Y [-> _]]. injection Y as ->. clear H1 Q.
  set (sa := setr false _ sb) in *. assert (G1a : getr false sa = _) by apply getr_setr.
  assert (G2a : getr true sa = getr true sb) by (unfold sa; now rewrite getr_other by reflexivity). rewrite G2 in G2a. clearbody sa. clear G1 G2 sb.
  apply bind_ok_inv in X as [x2 [s1 [d11 [d12 [H1 [X _]]]]]].
  pose proof (dec2_cut false f' defBuf _ _ _ _ sa BB G1a) as Q. destruct (Nat.ltb_spec (m - 32) 64).
  { exfalso. destruct Q as [p' Q]. destruct (ev_det _ _ _ _ _ _ _ _ H1 Q) as [Y _]. discriminate. }
  destruct (ev_det _ _ _ _ _ _ _ _ H1 Q) as [Y [-> _]]. injection Y as ->. clear H1 Q.
  set (sb := setr false _ sa) in *. assert (G1 : getr false sb = _) by apply getr_setr.
  assert (G2 : getr true sb = getr true sa) by (unfold sb; now rewrite getr_other by reflexivity). rewrite G2a in G2. clearbody sb. clear G1a G2a sa.
  apply require_inv in X as [_ X]. rewrite (wrap64_small (h_domain h - 1)) in X by (unfold two63; lia).
  (* at the end of the data the chain fails *)
  assert (EOF : forall s p' d, getr false s = at_ f' defBuf p' [] ->
    ev ('(delta, hs) <- verify_chain2 (Z.to_nat (h_contribs h)) 0 g1 [] ;; require (feqb delta (p_d1 q)) ELastDelta ;;; Ret hs) s (Ok hs') s' d -> False).
  { intros s p' d GG Y. rewrite HL, Nat2Z.id in Y. destruct (length l) as [|n]; [lia|]. cbn [verify_chain2] in Y.
    apply bind_ok_inv in Y as [[? ?] [? [? [? [Y _]]]]]. apply bind_ok_inv in Y as [? [? [? [? [Y _]]]]].
    destruct (read2_eof (E := E) false f' p' s GG) as [sx Q]. destruct (ev_det _ _ _ _ _ _ _ _ Y Q) as [Z _]. discriminate. }
  (* Z and PKK *)
  apply bind_ok_inv in X as [[] [s1 [d13 [d14 [H1 [X _]]]]]].
  destruct (param_cut bs' (rho' 0%nat) f' g _ _ _ _ (p_Z q) (p_Z qo) c3 _ _ _ _ _ sb _ s1 _ B' SZ LZ B3 G1 G2 H1) as [[M1 [G1a G2a]]|[M1 [p' G1a]]].
  2:{ exfalso. apply bind_ok_inv in X as [[] [s2 [d15 [d16 [HP [X _]]]]]].
      destruct (param_eof bs' _ f' _ _ _ _ p' s1 _ s2 _ B' G1a HP) as [p2 G3]. exact (EOF s2 p2 _ G3 X). }
  clear H1 G1 G2 sb.
  apply bind_ok_inv in X as [[] [s2 [d15 [d16 [H1 [X _]]]]]].
  destruct (param_cut bs' (rho' 1%nat) f' g _ _ _ _ (p_K q) (p_K qo) c4 _ _ _ _ _ s1 _ s2 _ B' SK LK B4 G1a G2a H1) as [[M2 [G1 _]]|[M2 [p' G1]]].
  2:{ exfalso. exact (EOF s2 p' _ G1 X). }
  clear H1 G1a G2a s1 EOF.
  (* the records *)
  apply bind_ok_inv in X as [[dl hs2] [s3 [d17 [d18 [H1 [X _]]]]]].
  apply require_inv in X as [_ X]. apply ret_inv in X as [-> _].
  rewrite HL, Nat2Z.id in H1.
  assert (Lf : length f = (length (gob_hdr h) + (96 + 32 * length (p_Z q) + 32 * length (p_K q)) + length (recs2_bytes l))%nat).
  { unfold f, file2, head2. rewrite !app_length, par2_bytes_length. lia. }
  match type of G1 with _ = at_ _ _ ?P (firstn ?M _) => set (pp := P) in *; set (mm := M) in * end.
  assert (EP : pp = length (head2 h q)) by (unfold pp, head2; rewrite app_length, par2_bytes_length; lia).
  assert (EM : mm = (k - length (head2 h q))%nat) by (unfold mm, m, head2; rewrite app_length, par2_bytes_length; lia).
  assert (UA : unsplit_at pp (length l)) by (rewrite EP; exact U).
  assert (LH : length (head2 h q) = (length (gob_hdr h) + (96 + 32 * length (p_Z q) + 32 * length (p_K q)))%nat) by (unfold head2; rewrite app_length, par2_bytes_length; lia).
  destruct (chain2_cut f' l pp mm s2 0 g1 [] dl hs' s3 d17 H32 HG UA G1 ltac:(lia) H1) as [z [Z1 [Z2 ->]]].
  exists z. split; [exact Z1|]. split; [|reflexivity]. unfold f', f, file2.
  rewrite firstn_app_le by (unfold m in *; lia). rewrite <- app_assoc, <- EM. now rewrite <- Z2.
Qed.

(* ---- p2c on a file that ends early ---- *)
Lemma scale_cut bs h o file cap (d : E) : 1 <= bs -> bigcap cap -> forall fuel (l : list E) p m t s buff u s' w,
  length l <= fuel -> getr h s = at_ file cap p (firstn m (enc1 l ++ t)) ->
  ev (scale2_loop bs h o d fuel (length l) buff) s (Ok u) s' w -> 32 * length l <= m.
Proof.
  intros B C. induction fuel as [|fuel IH]; intros l p m t s buff u s' w Lf G X.
  - lia.
  - destruct l as [|x0 l0]; [cbn; lia|].
    remember (x0 :: l0) as l eqn:El.
    assert (Lpos : 1 <= length l) by (subst l; cbn; lia).
    assert (UN : scale2_loop bs h o d (S fuel) (length l) buff =
      (let n := Nat.min (length l) bs in
       pts <- decodes1 h n ;;
       let buff := pts ++ skipn n buff in
       orBoom (par_cells n (ncpu E) (fun _ x => x * d) buff) (fun buff =>
       encodes o (map g1c (firstn n buff)) ;;;
       scale2_loop bs h o d fuel (length l - n) buff))) by (subst l; reflexivity).
    rewrite UN in X. clear UN. cbv zeta in X.
    set (n := Nat.min (length l) bs) in *. assert (Hn : 1 <= n <= length l) by lia.
    assert (Hl : l = firstn n l ++ skipn n l) by now rewrite firstn_skipn.
    set (l1 := firstn n l) in *. set (l2 := skipn n l) in *.
    assert (L1 : length l1 = n) by (unfold l1; rewrite firstn_length; lia).
    assert (L2 : length l2 = (length l - n)%nat) by (unfold l2; apply skipn_length).
    assert (E1 : enc1 l = enc1 l1 ++ enc1 l2) by (rewrite Hl; apply flat_map_app). rewrite E1, <- app_assoc in G.
    apply bind_ok_inv in X as [pts [s1 [w1 [w2 [D [X _]]]]]]. rewrite <- L1 in D.
    destruct (Nat.lt_ge_cases m (32 * length l1)) as [K|K].
    { exfalso. destruct (decs1_short h file cap C l1 p m _ s G K) as [p' Q]. destruct (ev_det _ _ _ _ _ _ _ _ D Q) as [Y _]. discriminate. }
    pose proof (decs1_full h file cap l1 p m _ s C G K) as Q. destruct (ev_det _ _ _ _ _ _ _ _ D Q) as [_ [-> _]].
    destruct (par_cells _ _ _ _) as [bf|]; cbn [orBoom] in X; [|destruct X as [v [X _]]; discriminate].
    apply bind_ok_inv in X as [[] [s2 [w3 [w4 [En [X _]]]]]].
    assert (Q2 : exists w, ev (encodes o (map g1c (firstn n bf))) (setr h (at_ file cap (p + 32 * length l1) (firstn (m - 32 * length l1) (enc1 l2 ++ t))) s) (Ok tt)
       (setr h (at_ file cap (p + 32 * length l1) (firstn (m - 32 * length l1) (enc1 l2 ++ t))) s) w) by (eexists; apply ev_encodes).
    destruct Q2 as [wq Q2]. destruct (ev_det _ _ _ _ _ _ _ _ En Q2) as [_ [-> _]].
    rewrite <- L2 in X.
    pose proof (IH l2 _ _ _ _ _ _ _ _ ltac:(lia) (getr_setr _ _ _) X). lia.
Qed.
Lemma copy_cut h o file : forall (l : list (contrib2 E)) c0 p m s c s' w, hashed2 l -> unsplit_at p (length l) ->
  getr h s = at_ file defBuf p (firstn m (recs2_bytes l)) -> m < length (recs2_bytes l) ->
  ev (copy_contribs2 (E := E) h o (length l) c0) s (Ok c) s' w -> length (recs2_bytes l) < m + 32.
Proof.
  induction l as [|a l IH]; intros c0 p m s c s' w H32 U G M X; [cbn in M; lia|].
  assert (HC : length (d_hash a) = 32%nat) by (apply H32; now left). pose proof (rec2_len a HC) as LR.
  cbn [length] in U. apply unsplit_S in U as [U0 U].
  change (recs2_bytes (a :: l)) with (rec2_bytes a ++ recs2_bytes l) in *. rewrite app_length, LR in *.
  cbn [length copy_contribs2] in X. apply bind_ok_inv in X as [c' [s1 [d1 [d2 [H1 [X _]]]]]].
  apply bind_ok_inv in X as [[] [s2 [d3 [d4 [H2 [X _]]]]]].
  destruct (ev_det _ _ _ _ _ _ _ _ H2 (ev_write_contrib2 o c' s1)) as [_ [-> _]].
  destruct (Nat.le_gt_cases m 160) as [K|K].
  { exfalso. destruct (read2_low h file p m a _ s K G) as [s3 Q]. destruct (ev_det _ _ _ _ _ _ _ _ H1 Q) as [Y _]. discriminate. }
  destruct (Nat.le_gt_cases 192 m) as [K2|K2].
  - pose proof (read2_full h file p m a _ s K2 HC U0 G) as Q. destruct (ev_det _ _ _ _ _ _ _ _ H1 Q) as [_ [-> _]].
    pose proof (IH _ (p + 192)%nat (m - 192)%nat _ _ _ _ (fun b Hb => H32 b (or_intror Hb)) U (getr_setr _ _ _) ltac:(lia) X). lia.
  - destruct (read2_mid h file p m a _ s (conj K K2) HC U0 G) as [p' Q].
    destruct (ev_det _ _ _ _ _ _ _ _ H1 Q) as [_ [-> _]].
    destruct l as [|c2 l]; [cbn; lia|].
    exfalso. cbn [length copy_contribs2] in X. apply bind_ok_inv in X as [c'' [s3 [d5 [d6 [H3 _]]]]].
    destruct (read2_eof (E := E) h file p' (setr h (at_ file defBuf p' []) s) (getr_setr _ _ _)) as [s4 Q4].
    destruct (ev_det _ _ _ _ _ _ _ _ H3 Q4) as [Y _]. discriminate.
Qed.
Lemma copy_padded h o file (a : contrib2 E) j : length (d_hash a) = 32%nat -> 1 <= j < 32 ->
  forall (l : list (contrib2 E)) c0 p s, hashed2 l -> unsplit_at p (length l + 1) ->
  getr h s = at_ file defBuf p (recs2_bytes l ++ firstn (160 + j) (rec2_bytes a)) ->
  exists s', ev (copy_contribs2 (E := E) h o (length l + 1) c0) s (Ok (padded j a)) s' (on o (recs2_bytes (l ++ [padded j a]))).
Proof.
  intros HA J. pose proof (rec2_len a HA) as LA. induction l as [|b l IH]; intros c0 p s H32 U G.
  - cbn [length Nat.add app recs2_bytes flat_map] in *. apply unsplit_S in U as [U0 _].
    rewrite <- (app_nil_r (rec2_bytes a)) in G.
    destruct (read2_mid h file p (160 + j) a [] s ltac:(lia) HA U0 G) as [p' Q].
    replace (160 + j - 160)%nat with j in Q by lia. eexists. cbn [copy_contribs2].
    eapply evb; [exact Q|]. eapply evw; [apply ev_write_contrib2|]. apply ev_on_nil, ev_ret.
  - assert (HB : length (d_hash b) = 32%nat) by (apply H32; now left). pose proof (rec2_len b HB) as LB.
    cbn [length Nat.add] in *. apply unsplit_S in U as [U0 U].
    change (recs2_bytes (b :: l)) with (rec2_bytes b ++ recs2_bytes l) in G. rewrite <- app_assoc in G.
    set (t := recs2_bytes l ++ firstn (160 + j) (rec2_bytes a)) in *.
    assert (G' : getr h s = at_ file defBuf p (firstn (192 + length t) (rec2_bytes b ++ t))).
    { rewrite firstn_all2 by (rewrite app_length; lia). exact G. }
    pose proof (read2_full h file p (192 + length t) b t s ltac:(lia) HB U0 G') as Q.
    rewrite (firstn_all2 t) in Q by lia.
    destruct (IH b (p + 192)%nat _ (fun x Hx => H32 x (or_intror Hx)) U (getr_setr h (at_ file defBuf (p + 192) t) s)) as [s' Q'].
    exists s'. cbn [copy_contribs2]. eapply evb; [exact Q|].
    change (recs2_bytes ((b :: l) ++ [padded j a])) with (rec2_bytes b ++ recs2_bytes (l ++ [padded j a])).
    eapply evw; [apply ev_write_contrib2|exact Q'].
Qed.

Lemma unsplit_at_less p n m : m <= n -> unsplit_at p n -> unsplit_at p m.
Proof. unfold unsplit_at. intros L U i Hi. apply U. lia. Qed.
Lemma padded_good (c : contrib2 E) j : hash_good2 c -> length (d_hash c) = 32%nat -> j <= 32 -> skipn j (d_hash c) <> repeat x00 (32 - j) -> ~ hash_good2 (padded j c).
Proof.
  intros HG L J N X. apply N. assert (Y : d_hash (padded j c) = d_hash c) by (rewrite X, HG; reflexivity).
  cbn [padded d_hash] in Y. rewrite <- (firstn_skipn j (d_hash c)) in Y at 2. now apply app_inv_head in Y.
Qed.
(* what p2c makes of a file that lacks the last 1..31 bytes *)
Lemma contribute2_padded bs (d s : E) g h (q : par2 E) l c j : 1 <= bs -> hdr_ok h -> count_ok (h_contribs h) -> sized2 h q ->
  h_contribs h = Z.of_nat (length (l ++ [c])) -> hashed2 (l ++ [c]) -> unsplit h q (length (l ++ [c])) -> 1 <= j < 32 ->
  let r := new_rec2 d s (d * p_d1 q) (d_hash (padded j c)) in
  exec (contribute2 bs d s) (firstn (length (file2 h q (l ++ [c])) - (32 - j)) (file2 h q (l ++ [c]))) g =
    (Ok (d_hash r), file2 (set_contribs h (h_contribs h + 1)) (upd_par2 d q) (l ++ [padded j c; r])).
Proof.
  intros B H Cn SZ HL H32 U J r. set (f := firstn _ _).
  assert (HC : length (d_hash c) = 32%nat) by (apply H32, in_or_app; right; now left). pose proof (rec2_len c HC) as LC.
  assert (Hl : hashed2 l) by (intros a Ha; apply H32, in_or_app; now left).
  assert (Ef : f = gob_hdr h ++ par2_bytes q ++ recs2_bytes l ++ firstn (160 + j) (rec2_bytes c)).
  { unfold f, file2. rewrite recs2_bytes_app. cbn [recs2_bytes flat_map]. rewrite app_nil_r. fold (recs2_bytes l). rewrite !app_length, LC.
    unfold head2. rewrite <- !app_assoc.
    replace (length (gob_hdr h ++ par2_bytes q) + (length (recs2_bytes l) + 192) - (32 - j))%nat
      with (length (gob_hdr h ++ par2_bytes q ++ recs2_bytes l) + (160 + j))%nat by (rewrite !app_length; lia).
    rewrite !(app_assoc _ _ (rec2_bytes c)), !app_assoc. rewrite <- (app_assoc (gob_hdr h)). 
    rewrite <- !app_assoc. rewrite (app_assoc _ _ (recs2_bytes l ++ _)), (app_assoc _ (recs2_bytes l)), <- (app_assoc _ _ (recs2_bytes l)).
    rewrite firstn_app_le by lia. rewrite <- !app_assoc. do 4 f_equal. lia. }
  destruct (copy_padded false 0 f c j HC J l (@zero_contrib2 E) (length (gob_hdr h) + length (par2_bytes q))
    (setr false (at_ f defBuf (length (gob_hdr h) + length (par2_bytes q)) (recs2_bytes l ++ firstn (160 + j) (rec2_bytes c))) (opened f, opened g)) Hl) as [st CP].
  { rewrite app_length in U. cbn [length] in U. intros i Hi. specialize (U i Hi). unfold hash_off, head2 in U. rewrite app_length in U. exact U. }
  { apply getr_setr. }
  replace (length l + 1)%nat with (Z.to_nat (h_contribs h)) in CP by (rewrite HL, Nat2Z.id, app_length; reflexivity).
  pose proof (contribute2_gen bs d s f h (par2_bytes q) q _ (opened f, opened g) _ _ _ B H Cn Ef (par2_is q) SZ eq_refl CP) as Q. cbv zeta in Q.
  assert (N0 : (h_contribs h =? 0)%Z = false) by (apply Z.eqb_neq; rewrite HL, app_length; cbn [length]; lia). rewrite N0 in Q. fold r in Q.
  apply ev_exec in Q. rewrite Q. unfold file2. f_equal. cbn [on Nat.eqb]. f_equal.
  change (l ++ [padded j c; r]) with (l ++ [padded j c] ++ [r]). rewrite (app_assoc l), (recs2_bytes_app (l ++ [padded j c]) [r]). f_equal. cbn [recs2_bytes flat_map]. now rewrite app_nil_r.
Qed.
Lemma contribute2_cut bs (d s : E) g h (q : par2 E) l k : 1 <= bs -> hdr_ok h -> count_ok (h_contribs h) -> sized2 h q ->
  h_contribs h = Z.of_nat (length l) -> hashed2 l -> unsplit h q (length l) -> k < length (file2 h q l) ->
  ((exists r, fst (exec (contribute2 bs d s) (firstn k (file2 h q l)) g) = Ok r) <-> l <> [] /\ length (file2 h q l) < k + 32).
Proof.
  intros B H Cn SZ HL H32 U K. split.
  2:{ intros [NE KL]. destruct (exists_last NE) as [l0 [c ->]]. set (j := (32 - (length (file2 h q (l0 ++ [c])) - k))%nat).
      pose proof (contribute2_padded bs d s g h q l0 c j B H Cn SZ HL H32 U ltac:(lia)) as Q. cbv zeta in Q.
      replace (length (file2 h q (l0 ++ [c])) - (32 - j))%nat with k in Q by lia. rewrite Q. cbn [fst]. eauto. }
  intros [r X]. destruct SZ as [SZ SK]. pose proof defBuf_big as BB.
  assert (Dm : int64 (h_domain h)). { unfold hdr_ok, hdr_fields in H. rewrite !Forall_cons_iff in H. tauto. }
  unfold int64 in Dm. unfold count_ok in Cn.
  set (f := file2 h q l) in *. set (f' := firstn k f) in *.
  assert (Lf : length f = (length (head2 h q) + length (recs2_bytes l))%nat) by (unfold f, file2; apply app_length).
  assert (LH : length (head2 h q) = (length (gob_hdr h) + (96 + 32 * length (p_Z q) + 32 * length (p_K q)))%nat) by (unfold head2; rewrite app_length, par2_bytes_length; lia).
  destruct (exec (contribute2 bs d s) f' g) as [r0 out0] eqn:Y. cbn [fst] in X. subst r0.
  apply exec_ev in Y as [s' [D [X _]]]. unfold contribute2 in X.
  assert (NR : forall (Q : io bytes) r s2 d, ev (NewRd false defBuf (NewWr 0 defBuf (with_flush 0 Q))) (opened f', opened g) r s2 d ->
    ev Q (at_ f' defBuf 0 f', opened g) r s2 d).
  { intros Q r1 s2 d1 [v [Q1 Q2]]. exists v. split; [|exact Q2]. cbn [run getr setr fst snd] in Q1. unfold opened at 1 in Q1. rewrite rd_buf_at, run_with_flush in Q1. exact Q1. }
  apply NR in X. clear NR. set (s0 := (at_ f' defBuf 0 f', opened g)) in *.
  assert (G1 : getr false s0 = at_ f' defBuf 0 (firstn k (gob_hdr h ++ par2_bytes q ++ recs2_bytes l))).
  { unfold s0. cbn [getr fst]. f_equal. unfold f', f, file2, head2. now rewrite <- app_assoc. }
  clearbody s0.
  apply bind_ok_inv in X as [cur [s1 [d1 [d2 [H1 [X _]]]]]].
  destruct (Nat.lt_ge_cases k (length (gob_hdr h))) as [KH|KH].
  { exfalso. destruct (hdr_cut (@gob_alt E) false f' defBuf 0 h k _ s0 defBuf_gob G1 KH) as [sx Q].
    destruct (ev_det _ _ _ _ _ _ _ _ H1 Q) as [Y _]. discriminate. }
  rewrite firstn_app_le in G1 by exact KH.
  pose proof (ev_read_hdr (@gob_alt E) false f' defBuf 0 h _ s0 defBuf_gob H G1) as Q.
  destruct (ev_det _ _ _ _ _ _ _ _ H1 Q) as [Y [-> _]]. injection Y as ->. clear H1 Q.
  cbv zeta in X. rewrite wrap64_small in X by (unfold two63; lia). cbn [h_contribs h_domain h_witness set_contribs] in X.
  rewrite (wrap64_small (h_domain h - 1)) in X by (unfold two63; lia).
  rewrite (wrap64_small (h_contribs h + 1 - 1)) in X by (unfold two63; lia).
  replace (h_contribs h + 1 - 1)%Z with (h_contribs h) in X by lia.
  apply bind_ok_inv in X as [[] [s1 [d3 [d4 [H1 [X _]]]]]].
  match type of H1 with ev (write_hdr ?o ?hh) ?ss _ _ _ => destruct (ev_det _ _ _ _ _ _ _ _ H1 (ev_write_hdr o hh ss)) as [_ [-> _]] end. clear H1.
  assert (G2 := getr_setr false (at_ f' defBuf (0 + length (gob_hdr h)) (firstn (k - length (gob_hdr h)) (par2_bytes q ++ recs2_bytes l))) s0).
  set (sa := setr false _ s0) in *. clearbody sa. clear G1 s0.
  unfold par2_bytes in G2. rewrite <- !app_assoc in G2. set (m := (k - length (gob_hdr h))%nat) in *.
  apply bind_ok_inv in X as [x1 [s1 [d5 [d6 [H1 [X _]]]]]].
  pose proof (dec1_cut false f' defBuf _ m _ _ sa BB G2) as Q. destruct (Nat.ltb_spec m 32).
  { exfalso. destruct Q as [p' Q]. destruct (ev_det _ _ _ _ _ _ _ _ H1 Q) as [Y _]. discriminate. }
  destruct (ev_det _ _ _ _ _ _ _ _ H1 Q) as [Y [-> _]]. injection Y as ->. clear H1 Q.
  set (sb := setr false _ sa) in *. assert (G1 : getr false sb = _) by apply getr_setr. clearbody sb. clear G2 sa.
  apply bind_ok_inv in X as [[] [s1 [d7 [d8 [H1 [X _]]]]]].
  destruct (ev_det _ _ _ _ _ _ _ _ H1 (ev_write _ _ _)) as [_ [-> _]]. clear H1.
  apply bind_ok_inv in X as [x2 [s1 [d9 [d10 [H1 [X _]]]]]].
  pose proof (dec2_cut false f' defBuf _ _ _ _ sb BB G1) as Q. destruct (Nat.ltb_spec (m - 32) 64).
  { exfalso. destruct Q as [p' Q]. destruct (ev_det _ _ _ _ _ _ _ _ H1 Q) as [Y _]. discriminate. }
  destruct (ev_det _ _ _ _ _ _ _ _ H1 Q) as [Y [-> _]]. injection Y as ->. clear H1 Q.
  set (sa := setr false _ sb) in *. assert (G2 : getr false sa = _) by apply getr_setr. clearbody sa. clear G1 sb.
  apply bind_ok_inv in X as [[] [s1 [d11 [d12 [H1 [X _]]]]]].
  destruct (ev_det _ _ _ _ _ _ _ _ H1 (ev_write _ _ _)) as [_ [-> _]]. clear H1.
  assert (SC : forall (v : list E) N p' mm t s w s2 d13, N = Z.of_nat (length v) -> getr false s = at_ f' defBuf p' (firstn mm (enc1 v ++ t)) ->
    ev (scale2 bs false 0 N (finv d)) s (Ok w) s2 d13 -> 32 * length v <= mm /\ getr false s2 = at_ f' defBuf (p' + 32 * length v) (firstn (mm - 32 * length v) t)).
  { clear - B BB. intros v N p' mm t s w s2 d13 -> G X. assert (X' := X). unfold scale2 in X. destruct (Z.ltb_spec (Z.of_nat (length v)) 0); [lia|].
    rewrite Nat2Z.id in X. pose proof (scale_cut bs false 0 f' defBuf (finv d) B BB _ v _ _ _ _ _ _ _ _ (le_n _) G X) as M. split; [exact M|].
    rewrite firstn_app_le in G by (rewrite enc1_len; lia). rewrite enc1_len in G.
    destruct (ev_det _ _ _ _ _ _ _ _ X' (ev_scale2 bs false 0 f' defBuf (finv d) v (enc1 v) p' _ s _ B BB eq_refl (are1_enc v) G)) as [_ [-> _]].
    rewrite enc1_len. apply getr_setr. }
  apply bind_ok_inv in X as [[] [s1 [d13 [d14 [H1 [X _]]]]]].
  destruct (SC (p_Z q) _ _ _ _ _ _ _ _ SZ G2 H1) as [M1 G1]. clear H1 G2 sa.
  apply bind_ok_inv in X as [[] [s2 [d15 [d16 [H1 [X _]]]]]].
  destruct (SC (p_K q) _ _ _ _ _ _ _ _ SK G1 H1) as [M2 G2]. clear H1 G1 s1 SC.
  apply bind_ok_inv in X as [c [s1 [d17 [d18 [H1 _]]]]]. rewrite HL, Nat2Z.id in H1.
  match type of G2 with _ = at_ _ _ ?P (firstn ?M _) => set (pp := P) in *; set (mm := M) in * end.
  assert (EP : pp = length (head2 h q)) by (unfold pp; lia).
  assert (EM : mm = (k - length (head2 h q))%nat) by (unfold mm, m; lia).
  assert (UA : unsplit_at pp (length l)) by (rewrite EP; exact U).
  pose proof (copy_cut false 0 f' l _ pp mm s2 c s1 d17 H32 UA G2 ltac:(lia) H1) as Q.
  split; [|lia]. intros ->. cbn [recs2_bytes flat_map length] in Lf. lia.
Qed.
(* ... and the file it makes is not accepted, if a byte other than 0 was missing *)
Lemma cut_in_hash2 bs bs' (d s : E) (rho : nat -> nat -> nat -> E) g h ho (q qo : par2 E) l lo c k : 1 <= bs -> 1 <= bs' -> hdr_ok h -> hdr_ok ho -> count_ok (h_contribs h) ->
  sized2 h q -> h_contribs h = Z.of_nat (length (l ++ [c])) -> hashed2 (l ++ [c]) -> hash_good2 c ->
  unsplit h q (length (l ++ [c])) -> unsplit (set_contribs h (h_contribs h + 1)) q (length (l ++ [c]) + 1) -> is_file2 g ho qo lo ->
  let f := file2 h q (l ++ [c]) in
  k < length f -> length f < k + 32 -> skipn k f <> repeat x00 (length f - k) ->
  exists r out, exec (contribute2 bs d s) (firstn k f) g = (Ok r, out) /\ forall hs, fst (exec (verify2 bs' rho) out g) <> Ok hs.
Proof.
  intros B B' H Ho Cn SZ HL H32 HG U U' IG f K K2 NZ.
  set (j := (32 - (length f - k))%nat).
  pose proof (contribute2_padded bs d s g h q l c j B H Cn SZ HL H32 U ltac:(lia)) as Q. cbv zeta in Q. fold f in Q.
  replace (length f - (32 - j))%nat with k in Q by lia. do 2 eexists. split; [exact Q|].
  set (r := new_rec2 _ _ _ _). intros hs X.
  assert (HC : length (d_hash c) = 32%nat) by (apply H32, in_or_app; right; now left).
  set (h' := set_contribs h (h_contribs h + 1)) in *. unfold count_ok in Cn.
  assert (Hh' : hdr_ok h') by (apply hdr_ok_set; [exact H|unfold int64; lia]).
  assert (IF : is_file2 (file2 h' (upd_par2 d q) (l ++ [padded j c; r])) h' (upd_par2 d q) (l ++ [padded j c; r])).
  { rewrite <- (app_nil_r (file2 _ _ _)). apply file2_is.
    - unfold sized2 in *. cbn [h' set_contribs h_domain h_witness upd_par2 p_Z p_K]. now rewrite !map_length.
    - cbn [h' set_contribs h_contribs]. rewrite HL, !app_length. cbn [length]. lia.
    - intros a Ha. apply in_app_or in Ha as [Ha|[<-|[<-|[]]]].
      + apply H32, in_or_app. now left.
      + cbn [padded d_hash]. rewrite app_length, firstn_length, repeat_length. lia.
      + apply new_rec2_hash.
    - intros i Hi. rewrite !app_length in *. cbn [length] in *. specialize (U' i ltac:(lia)). unfold hash_off, head2 in *.
      rewrite app_length, par2_bytes_length in *. cbn [upd_par2 p_Z p_K]. rewrite !map_length. exact U'. }
  rewrite (verify2_exec bs' rho _ g h' ho _ qo _ lo B' Hh' Ho IF IG) in X. cbn [fst] in X.
  apply verdict2_ok in X as [_ [_ [_ [_ [_ [C _]]]]]].
  pose proof (accepted_good _ _ C (padded j c) ltac:(apply in_or_app; right; now left)) as PG.
  refine (padded_good c j HG HC ltac:(lia) _ PG). intros X. apply NZ.
  replace (length f - k)%nat with (32 - j)%nat by lia. rewrite <- X.
  assert (Ff : f = (head2 h q ++ recs2_bytes l ++ enc_vals (rec2_vals c)) ++ d_hash c).
  { unfold f, file2. rewrite recs2_bytes_app. cbn [recs2_bytes flat_map]. rewrite app_nil_r. unfold rec2_bytes. now rewrite <- !app_assoc. }
  rewrite Ff. set (ff := head2 h q ++ _) in *. assert (Lf : length f = (length ff + 32)%nat) by (rewrite Ff, app_length, HC; reflexivity).
  replace k with (length ff + j)%nat by lia. rewrite skipn_app. rewrite skipn_all2 by lia. cbn [app]. f_equal. lia.
Qed.
End Cut5.
