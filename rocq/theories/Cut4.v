(* Cut4.v -- phase2.Verify and phase2.Contribute on files that end early. *)
From Coq Require Import Ring Field.
From Verif Require Import Base Fld Conc Parallel IO Ext Spec1 Phase1 Phase1Io Phase1Verify Phase1Inv Gob GobLemmas Circuit Spec2 Phase2 Phase2Io Phase2Lemmas Phase2Claims Phase2More Cut1.
Local Open Scope fld_scope.
Local Open Scope io_scope.

Section Cut4.
Context {E : Ext2}.
Add Field Kcut7 : (f_th E).

Lemma firstn_app_lt {X} k (a t : list X) : k <= length a -> firstn k (a ++ t) = firstn k a.
Proof. intros H. rewrite firstn_app. replace (k - length a)%nat with 0%nat by lia. cbn [firstn]. apply app_nil_r. Qed.

Lemma dec1_cut h file cap p m (x : E) t s : bigcap cap -> getr h s = at_ file cap p (firstn m (g1c x ++ t)) ->
  if m <? 32 then exists p', ev (decode1 (E := E) h) s (Err EEof) (setr h (at_ file cap p' []) s) none
  else ev (decode1 h) s (Ok x) (setr h (at_ file cap (p + 32) (firstn (m - 32) t)) s) none.
Proof.
  intros C G. destruct (Nat.ltb_spec m 32).
  - eexists. unfold decode1. apply ev_bind_err. eapply readfull_eof; [|apply bigcap_le; [exact C|lia]|exact G]. rewrite firstn_length. lia.
  - rewrite firstn_app_le in G by (rewrite g1c_len; lia). rewrite g1c_len in G. replace 32%nat with (length (g1c x)) at 1 by apply g1c_len.
    eapply ev_decode1; [exact C|apply is1_c|exact G].
Qed.
Lemma dec2_cut h file cap p m (x : E) t s : bigcap cap -> getr h s = at_ file cap p (firstn m (g2c x ++ t)) ->
  if m <? 64 then exists p', ev (decode2 (E := E) h) s (Err EEof) (setr h (at_ file cap p' []) s) none
  else ev (decode2 h) s (Ok x) (setr h (at_ file cap (p + 64) (firstn (m - 64) t)) s) none.
Proof.
  intros C G. destruct (Nat.ltb_spec m 64).
  - eexists. unfold decode2. apply ev_bind_err. eapply readfull_eof; [|apply bigcap_le; [exact C|lia]|exact G]. rewrite firstn_length. lia.
  - rewrite firstn_app_le in G by (rewrite g2c_len; lia). rewrite g2c_len in G. replace 64%nat with (length (g2c x)) at 1 by apply g2c_len.
    eapply ev_decode2; [exact C|apply is2_c|exact G].
Qed.
Lemma enc1_len (l : list E) : length (enc1 l) = (32 * length l)%nat.
Proof. induction l as [|x l IH]; [reflexivity|]. cbn [enc1 flat_map]. change (flat_map g1c l) with (enc1 l). rewrite app_length, g1c_len, IH. cbn [length]. lia. Qed.
Lemma decs1_short h file cap : bigcap cap -> forall (l : list E) p m t s, getr h s = at_ file cap p (firstn m (enc1 l ++ t)) -> m < 32 * length l ->
  exists p', ev (decodes1 (E := E) h (length l)) s (Err EEof) (setr h (at_ file cap p' []) s) none.
Proof.
  intros C. induction l as [|x l IH]; intros p m t s G M; [cbn in M; lia|].
  change (enc1 (x :: l)) with (g1c x ++ enc1 l) in G. rewrite <- app_assoc in G. cbn [length decodes1].
  pose proof (dec1_cut h file cap p m x _ s C G) as D. destruct (Nat.ltb_spec m 32).
  - destruct D as [p' D]. exists p'. apply ev_bind_err. exact D.
  - destruct (IH (p + 32)%nat (m - 32)%nat t (setr h (at_ file cap (p + 32) (firstn (m - 32) (enc1 l ++ t))) s)) as [p' Q];
      [apply getr_setr|cbn [length] in M; lia|]. exists p'.
    eapply evb; [exact D|]. apply ev_bind_err. now rewrite setr_setr in Q.
Qed.
Lemma decs1_full h file cap (l : list E) p m t s : bigcap cap -> getr h s = at_ file cap p (firstn m (enc1 l ++ t)) -> 32 * length l <= m ->
  ev (decodes1 (E := E) h (length l)) s (Ok l) (setr h (at_ file cap (p + 32 * length l) (firstn (m - 32 * length l) t)) s) none.
Proof.
  intros C G M. rewrite firstn_app_le in G by (rewrite enc1_len; lia). rewrite enc1_len in G. rewrite <- enc1_len at 1.
  eapply ev_decodes1; [exact C|apply are1_enc|exact G].
Qed.
(* at the end of the input *)
Lemma decs1_eof h file cap p n s : bigcap cap -> 1 <= n -> getr h s = at_ file cap p [] ->
  exists p', ev (decodes1 (E := E) h n) s (Err EEof) (setr h (at_ file cap p' []) s) none.
Proof.
  intros C N G. destruct n as [|n]; [lia|]. cbn [decodes1]. unfold decode1. eexists. apply ev_bind_err, ev_bind_err.
  eapply readfull_eof; [|apply bigcap_le; [exact C|lia]|exact G]. cbn. lia.
Qed.

(* ---- the header ---- *)
Lemma rd_uint_cut h file cap p n m t s : cap = 0%nat \/ 136 < cap -> (n < 18446744073709551616)%N ->
  getr h s = at_ file cap p (firstn m (gob_uint n ++ t)) -> m < length (gob_uint n) ->
  exists s', ev (rd_uint h) s (Err EEof) s' none.
Proof.
  intros C Hn G M. unfold rd_uint. destruct (N.lt_ge_cases n 128) as [Sm|Sm].
  - rewrite gob_uint_small in * by auto. cbn [length] in M. assert (m = 0)%nat by lia. subst m. cbn [firstn] in G.
    eexists. apply ev_bind_err. eapply readfull_eof; [| |exact G]; [cbn; lia|lia].
  - destruct (gob_uint_head n ltac:(lia)) as [x [d [Q [X [L V]]]]]. rewrite Q in *. cbn [length] in M.
    destruct m as [|m].
    { cbn [firstn] in G. eexists. apply ev_bind_err. eapply readfull_eof; [| |exact G]; [cbn; lia|lia]. }
    cbn [app firstn] in G.
    eexists. eapply evb; [apply readfull_ok with (cap := cap) (b := [x]) (t := firstn m (d ++ t)); [reflexivity|lia|exact G]|]. cbv beta iota.
    destruct (N.ltb_spec (bN x) 128); [lia|].
    replace (N.to_nat (256 - bN x)) with (length d) by lia.
    destruct (Nat.ltb_spec 8 (length d)); [lia|].
    apply ev_bind_err. eapply readfull_eof; [| |apply getr_setr]; [rewrite firstn_length; lia|lia].
Qed.
Lemma recv_cut h file cap p b m t s : cap = 0%nat \/ 136 < cap -> length b <= 136 ->
  getr h s = at_ file cap p (firstn m (message b ++ t)) -> m < length (message b) ->
  exists s', ev (recv h) s (Err EEof) s' none.
Proof.
  intros C L G M. unfold recv, message in *. rewrite <- app_assoc in G. rewrite app_length in M.
  destruct (Nat.lt_ge_cases m (length (gob_uint (N.of_nat (length b))))) as [K|K].
  - destruct (rd_uint_cut h file cap p (N.of_nat (length b)) m (b ++ t) s C ltac:(lia) G K) as [s' D]. exists s'. now apply ev_bind_err.
  - rewrite firstn_app_le in G by exact K. eexists.
    eapply evb; [apply ev_rd_uint with (cap := cap) (n := N.of_nat (length b)); [exact C|lia|exact G]|]. cbv beta.
    destruct (N.leb_spec 1073741824 (N.of_nat (length b))); [lia|]. rewrite Nat2N.id.
    eapply readfull_eof; [| |apply getr_setr]; [rewrite firstn_length; lia|lia].
Qed.
Lemma hdr_cut alt h file cap p x m t s : cap = 0%nat \/ 136 < cap ->
  getr h s = at_ file cap p (firstn m (gob_hdr x ++ t)) -> m < length (gob_hdr x) ->
  exists s', ev (read_hdr alt h) s (Err EEof) s' none.
Proof.
  intros C G M. unfold read_hdr, gob_hdr in *. rewrite <- app_assoc in G. rewrite app_length in M.
  pose proof (value_len x).
  destruct (Nat.lt_ge_cases m (length (message typedef))) as [K|K].
  - destruct (recv_cut h file cap p typedef m _ s C ltac:(rewrite typedef_len; lia) G K) as [s' D]. exists s'. now apply ev_bind_err.
  - rewrite firstn_app_le in G by exact K.
    destruct (recv_cut h file cap (p + length (message typedef)) (value x) (m - length (message typedef)) t
      (setr h (at_ file cap (p + length (message typedef)) (firstn (m - length (message typedef)) (message (value x) ++ t))) s) C ltac:(lia) (getr_setr _ _ _) ltac:(lia)) as [s' D].
    exists s'. eapply evb; [apply ev_recv with (cap := cap) (b := typedef); [exact C|rewrite typedef_len; lia|exact G]|].
    cbv beta. rewrite bytes_eqb_refl. now apply ev_bind_err.
Qed.

(* ---- one section ---- *)
Lemma agg_short bs (rho : nat -> nat -> E) fa fb ca cb : 1 <= bs -> bigcap ca -> bigcap cb ->
  forall fuel (l1 l2 : list E) b2 pa pb m ta tb s r i o, length l1 <= fuel -> length l2 = length l1 -> length l1 <= length r -> are1 b2 l2 ->
  getr false s = at_ fa ca pa (firstn m (enc1 l1 ++ ta)) -> getr true s = at_ fb cb pb (b2 ++ tb) -> m < 32 * length l1 ->
  exists p' s', ev (aggregate_loop bs rho fuel (length l1) r i o) s (Err EEof) s' none /\ getr false s' = at_ fa ca p' [].
Proof.
  intros B Ca Cb. induction fuel as [|fuel IH]; intros l1 l2 b2 pa pb m ta tb s r i o Lf Ll Lr A2 G1 G2 M.
  - destruct l1; [|cbn in Lf; lia]. cbn in M. lia.
  - destruct l1 as [|x0 l0]; [cbn in M; lia|].
    remember (x0 :: l0) as l1 eqn:El.
    assert (Lpos : 1 <= length l1) by (subst l1; cbn; lia).
    assert (UN : aggregate_loop bs rho (S fuel) (length l1) r i o =
      (orBoom (randomize (rho (length l1)) r) (fun r =>
       let n := Nat.min (length l1) bs in
       ins <- decodes1 false n ;;
       match mexp E ins (firstn n r) with
       | None => Throw EDecode
       | Some t =>
         let inG := i + t in
         ors <- decodes1 true n ;;
         match mexp E ors (firstn n r) with
         | None => Throw EDecode
         | Some t => aggregate_loop bs rho fuel (length l1 - n) r inG (o + t)
         end
       end))) by (subst l1; reflexivity).
    rewrite UN. clear UN. rewrite randomize_len. cbn [orBoom]. cbv zeta.
    set (n := Nat.min (length l1) bs). assert (Hn : 1 <= n <= length l1) by lia.
    set (r' := map (rho (length l1)) (seq 0 (length r))).
    assert (Fr : firstn n r' = map (rho (length l1)) (seq 0 n)).
    { unfold r'. rewrite firstn_map. f_equal. replace (length r) with (n + (length r - n))%nat by lia.
      rewrite seq_app. replace n with (length (seq 0 n)) at 1 by apply seq_length. apply firstn_app_exact. }
    assert (Hl1 : l1 = firstn n l1 ++ skipn n l1) by now rewrite firstn_skipn.
    assert (Hl2 : l2 = firstn n l2 ++ skipn n l2) by now rewrite firstn_skipn.
    assert (La1 : length (firstn n l1) = n) by (rewrite firstn_length; lia).
    assert (La2 : length (firstn n l2) = n) by (rewrite firstn_length; lia).
    assert (Lb1 : length (skipn n l1) = (length l1 - n)%nat) by apply skipn_length.
    assert (Lb2 : length (skipn n l2) = (length l1 - n)%nat) by (rewrite skipn_length; lia).
    set (u1 := firstn n l1) in *. set (v1 := skipn n l1) in *. set (u2 := firstn n l2) in *. set (v2 := skipn n l2) in *.
    assert (E1 : enc1 l1 = enc1 u1 ++ enc1 v1) by (rewrite Hl1; apply flat_map_app). rewrite E1, <- app_assoc in G1.
    rewrite Hl2 in A2. apply parses_app_inv in A2 as [c2 [e2 [-> [Au2 Av2]]]]. rewrite <- app_assoc in G2.
    destruct (Nat.lt_ge_cases m (32 * n)) as [K|K].
    + rewrite <- La1 in K. destruct (decs1_short false fa ca Ca u1 pa m _ s G1 K) as [p' D]. rewrite La1 in D.
      eexists p', _. split; [apply ev_bind_err; exact D|apply getr_setr].
    + rewrite <- La1 in K. pose proof (decs1_full false fa ca u1 pa m _ s Ca G1 K) as D1. rewrite La1 in D1, K.
      assert (G2' : getr true (setr false (at_ fa ca (pa + 32 * n) (firstn (m - 32 * n) (enc1 v1 ++ ta))) s) = at_ fb cb pb (c2 ++ e2 ++ tb))
        by (rewrite getr_other by reflexivity; auto).
      pose proof (ev_decodes1 true fb cb Cb u2 c2 pb (e2 ++ tb) _ Au2 G2') as D2. rewrite La2 in D2.
      match type of D2 with ev _ _ _ ?S2 _ => set (s2 := S2) in * end.
      destruct (IH v1 v2 e2 (pa + 32 * n)%nat (pb + length c2)%nat (m - 32 * n)%nat ta tb s2 r'
        (i + dot u1 (map (rho (length l1)) (seq 0 n))) (o + dot u2 (map (rho (length l1)) (seq 0 n)))) as [p' [s' [Q GS]]];
        [lia|lia|unfold r'; rewrite map_length, seq_length; lia|exact Av2| | |lia|].
      { unfold s2. rewrite getr_other by reflexivity. apply getr_setr. }
      { unfold s2. apply getr_setr. }
      exists p', s'. split; [|exact GS].
      eapply evb; [exact D1|]. rewrite Fr, mexp_eq by (rewrite map_length, seq_length; auto).
      eapply evb; [exact D2|]. rewrite mexp_eq by (rewrite map_length, seq_length; auto). rewrite <- Lb1. exact Q.
Qed.

Lemma param_cut bs (rho : nat -> nat -> E) fa fb (dl gg : E) N e (l1 l2 : list E) b2 pa pb m ta tb s x s' d : 1 <= bs ->
  N = Z.of_nat (length l1) -> length l2 = length l1 -> are1 b2 l2 ->
  getr false s = at_ fa defBuf pa (firstn m (enc1 l1 ++ ta)) -> getr true s = at_ fb defBuf pb (b2 ++ tb) ->
  ev (verify_param bs rho dl gg N e) s (Ok x) s' d ->
  (32 * length l1 <= m /\ getr false s' = at_ fa defBuf (pa + 32 * length l1) (firstn (m - 32 * length l1) ta) /\
     getr true s' = at_ fb defBuf (pb + length b2) tb) \/
  (m < 32 * length l1 /\ exists p', getr false s' = at_ fa defBuf p' []).
Proof.
  intros B HN Ll A2 G1 G2 H. pose proof defBuf_big as BB. unfold verify_param in H.
  apply bind_ok_inv in H as [o [s1 [d1 [d2 [H1 [H _]]]]]].
  assert (S1 : s' = s1).
  { destruct o as [[i r]|]; [|now apply ret_inv in H]. unfold require in H.
    destruct (same_ratio i r dl gg); [now apply ret_inv in H|]. destruct H as [w [H _]]. discriminate. }
  subst s'. clear H. destruct (Nat.le_gt_cases (32 * length l1) m) as [K|K].
  - left. split; [exact K|]. rewrite firstn_app_le in G1 by (rewrite enc1_len; lia).
    pose proof (ev_aggregate bs rho fa fb defBuf defBuf l1 l2 (enc1 l1) b2 pa pb _ tb s N B BB BB HN Ll (are1_enc l1) A2 G1 G2) as Q.
    apply ev_try_ok in Q. destruct (ev_det _ _ _ _ _ _ _ _ H1 Q) as [_ [-> _]]. rewrite enc1_len.
    split; [|apply getr_setr]. rewrite getr_other by reflexivity. apply getr_setr.
  - right. split; [exact K|]. unfold aggregate in H1. subst N. destruct (Z.ltb_spec (Z.of_nat (length l1)) 0); [lia|]. rewrite Nat2Z.id in H1.
    destruct (agg_short bs rho fa fb defBuf defBuf B BB BB (length l1) l1 l2 b2 pa pb m ta tb s (repeat 0 (length l1)) 0 0) as [p' [s2 [Q GS]]]; auto.
    { now rewrite repeat_length. }
    apply ev_try_err in Q. destruct (ev_det _ _ _ _ _ _ _ _ H1 Q) as [_ [-> _]]. eauto.
Qed.
Lemma param_eof bs (rho : nat -> nat -> E) fa (dl gg : E) N e p s x s' d : 1 <= bs ->
  getr false s = at_ fa defBuf p [] -> ev (verify_param bs rho dl gg N e) s (Ok x) s' d -> exists p', getr false s' = at_ fa defBuf p' [].
Proof.
  intros B G H. pose proof defBuf_big as BB. unfold verify_param in H.
  apply bind_ok_inv in H as [o [s1 [d1 [d2 [H1 [H _]]]]]].
  assert (S1 : s' = s1).
  { destruct o as [[i r]|]; [|now apply ret_inv in H]. unfold require in H.
    destruct (same_ratio i r dl gg); [now apply ret_inv in H|]. destruct H as [w [H _]]. discriminate. }
  subst s'. clear H. unfold aggregate in H1. destruct (Z.ltb_spec N 0).
  { exfalso. destruct H1 as [w [H1 _]]. discriminate. }
  destruct (Z.to_nat N) as [|n] eqn:QN.
  - assert (Q : ev (try (aggregate_loop bs rho 0 0 (repeat 0 0) 0 0)) s (Ok (Some (0, 0))) s none) by (apply ev_try_ok, ev_ret).
    destruct (ev_det _ _ _ _ _ _ _ _ H1 Q) as [_ [-> _]]. eauto.
  - destruct (decs1_eof false fa defBuf p (Nat.min (S n) bs) s BB ltac:(lia) G) as [p' D]. exists p'.
    assert (Q : ev (aggregate_loop bs rho (S n) (S n) (repeat 0 (S n)) 0 0) s (Err EEof) (setr false (at_ fa defBuf p' []) s) none).
    { cbn [aggregate_loop]. rewrite randomize_len. cbn [orBoom]. cbv zeta. apply ev_bind_err. exact D. }
    apply ev_try_err in Q. destruct (ev_det _ _ _ _ _ _ _ _ H1 Q) as [_ [-> _]]. apply getr_setr.
Qed.

(* ---- records ---- *)
Definition padded (j : nat) (c : contrib2 E) : contrib2 E := mkC2 (d_delta c) (d_key c) (firstn j (d_hash c) ++ repeat x00 (32 - j)).
Lemma read2_low h file p m (c : contrib2 E) t s : m <= 160 -> getr h s = at_ file defBuf p (firstn m (rec2_bytes c ++ t)) ->
  exists s', ev (read_contrib2 (E := E) h) s (Err EEof) s' none.
Proof.
  intros M G. pose proof defBuf_big as BB. unfold rec2_bytes, enc_vals, rec2_vals, key_vals in G. cbn [flat_map app enc_val] in G.
  rewrite <- !app_assoc in G. unfold read_contrib2.
  pose proof (dec1_cut h file defBuf p m _ _ s BB G) as D. destruct (Nat.ltb_spec m 32).
  { destruct D as [p' D]. eexists. apply ev_bind_err. exact D. }
  set (s1 := setr h _ s) in D. assert (G1 : getr h s1 = _) by apply getr_setr. clear G.
  pose proof (dec1_cut h file defBuf _ _ _ _ s1 BB G1) as D1. destruct (Nat.ltb_spec (m - 32) 32).
  { destruct D1 as [p' D1]. eexists. eapply evb; [exact D|]. apply ev_bind_err. exact D1. }
  set (s2 := setr h _ s1) in D1. assert (G2 : getr h s2 = _) by apply getr_setr.
  pose proof (dec1_cut h file defBuf _ _ _ _ s2 BB G2) as D2. destruct (Nat.ltb_spec (m - 32 - 32) 32).
  { destruct D2 as [p' D2]. eexists. eapply evb; [exact D|]. eapply evb; [exact D1|]. apply ev_bind_err. exact D2. }
  set (s3 := setr h _ s2) in D2. assert (G3 : getr h s3 = _) by apply getr_setr.
  pose proof (dec2_cut h file defBuf _ _ _ _ s3 BB G3) as D3. destruct (Nat.ltb_spec (m - 32 - 32 - 32) 64).
  { destruct D3 as [p' D3]. eexists. eapply evb; [exact D|]. eapply evb; [exact D1|]. eapply evb; [exact D2|]. apply ev_bind_err. exact D3. }
  replace (m - 32 - 32 - 32 - 64)%nat with 0%nat in D3 by lia. rewrite firstn_O in D3.
  eexists. eapply evb; [exact D|]. eapply evb; [exact D1|]. eapply evb; [exact D2|]. eapply evb; [exact D3|].
  exists []. split; [|auto]. cbn [run]. rewrite getr_setr, rd_read_eof. cbn [run]. reflexivity.
Qed.
Lemma read2_mid h file p m (c : contrib2 E) t s : 160 < m < 192 -> length (d_hash c) = 32%nat -> ((p + 160) mod N.to_nat 4096 <= N.to_nat 4064)%nat ->
  getr h s = at_ file defBuf p (firstn m (rec2_bytes c ++ t)) ->
  exists p', ev (read_contrib2 (E := E) h) s (Ok (padded (m - 160) c)) (setr h (at_ file defBuf p' []) s) none.
Proof.
  intros M HH U G. pose proof defBuf_big as BB. pose proof (vals2_length c) as LV.
  unfold rec2_bytes in G. rewrite <- app_assoc, firstn_app_le, LV in G by lia.
  rewrite (firstn_app_lt (m - 160)) in G by lia.
  set (hh := firstn (m - 160) (d_hash c)) in *. assert (Lh : length hh = (m - 160)%nat) by (unfold hh; rewrite firstn_length; lia).
  eexists. unfold read_contrib2. eapply ev_points2; [exact BB|apply are_vals_enc|exact G|].
  exists []. split; [|auto]. cbn [run]. rewrite getr_setr, rd_read_tail.
  - cbn [run]. rewrite setr_setr. f_equal. f_equal. f_equal. unfold padded. fold hh. rewrite Lh.
    unfold zeros32. rewrite skipn_repeat. destruct c as [cd [cs csx cspx] ch]. reflexivity.
  - intros Z. rewrite Z in Lh. cbn [length] in Lh. lia.
  - lia.
  - right. rewrite LV, defBuf_val, Lh. revert U. generalize ((p + 160) mod N.to_nat 4096)%nat. intros. lia.
Qed.
Lemma read2_full h file p m (c : contrib2 E) t s : 192 <= m -> length (d_hash c) = 32%nat -> ((p + 160) mod N.to_nat 4096 <= N.to_nat 4064)%nat ->
  getr h s = at_ file defBuf p (firstn m (rec2_bytes c ++ t)) ->
  ev (read_contrib2 (E := E) h) s (Ok c) (setr h (at_ file defBuf (p + 192) (firstn (m - 192) t)) s) none.
Proof.
  intros M HH U G. pose proof (vals2_length c) as LV.
  assert (LR : length (rec2_bytes c) = 192%nat) by (unfold rec2_bytes; rewrite app_length, LV, HH; reflexivity).
  rewrite firstn_app_le, LR in G by lia. unfold rec2_bytes in G. rewrite <- app_assoc in G.
  replace (p + 192)%nat with (p + length (enc_vals (rec2_vals c)) + 32)%nat by lia.
  eapply ev_read_contrib2; [apply defBuf_big|apply are_vals_enc|exact HH| |exact G].
  right. rewrite LV, defBuf_val. revert U. generalize ((p + 160) mod N.to_nat 4096)%nat. intros. lia.
Qed.
Lemma rec2_len (c : contrib2 E) : length (d_hash c) = 32%nat -> length (rec2_bytes c) = 192%nat.
Proof. intros H. unfold rec2_bytes. rewrite app_length, vals2_length, H. reflexivity. Qed.
Lemma read2_eof h file p s : getr h s = at_ file defBuf p [] -> exists s', ev (read_contrib2 (E := E) h) s (Err EEof) s' none.
Proof.
  intros G. unfold read_contrib2, decode1. eexists. apply ev_bind_err, ev_bind_err.
  eapply readfull_eof; [| |exact G]; [cbn; lia|apply bigcap_le; [apply defBuf_big|lia]].
Qed.

Definition unsplit_at (off n : nat) : Prop := forall i, (i < n)%nat -> ((off + 192 * i + 160) mod N.to_nat 4096 <= N.to_nat 4064)%nat.
Lemma unsplit_S off n : unsplit_at off (S n) -> ((off + 160) mod N.to_nat 4096 <= N.to_nat 4064)%nat /\ unsplit_at (off + 192) n.
Proof.
  intros H. split.
  - specialize (H 0%nat ltac:(lia)). now rewrite Nat.mul_0_r, Nat.add_0_r in H.
  - intros i Hi. specialize (H (S i) ltac:(lia)). replace (off + 192 + 192 * i + 160)%nat with (off + 192 * S i + 160)%nat by lia. exact H.
Qed.

(* a chain cut short is accepted only if nothing but zero bytes of the last hash is missing *)
Lemma chain2_cut file : forall (l : list (contrib2 E)) p m s (x pd : E) ph y hs s' d, hashed2 l -> (forall c, In c l -> hash_good2 c) -> unsplit_at p (length l) ->
  getr false s = at_ file defBuf p (firstn m (recs2_bytes l)) -> m < length (recs2_bytes l) ->
  ev (verify_chain2 (length l) x pd ph) s (Ok (y, hs)) s' d ->
  exists z, z <= 31 /\ recs2_bytes l = firstn m (recs2_bytes l) ++ repeat x00 z /\ hs = map d_hash l.
Proof.
  induction l as [|c l IH]; intros p m s x pd ph y hs s' d H32 HG U G M H; [cbn in M; lia|].
  assert (HC : length (d_hash c) = 32%nat) by (apply H32; now left). pose proof (rec2_len c HC) as LR.
  cbn [length] in U. apply unsplit_S in U as [U0 U].
  change (recs2_bytes (c :: l)) with (rec2_bytes c ++ recs2_bytes l) in *. rewrite app_length, LR in M.
  cbn [length verify_chain2] in H. apply bind_ok_inv in H as [c' [s1 [d1 [d2 [H1 [H _]]]]]].
  destruct (verify_contrib2 c' pd ph) eqn:V; [destruct H as [w [H _]]; discriminate|].
  apply bind_ok_inv in H as [[y2 hs2] [s2 [d3 [d4 [H2 [H _]]]]]]. apply ret_inv in H as [H _]. injection H as -> <-.
  destruct (Nat.le_gt_cases m 160) as [K|K].
  { exfalso. destruct (read2_low false file p m c _ s K G) as [s3 Q]. destruct (ev_det _ _ _ _ _ _ _ _ H1 Q) as [X _]. discriminate. }
  destruct (Nat.le_gt_cases 192 m) as [K2|K2].
  - pose proof (read2_full false file p m c _ s K2 HC U0 G) as Q. destruct (ev_det _ _ _ _ _ _ _ _ H1 Q) as [X [-> _]]. injection X as <-.
    destruct (IH (p + 192)%nat (m - 192)%nat _ _ _ _ _ _ _ _ (fun a Ha => H32 a (or_intror Ha)) (fun a Ha => HG a (or_intror Ha)) U (getr_setr _ _ _) ltac:(lia) H2) as [z [Z1 [Z2 ->]]].
    exists z. split; [exact Z1|]. split; [|reflexivity]. rewrite firstn_app_le, LR by lia. rewrite <- app_assoc. now rewrite <- Z2.
  - destruct (read2_mid false file p m c _ s (conj K K2) HC U0 G) as [p' Q].
    destruct (ev_det _ _ _ _ _ _ _ _ H1 Q) as [X [-> _]]. assert (XC : c' = padded (m - 160) c) by congruence. clear X. subst c'.
    destruct l as [|c2 l].
    2:{ exfalso. cbn [length verify_chain2] in H2. apply bind_ok_inv in H2 as [c'' [s3 [d5 [d6 [H3 _]]]]].
        destruct (read2_eof false file p' (setr false (at_ file defBuf p' []) s) (getr_setr _ _ _)) as [s4 Q4].
        destruct (ev_det _ _ _ _ _ _ _ _ H3 Q4) as [X _]. discriminate. }
    cbn [length verify_chain2] in H2. apply ret_inv in H2 as [H2 _]. injection H2 as _ <-.
    assert (PH : d_hash (padded (m - 160) c) = d_hash c).
    { apply verify2_inv in V. destruct V as [_ [_ V]]. rewrite (HG c (or_introl eq_refl)). rewrite V. reflexivity. }
    exists (192 - m)%nat. split; [lia|]. rewrite PH. split; [|reflexivity].
    cbn [recs2_bytes flat_map]. rewrite app_nil_r. unfold rec2_bytes in *. pose proof (vals2_length c) as LV.
    rewrite firstn_app_le, LV by lia. rewrite <- app_assoc. f_equal. rewrite <- PH at 1. unfold padded. cbn [d_hash]. f_equal. f_equal. lia.
Qed.
End Cut4.
