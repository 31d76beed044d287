(* Torn.v -- what p2c makes of any file that starts with a header. *)
From Coq Require Import Ring Field.
From Verif Require Import Base Fld Conc Parallel IO Ext Spec1 Phase1 Phase1Io Phase1Verify Phase1Inv Gob GobLemmas Circuit Spec2 Phase2 Phase2Io Phase2Lemmas Phase2Claims Safe2 KeysLemmas Safe Spec27.
Local Open Scope fld_scope.
Local Open Scope io_scope.

Lemma defBuf_eq : defBuf = N.to_nat 4096. Proof. reflexivity. Qed.
Lemma rd_hash file p rest : rest <> [] ->
  rd_read 32 (at_ file defBuf p rest) =
  (Some (firstn (room p) rest), at_ file defBuf (p + length (firstn (room p) rest)) (skipn (room p) rest)).
Proof.
  intros N. unfold room. rewrite <- defBuf_eq. assert (B : (64 < defBuf)%nat) by (rewrite defBuf_eq; lia).
  revert B. generalize defBuf. clear - N. intros cap B.
  pose proof (Nat.mod_upper_bound p cap ltac:(lia)) as U. set (n := Nat.min 32 (cap - p mod cap)).
  destruct (Nat.lt_ge_cases (length rest) n) as [L|L].
  - rewrite firstn_all2, skipn_all2 by lia. apply rd_read_tail; [exact N|lia|]. right. lia.
  - rewrite firstn_length, Nat.min_l by exact L. destruct (Nat.le_gt_cases (p mod cap + 32) cap) as [K|K].
    + replace n with 32%nat by lia. rewrite rd_read_at; [reflexivity|lia|lia|right; lia].
    + replace n with (cap - p mod cap)%nat by lia. rewrite rd_read_short by lia. reflexivity.
Qed.
Lemma zeros_skip b : b ++ skipn (length b) zeros32 = padded32 b.
Proof.
  unfold padded32, zeros32. f_equal. destruct (Nat.le_gt_cases (length b) 32) as [L|L].
  - replace 32%nat with (length b + (32 - length b))%nat at 1 by lia. rewrite repeat_app, skipn_app, repeat_length, Nat.sub_diag.
    rewrite skipn_all2 by (rewrite repeat_length; lia). reflexivity.
  - rewrite skipn_all2 by (rewrite repeat_length; lia). now replace (32 - length b)%nat with 0%nat by lia.
Qed.

Section T.
Context {E : Ext2}.
Add Field Kfld27 : (f_th E).

Lemma ev_read_seen h file p (c : contrib2 E) pb rest s : are_vals pb (rec2_vals c) -> rest <> [] ->
  let n := room (p + length pb) in d_hash c = padded32 (firstn n rest) -> getr h s = at_ file defBuf p (pb ++ rest) ->
  ev (read_contrib2 h) s (Ok c) (setr h (at_ file defBuf (p + length pb + length (firstn n rest)) (skipn n rest)) s) none.
Proof.
  intros A N n D G. unfold read_contrib2. eapply ev_points2; [exact defBuf_big|exact A|exact G|].
  exists []. split; [|auto]. cbn [run]. rewrite getr_setr, rd_hash by exact N. fold n. cbn [run]. rewrite setr_setr, zeros_skip, <- D.
  destruct c as [cd [cs csx cspx] ch]. reflexivity.
Qed.
Lemma read_seen_inv h file p rest s (c : contrib2 E) s' d : getr h s = at_ file defBuf p rest -> ev (read_contrib2 h) s (Ok c) s' d ->
  exists pb t, let n := room (p + length pb) in rest = pb ++ t /\ are_vals pb (rec2_vals c) /\ t <> [] /\ d_hash c = padded32 (firstn n t) /\
    s' = setr h (at_ file defBuf (p + length pb + length (firstn n t)) (skipn n t)) s.
Proof.
  intros G H. unfold read_contrib2 in H. pose proof defBuf_big as BB.
  apply bind_ok_inv in H as [x1 [s1 [d1 [d2 [H1 [H _]]]]]]. destruct (decode1_ok_inv _ _ _ _ _ _ _ _ _ BB G H1) as [b1 [t1 [-> [I1 ->]]]].
  apply bind_ok_inv in H as [x2 [s2 [d3 [d4 [H2 [H _]]]]]]. destruct (decode1_ok_inv _ _ _ _ _ _ _ _ _ BB (getr_setr _ _ _) H2) as [b2 [t2 [-> [I2 ->]]]].
  apply bind_ok_inv in H as [x3 [s3 [d5 [d6 [H3 [H _]]]]]]. destruct (decode1_ok_inv _ _ _ _ _ _ _ _ _ BB (getr_setr _ _ _) H3) as [b3 [t3 [-> [I3 ->]]]].
  apply bind_ok_inv in H as [x4 [s4 [d7 [d8 [H4 [H _]]]]]]. destruct (decode2_ok_inv _ _ _ _ _ _ _ _ _ BB (getr_setr _ _ _) H4) as [b4 [t4 [-> [I4 ->]]]].
  rewrite !setr_setr in H.
  exists (b1 ++ b2 ++ b3 ++ b4), t4. cbv zeta. rewrite <- !app_assoc. split; [reflexivity|].
  destruct H as [w [H _]]. cbn [run] in H. rewrite getr_setr in H.
  destruct t4 as [|y t5]; [rewrite rd_read_eof in H; discriminate|]. set (t4 := y :: t5) in *.
  rewrite rd_hash in H by discriminate. cbn [run] in H. rewrite setr_setr, zeros_skip in H.
  rewrite !app_length. replace (p + (length b1 + (length b2 + (length b3 + length b4))))%nat with (p + length b1 + length b2 + length b3 + length b4)%nat by lia.
  injection H as <- <- _. split; [|split; [discriminate|split; reflexivity]].
  unfold rec2_vals, key_vals. cbn [d_delta d_key kS kSX kSPX].
  replace (b1 ++ b2 ++ b3 ++ b4) with (b1 ++ b2 ++ b3 ++ b4 ++ []) by (now rewrite app_nil_r).
  repeat (constructor; [assumption|]). constructor.
Qed.

Lemma copy_seen h o file : forall (l : list (contrib2 E)) c0 p rest s, seen2 p rest l -> getr h s = at_ file defBuf p rest ->
  exists s', ev (copy_contribs2 h o (length l) c0) s (Ok (last l c0)) s' (on o (recs2_bytes l)).
Proof.
  induction l as [|c l IH]; intros c0 p rest s S G.
  - exists s. cbn. apply ev_on_nil, ev_ret.
  - inversion S as [|off pb t c' l' A N hb D S' Q1 Q2 [Q3 Q4]]. subst off rest c' l'.
    pose proof (ev_read_seen h file p c pb t s A N D G) as R. cbv zeta in R.
    destruct (IH c _ _ _ S' (getr_setr h _ s)) as [s' R']. exists s'. cbn [length copy_contribs2].
    change (recs2_bytes (c :: l)) with (rec2_bytes c ++ recs2_bytes l). rewrite last_cons.
    eapply evb; [exact R|]. eapply evw; [apply ev_write_contrib2|exact R'].
Qed.
Lemma copy_seen_inv h o file : forall n c0 p rest s (c : contrib2 E) s' d, getr h s = at_ file defBuf p rest ->
  ev (copy_contribs2 h o n c0) s (Ok c) s' d -> exists l : list (contrib2 E), length l = n /\ seen2 p rest l.
Proof.
  induction n as [|n IH]; intros c0 p rest s c s' d G X.
  - exists []. split; [reflexivity|constructor].
  - cbn [copy_contribs2] in X. apply bind_ok_inv in X as [a [s1 [d1 [d2 [H1 [X _]]]]]].
    destruct (read_seen_inv _ _ _ _ _ _ _ _ G H1) as [pb [t [-> [A [N [D ->]]]]]].
    apply bind_ok_inv in X as [[] [s2 [d3 [d4 [H2 [X _]]]]]].
    destruct (ev_det _ _ _ _ _ _ _ _ H2 (ev_write_contrib2 o a _)) as [_ [-> _]].
    destruct (IH _ _ _ _ _ _ _ (getr_setr _ _ _) X) as [l [L S]]. exists (a :: l). split; [cbn; congruence|].
    now constructor.
Qed.
(* contribute2_gen for headers with a negative number of contributions too *)
Lemma contribute2_any bs (d s : E) f h pb q tail st c st2 rb : 1 <= bs -> hdr_ok h -> (h_contribs h < 9223372036854775807)%Z ->
  f = gob_hdr h ++ pb ++ tail -> is_par2 pb q -> sized2 h q -> getr false st = opened f ->
  ev (copy_contribs2 false 0 (Z.to_nat (h_contribs h)) (@zero_contrib2 E))
     (setr false (at_ f defBuf (length (gob_hdr h) + length pb) tail) st) (Ok c) st2 (on 0 rb) ->
  let r := new_rec2 d s (d * p_d1 q) (if (h_contribs h =? 0)%Z then [] else d_hash c) in
  ev (contribute2 bs d s) st (Ok (d_hash r)) st2
     (on 0 (head2 (set_contribs h (h_contribs h + 1)) (upd_par2 d q) ++ rb ++ rec2_bytes r)).
Proof.
  intros B H Cn -> P [SZ SK] G CP r.
  assert (Dm : int64 (h_domain h)). { unfold hdr_ok, hdr_fields in H. rewrite !Forall_cons_iff in H. tauto. }
  assert (Wt : int64 (h_witness h)). { unfold hdr_ok, hdr_fields in H. rewrite !Forall_cons_iff in H. tauto. }
  assert (Ct : int64 (h_contribs h)). { unfold hdr_ok, hdr_fields in H. rewrite !Forall_cons_iff in H. tauto. }
  unfold int64 in Dm, Wt, Ct. unfold two63 in Dm, Wt, Ct.
  destruct P as [b1 [b2 [b3 [b4 [-> [I1 [I2 [A3 A4]]]]]]]].
  rewrite <- !app_assoc in *. set (f := gob_hdr h ++ _) in *.
  unfold contribute2. eapply ev_newrd0; [exact G|]. apply ev_newwr, ev_with_flush.
  eapply evb.
  { eapply ev_set2, ev_read_hdr; [apply defBuf_gob|exact H|apply getr_setr]. }
  cbv zeta. rewrite wrap64_small by (unfold two63; lia). cbn [h_contribs h_domain h_witness set_contribs].
  rewrite (wrap64_small (h_domain h - 1)) by (unfold two63; lia).
  rewrite (wrap64_small (h_contribs h + 1 - 1)) by (unfold two63; lia).
  replace (h_contribs h + 1 - 1)%Z with (h_contribs h) by lia.
  set (h' := set_contribs h (h_contribs h + 1)).
  unfold head2. rewrite <- !app_assoc. unfold par2_bytes. rewrite <- !app_assoc. cbn [upd_par2 p_d1 p_d2 p_Z p_K].
  eapply evw; [apply ev_write_hdr|].
  eapply evb; [eapply ev_set2, ev_decode1; [apply defBuf_big|exact I1|apply getr_setr]|].
  rewrite (ltac:(ring) : p_d1 q * d = d * p_d1 q).
  eapply evw; [apply ev_write|].
  eapply evb; [eapply ev_set2, ev_decode2; [apply defBuf_big|exact I2|apply getr_setr]|].
  rewrite (ltac:(ring) : p_d2 q * d = d * p_d2 q).
  eapply evw; [apply ev_write|].
  rewrite (map_ext (fun x => x / d) (fun x => x * finv d)) with (l := p_Z q) by (intros; now rewrite inv_div).
  rewrite (map_ext (fun x => x / d) (fun x => x * finv d)) with (l := p_K q) by (intros; now rewrite inv_div).
  eapply evw; [eapply ev_set2, ev_scale2; [exact B|apply defBuf_big|exact SZ|exact A3|apply getr_setr]|].
  eapply evw; [eapply ev_set2, ev_scale2; [exact B|apply defBuf_big|exact SK|exact A4|apply getr_setr]|].
  cbn [Nat.add]. rewrite !app_length in CP.
  replace (length (gob_hdr h) + (length b1 + (length b2 + (length b3 + length b4))))%nat
    with (length (gob_hdr h) + length b1 + length b2 + length b3 + length b4)%nat in CP by lia.
  eapply evw; [exact CP|].
  cbn [d_delta d_key].
  rewrite gen_key_spec, compute_hash2_spec.
  change (mkC2 (d * p_d1 q) (mk_key d s (if (h_contribs h =? 0)%Z then [] else d_hash c) 1) _) with r.
  eapply ev_bind_on_none; [eapply ev_try_ok, ev_write_contrib2|]. apply ev_ret.
Qed.


(* the file that p2c writes *)
Lemma seen_run bs (d s : E) g h pb (q : par2 E) t l : 1 <= bs -> hdr_ok h -> (h_contribs h < 9223372036854775807)%Z ->
  is_par2 pb q -> sized2 h q -> length l = Z.to_nat (h_contribs h) -> seen2 (length (gob_hdr h) + length pb) t l ->
  let r := new_rec2 d s (d * p_d1 q) (last_hash2 l) in
  exec (contribute2 bs d s) (gob_hdr h ++ pb ++ t) g =
  (Ok (d_hash r), file2 (set_contribs h (h_contribs h + 1)) (upd_par2 d q) (l ++ [r])).
Proof.
  intros B H Cn P Sz HL S r. set (f := gob_hdr h ++ pb ++ t).
  destruct (copy_seen false 0 f l (@zero_contrib2 E) _ t
    (setr false (at_ f defBuf (length (gob_hdr h) + length pb) t) (opened f, opened g)) S (getr_setr _ _ _)) as [st CP].
  rewrite HL in CP.
  pose proof (contribute2_any bs d s f h pb q t (opened f, opened g) _ _ _ B H Cn eq_refl P Sz eq_refl CP) as Q. cbv zeta in Q.
  assert (EH : (if (h_contribs h =? 0)%Z then [] else d_hash (last l (@zero_contrib2 E))) = last_hash2 l).
  { unfold last_hash2. change [] with (d_hash (@zero_contrib2 E)) at 2. rewrite last_map.
    destruct (Z.eqb_spec (h_contribs h) 0) as [Z0|Z0]; [|reflexivity].
    destruct l; [reflexivity|]. rewrite Z0 in HL. discriminate. }
  rewrite EH in Q. fold r in Q. apply ev_exec in Q. rewrite Q. f_equal. cbn [on Nat.eqb]. unfold file2.
  rewrite recs2_bytes_app. cbn [recs2_bytes flat_map]. now rewrite app_nil_r.
Qed.
Lemma seen_only bs (d s : E) g h t x out : 1 <= bs -> hdr_ok h -> (- two63 < h_domain h)%Z -> (h_contribs h < 9223372036854775807)%Z ->
  exec (contribute2 bs d s) (gob_hdr h ++ t) g = (Ok x, out) ->
  exists pb (q : par2 E) u (l : list (contrib2 E)), t = pb ++ u /\ is_par2 pb q /\ sized2 h q /\ length l = Z.to_nat (h_contribs h) /\ seen2 (length (gob_hdr h) + length pb) u l.
Proof.
  intros B H Dm Cn Y. pose proof (domain_int64 h H) as DI. pose proof defBuf_big as BB. set (f := gob_hdr h ++ t) in *.
  assert (Ct : int64 (h_contribs h)). { unfold hdr_ok, hdr_fields in H. rewrite !Forall_cons_iff in H. tauto. } unfold int64 in Ct. 
  apply exec_ev in Y as [s' [D [X _]]].
  unfold contribute2 in X. apply newrd_inv, newwr_inv, flush_inv in X. cbn [getr fst opened] in X. unfold opened in X. rewrite rd_buf_at in X.
  apply bind_ok_inv in X as [h' [s1 [d1 [d2 [H1 [X _]]]]]].
  assert (Q : ev (read_hdr2 (E := E) false) (setr false (at_ f defBuf 0%nat f) (opened f, opened g)) (Ok h)
    (setr false (at_ f defBuf (0 + length (gob_hdr h))%nat t) (setr false (at_ f defBuf 0%nat f) (opened f, opened g))) none)
    by (apply (ev_read_hdr (@gob_alt E)); [exact defBuf_gob|exact H|apply getr_setr]).
  destruct (ev_det _ _ _ _ _ _ _ _ H1 Q) as [Y [-> _]]. injection Y as ->. clear H1 Q. rewrite setr_setr in X. cbv zeta in X.
  apply bind_ok_inv in X as [[] [s1 [d3 [d4 [H1 [X _]]]]]]. destruct (ev_det _ _ _ _ _ _ _ _ H1 (ev_write_hdr _ _ _)) as [_ [-> _]]. clear H1.
  apply bind_ok_inv in X as [x1 [s1 [d5 [d6 [H1 [X _]]]]]]. destruct (decode1_ok_inv _ _ _ _ _ _ _ _ _ BB (getr_setr _ _ _) H1) as [b1 [t1 [-> [I1 ->]]]]. clear H1. rewrite setr_setr in X.
  apply bind_ok_inv in X as [[] [s1 [d7 [d8 [H1 [X _]]]]]]. apply write_state in H1. subst s1.
  apply bind_ok_inv in X as [x2 [s1 [d9 [d10 [H1 [X _]]]]]]. destruct (decode2_ok_inv _ _ _ _ _ _ _ _ _ BB (getr_setr _ _ _) H1) as [b2 [t2 [-> [I2 ->]]]]. clear H1. rewrite setr_setr in X.
  apply bind_ok_inv in X as [[] [s1 [d11 [d12 [H1 [X _]]]]]]. apply write_state in H1. subst s1.
  change (h_domain (set_contribs h _)) with (h_domain h) in X. change (h_witness (set_contribs h _)) with (h_witness h) in X.
  cbn [h_contribs set_contribs] in X.
  rewrite (wrap64_small (h_domain h - 1)) in X by lia.
  apply bind_ok_inv in X as [[] [s1 [d13 [d14 [H1 [X _]]]]]]. destruct (scale2_ok_inv _ _ _ _ _ _ _ _ _ _ _ _ B (getr_setr _ _ _) H1) as [b3 [zs [t3 [-> [A3 [L3 ->]]]]]]. clear H1. rewrite setr_setr in X.
  apply bind_ok_inv in X as [[] [s1 [d15 [d16 [H1 [X _]]]]]]. destruct (scale2_ok_inv _ _ _ _ _ _ _ _ _ _ _ _ B (getr_setr _ _ _) H1) as [b4 [ks [t4 [-> [A4 [L4 ->]]]]]]. clear H1. rewrite setr_setr in X.
  apply bind_ok_inv in X as [c [s1 [d17 [d18 [H1 _]]]]].
  assert (W : wrap64 (wrap64 (h_contribs h + 1) - 1) = h_contribs h).
  { rewrite (wrap64_small (h_contribs h + 1)) by (unfold two63 in *; lia). rewrite wrap64_small by (unfold two63 in *; lia). lia. }
  rewrite W in H1.
  destruct (copy_seen_inv _ _ _ _ _ _ _ _ _ _ _ (getr_setr _ _ _) H1) as [l [HL S]].
  exists (b1 ++ b2 ++ b3 ++ b4), (mkPar2 x1 x2 zs ks), t4, l. rewrite <- !app_assoc. split; [reflexivity|].
  split; [exists b1, b2, b3, b4; auto|]. split; [split; cbn [p_Z p_K]; lia|]. split; [exact HL|].
  rewrite !app_length. replace (length (gob_hdr h) + (length b1 + (length b2 + (length b3 + length b4))))%nat with (0 + length (gob_hdr h) + length b1 + length b2 + length b3 + length b4)%nat by lia. exact S.
Qed.
Lemma seen_iff bs (d s : E) g h t x out : 1 <= bs -> hdr_ok h -> (- two63 < h_domain h)%Z -> (h_contribs h < 9223372036854775807)%Z ->
  (exec (contribute2 bs d s) (gob_hdr h ++ t) g = (Ok x, out) <->
   exists pb (q : par2 E) u (l : list (contrib2 E)), t = pb ++ u /\ is_par2 pb q /\ sized2 h q /\ length l = Z.to_nat (h_contribs h) /\
     seen2 (length (gob_hdr h) + length pb) u l /\
     let r := new_rec2 d s (d * p_d1 q) (last_hash2 l) in
     x = d_hash r /\ out = file2 (set_contribs h (h_contribs h + 1)) (upd_par2 d q) (l ++ [r])).
Proof.
  intros B H Dm Cn. split.
  - intros Y. destruct (seen_only bs d s g h t x out B H Dm Cn Y) as [pb [q [u [l [-> [P [Sz [HL S]]]]]]]].
    exists pb, q, u, l. do 5 (split; [auto|]). cbv zeta.
    pose proof (seen_run bs d s g h pb q u l B H Cn P Sz HL S) as Q. cbv zeta in Q. rewrite Y in Q. injection Q as -> ->. auto.
  - intros [pb [q [u [l [-> [P [Sz [HL [S [-> ->]]]]]]]]]]. exact (seen_run bs d s g h pb q u l B H Cn P Sz HL S).
Qed.
(* a readable file is seen as it is *)
Lemma readable_seen off b (l : list (contrib2 E)) junk : recs2_at off b l -> seen2 off (b ++ junk) l.
Proof.
  induction 1 as [off|off pb c t l A L M R IH]; [constructor|].
  assert (RM : room (off + length pb) = 32%nat) by (unfold room; lia).
  rewrite <- !app_assoc. constructor; [exact A| |rewrite RM|rewrite RM].
  - intros Q. apply app_eq_nil in Q as [Q _]. rewrite Q in L. discriminate.
  - rewrite <- L, firstn_app_exact. unfold padded32. rewrite L, Nat.sub_diag. cbn. now rewrite app_nil_r.
  - rewrite <- L, firstn_app_exact, skipn_app_exact, L. exact IH.
Qed.
(* a number of records below 0 *)
Lemma negative_iff bs (d s : E) g h t : 1 <= bs -> hdr_ok h -> (- two63 < h_domain h)%Z -> (h_contribs h < 0)%Z ->
  ((exists x, fst (exec (contribute2 bs d s) (gob_hdr h ++ t) g) = Ok x) <->
   exists pb (q : par2 E) u, t = pb ++ u /\ is_par2 pb q /\ sized2 h q).
Proof.
  intros B H Dm N. split.
  - intros [x X]. destruct (exec (contribute2 bs d s) (gob_hdr h ++ t) g) as [r out] eqn:Y. cbn [fst] in X. subst r.
    destruct (seen_only bs d s g h t x out B H Dm ltac:(lia) Y) as [pb [q [u [l [-> [P [Sz _]]]]]]]. eauto 6.
  - intros [pb [q [u [-> [P Sz]]]]]. 
    rewrite (seen_run bs d s g h pb q u [] B H ltac:(lia) P Sz); [cbn [fst]; eauto| |constructor]. cbn [length]. lia.
Qed.
End T.
