(* LiveMore.v -- success is never invented; the same path given twice. *)
From Coq Require String.
From Verif Require Import Base Fld Conc Parallel IO Ext Spec1 Phase1 Gob Circuit Spec2 Phase2 Spec3 Fs Init2 Spec4 Keys Phase1Io
  Phase1Verify Live LiveLemmas Sok LiveFail SokPrograms LiveCmd LiveClaims.
Local Open Scope io_scope.

(* ---- success is never invented ---- *)
Section Honest.
Variable dev : device.
Lemma honest_rd {X} h rn (q : io X) K p hs w a hs' w' : ends defBuf K q -> apart p hs -> w_fs w p <> None ->
  lrun dev (NewRd h rn (NewWr 0 defBuf (with_flush 0 q))) hs w = (Ok a, hs', w') ->
  exists s' W, run (NewRd h rn (NewWr 0 defBuf (with_flush 0 q))) (abss (w_fs w) hs) = (Ok a, s', W).
Proof.
  intros A AP HF R. cbn [run]. rewrite run_with_flush, getr_abss, <- newrd_abs, setr_abss.
  eapply (section_honest dev q p defBuf (seti h (mkI (i_path (geti h hs)) (i_pos (geti h hs)) rn []) hs)) in R; 
    [exact R|eapply ends_honest; exact A|exact defBuf_pos| |exact HF].
  apply apart_seti; [exact AP|intros _; reflexivity|reflexivity].
Qed.
Lemma run_exec {X} (p : io X) F r s' W : run p (opened F, opened F) = (r, s', W) -> exec p F F = (r, out 0 W).
Proof. intros R. unfold exec. now rewrite R. Qed.
Lemma contribute_honest {E : Ext} bs (w : @rnd1 E) ip op f F h w' : ip <> op -> f ip = Some F ->
  l_contribute dev bs w ip op (start f) = (Ok h, w') -> exists O, exec (contribute bs w) F F = (Ok h, O).
Proof.
  intros N HF R0. change (l_contribute dev bs w ip op (start f)) with (l_one dev (contribute bs w) ip op (start f)) in R0.
  assert (CR : can_create dev 0 op = true).
  { unfold l_one, lbind, lopen, lcreate in R0. cbn [start w_fs w_ops length] in R0. rewrite HF in R0. destruct (can_create dev 0 op); [reflexivity|discriminate]. }
  rewrite l_one_open in R0 by (exact CR || congruence). unfold lstage in R0.
  pose proof (apart_fresh ip op N) as AP. pose proof (good_fresh ip op) as G. pose proof (created_ok f op) as HF0.
  assert (NC : o_cap (h_out (fresh ip ip [op]) 0) = 0) by reflexivity.
  assert (AB : abss (w_fs (created f op)) (fresh ip ip [op]) = (opened F, opened F)).
  { change (w_fs (created f op)) with (fset f op []). rewrite abss_fresh by (auto; congruence). unfold contents. now rewrite HF. }
  clear HF. revert AP G NC HF0 AB R0. generalize (created f op) as w0, (fresh ip ip [op]) as hs. intros w0 hs AP G NC HF AB R0.
  cut (exists s' W, run (contribute bs w) (abss (w_fs w0) hs) = (Ok h, s', W)).
  { rewrite AB. intros [s' [W R]]. eexists. apply run_exec in R. exact R. }
  clear AB. destruct (lrun dev (contribute bs w) hs w0) as [[r hs'] w2] eqn:R. injection R0 as -> <-.
  rewrite contribute_split in *. rewrite lrun_bind in R. rewrite run_bind.
  destruct (run (read_header false) (abss (w_fs w0) hs)) as [[r1 s1] W1] eqn:R1.
  destruct (unbuffered_prefix dev any (read_header false) op (sok_read_header true only0 false) hs w0 [] r1 s1 W1 AP G NC HF R1)
    as [r1' [hs1 [w1 [n1 [L1 [F1 D1]]]]]]. rewrite L1 in R.
  destruct D1 as [[-> [NN [AP1 [AB1 HO1]]]]|[[e ->] LT]]; [|discriminate]. destruct r1 as [[pw m]|e1|]; try discriminate.
  rewrite lrun_bind in R. rewrite run_bind.
  assert (SW : sok true only0 any (write_header 0 pw ((m + 1) mod 65536)%N)) by (apply sok_write_header; reflexivity).
  destruct (run (write_header 0 pw ((m + 1) mod 65536)%N) s1) as [[r2 s2] W2] eqn:R2. rewrite <- AB1 in R2.
  destruct (unbuffered_prefix dev any _ op SW hs1 w1 _ r2 s2 W2 AP1 ltac:(rewrite HO1; exact G) ltac:(rewrite HO1; exact NC) F1 R2) as [r2' [hs2 [w3 [n2 [L2 [F2 D2]]]]]].
  rewrite L2 in R. destruct D2 as [[-> [NN2 [AP2 [AB2 HO2]]]]|[[e ->] LT]]; [|discriminate]. destruct r2 as [[]|e1|]; try discriminate.
  destruct (honest_rd false defBuf _ 640 op hs2 w3 h hs' w2 (body1_ends bs w pw ((m + 1) mod 65536)%N) AP2 ltac:(rewrite F2; discriminate) R) as [s3 [W3 R3]].
  rewrite AB2 in R3. rewrite R3. eauto.
Qed.
Lemma contribute2_honest {E : Ext2} bs (d s : E) ip op f F h w' : ip <> op -> f ip = Some F ->
  l_contribute2 dev bs d s ip op (start f) = (Ok h, w') -> exists O, exec (contribute2 bs d s) F F = (Ok h, O).
Proof.
  intros N HF R0. change (l_contribute2 dev bs d s ip op (start f)) with (l_one dev (contribute2 bs d s) ip op (start f)) in R0.
  assert (CR : can_create dev 0 op = true).
  { unfold l_one, lbind, lopen, lcreate in R0. cbn [start w_fs w_ops length] in R0. rewrite HF in R0. destruct (can_create dev 0 op); [reflexivity|discriminate]. }
  rewrite l_one_open in R0 by (exact CR || congruence). unfold lstage in R0.
  destruct (lrun dev (contribute2 bs d s) (fresh ip ip [op]) (created f op)) as [[r hs'] w2] eqn:R. injection R0 as -> <-.
  rewrite contribute2_split in R.
  destruct (honest_rd false defBuf _ 192 op _ _ h hs' w2 (body2_ends bs d s) (apart_fresh ip op N) ltac:(rewrite created_ok; discriminate) R) as [s3 [W3 R3]].
  change (w_fs (created f op)) with (fset f op []) in R3. rewrite abss_fresh in R3 by (auto; congruence). unfold contents in R3. rewrite HF in R3.
  eexists. apply run_exec in R3. exact R3.
Qed.



(* ---- the same path twice ---- *)
(* a program that writes nothing sees the files as they are *)
Lemma quiet_lrun {X} st (Q : X -> Prop) (q : io X) : sok st nowr Q q -> forall hs w, isok hs ->
  exists hs', lrun dev q hs w = (fst (fst (run q (abss (w_fs w) hs))), hs', w) /\ isok hs' /\
    (forall k, h_out hs' k = h_out hs k) /\ (forall h, i_path (geti h hs') = i_path (geti h hs)).
Proof.
  induction q as [a|e| |h k c IH|h z c IH|h n c IH|h n c IH|o n c IH|o c IH|o d c IH]; intros A hs w I; cbn [sok run lrun] in *; try contradiction.
  1-3: exists hs; auto.
  - pose proof (l_read_abs k (w_fs w) (geti h hs) (isok_get h hs I)) as LA.
    pose proof (l_read_ok k (w_fs w) (geti h hs) (isok_get h hs I)) as LO. pose proof (l_read_path k (w_fs w) (geti h hs)) as LP.
    rewrite getr_abss. destruct (l_read k (w_fs w) (geti h hs)) as [x i] eqn:L. destruct (rd_read k (absr (w_fs w) (geti h hs))) as [x' r'] eqn:R.
    cbn [fst snd] in *. injection LA as -> ->. rewrite setr_abss.
    destruct (IH x) with (hs := seti h i hs) (w := w) as [hs' [H1 [H2 [H3 H4]]]].
    + apply A. intros b ->. eapply l_read_len. now rewrite L.
    + now apply isok_set.
    + exists hs'. split; [exact H1|]. split; [exact H2|]. split; [intros j; rewrite H3; apply h_out_seti|].
      intros g. rewrite H4. destruct h, g; cbn [geti seti h_a h_b]; auto.
  - destruct (z <? 0)%Z; [now apply IH|]. rewrite getr_abss, <- seek_abs, setr_abss.
    destruct (IH true (A true) (seti h (mkI (i_path (geti h hs)) (Z.to_nat z) 0 []) hs) w) as [hs' [H1 [H2 [H3 H4]]]];
      [apply isok_set; [exact I|intros _; reflexivity]|].
    exists hs'. split; [exact H1|]. split; [exact H2|]. split; [intros j; rewrite H3; apply h_out_seti|].
    intros g. rewrite H4. destruct h, g; cbn [geti seti h_a h_b]; auto.
  - rewrite getr_abss, <- fwd_abs, setr_abss.
    destruct (IH A (seti h (mkI (i_path (geti h hs)) (i_pos (geti h hs) + n) 0 []) hs) w) as [hs' [H1 [H2 [H3 H4]]]];
      [apply isok_set; [exact I|intros _; reflexivity]|].
    exists hs'. split; [exact H1|]. split; [exact H2|]. split; [intros j; rewrite H3; apply h_out_seti|].
    intros g. rewrite H4. destruct h, g; cbn [geti seti h_a h_b]; auto.
  - rewrite getr_abss, <- newrd_abs, setr_abss.
    destruct (IH A (seti h (mkI (i_path (geti h hs)) (i_pos (geti h hs)) n []) hs) w) as [hs' [H1 [H2 [H3 H4]]]];
      [apply isok_set; [exact I|intros _; reflexivity]|].
    exists hs'. split; [exact H1|]. split; [exact H2|]. split; [intros j; rewrite H3; apply h_out_seti|].
    intros g. rewrite H4. destruct h, g; cbn [geti seti h_a h_b]; auto.
  - destruct A as [[] _].
Qed.
Lemma absr_new f p pos cap : absr f (mkI p pos cap []) = at_ (contents f p) cap 0 (skipn pos (contents f p)).
Proof.
  unfold absr, at_, avail_at. cbn [i_path i_pos i_buf i_cap app length].
  destruct (Nat.eqb_spec cap 0) as [->|N]; [reflexivity|]. rewrite Nat.mod_0_l by exact N. reflexivity.
Qed.
(* flushing a writer that holds nothing *)
Lemma idle_flush x w : ogood x -> o_buf x = [] -> exists x', h_flush dev x w = (true, x', w) /\ o_path x' = o_path x.
Proof.
  intros [B _] E. unfold h_flush. destruct (o_cap x); [exists x; auto|]. unfold bw_flush. rewrite B, E. eauto.
Qed.
(* reading and then failing: whatever was going to be written stays unwritten *)
Lemma dead_section {X} st (Q : X -> Prop) Y (q : io X) (k : X -> io Y) h rn cap hs w e : sok st nowr Q q -> isok hs ->
  fst (fst (run q (abss (w_fs w) (seti h (mkI (i_path (geti h hs)) (i_pos (geti h hs)) rn []) hs)))) = Err e ->
  exists hs', lrun dev (NewRd h rn (NewWr 0 cap (with_flush 0 (bind q k)))) hs w = (Err e, hs', w) /\
    isok hs' /\ (forall g, i_path (geti g hs') = i_path (geti g hs)) /\ paths hs' 0 = paths hs 0.
Proof.
  intros A I R. cbn [lrun]. set (hs1 := seti h _ hs) in *. rewrite lrun_with_flush, lrun_bind.
  set (hs2 := seto 0 _ hs1).
  destruct (quiet_lrun st Q q A hs2 w) as [hs' [H1 [H2 [H3 H4]]]].
  { unfold isok, hs2. cbn [seto h_a h_b]. apply isok_set; [exact I|intros _; reflexivity]. }
  unfold hs2 in H1 at 2. rewrite abss_seto in H1. rewrite H1, R.
  destruct (idle_flush (h_out hs' 0) w) as [x' [FL PX]].
  - rewrite H3. unfold hs2. rewrite h_out_seto. cbn [Nat.eqb]. repeat split; cbn; auto; lia.
  - rewrite H3. unfold hs2. rewrite h_out_seto. reflexivity.
  - rewrite FL. eexists. split; [reflexivity|]. split; [exact H2|]. split.
    + intros g. transitivity (i_path (geti g hs')); [destruct g; reflexivity|]. rewrite H4. unfold hs2, hs1. destruct h, g; reflexivity.
    + unfold paths. rewrite h_out_seto. cbn [Nat.eqb]. rewrite PX, H3. unfold hs2, hs1. rewrite h_out_seto. cbn [Nat.eqb o_path].
      now rewrite h_out_seti.
Qed.

Lemma alias_path p f g : i_path (geti g (fresh p p [p])) = p /\ contents (w_fs (created f p)) p = [].
Proof. split; [now destruct g|]. cbn [created w_fs]. apply contents_same. Qed.
Lemma contribute_alias {E : Ext} bs (w : @rnd1 E) p f : can_create dev 0 p = true -> f p <> None ->
  exists w', l_contribute dev bs w p p (start f) = (Err EEof, w') /\ w_fs w' p = Some [].
Proof.
  intros CR H. change (l_contribute dev bs w p p (start f)) with (l_one dev (contribute bs w) p p (start f)).
  rewrite l_one_open by assumption. unfold lstage. rewrite contribute_split, lrun_bind.
  destruct (quiet_lrun true any (read_header false) (sok_read_header true nowr false) (fresh p p [p]) (created f p)) as [hs' [H1 _]];
    [split; intros _; reflexivity|].
  assert (R : fst (fst (run (read_header false) (abss (w_fs (created f p)) (fresh p p [p])))) = Err EEof).
  { unfold abss. cbn [fresh h_a h_b]. rewrite absr_new. destruct (alias_path p f false) as [_ ->]. reflexivity. }
  rewrite R in H1. rewrite H1. eexists. split; [reflexivity|]. apply fset_same.
Qed.
Lemma run_hdr2_empty {E : Ext2} s file : getr false s = at_ file defBuf 0 [] ->
  fst (fst (run (read_hdr2 (E := E) false) s)) = Err EEof.
Proof.
  intros G. assert (RF : ev (readfull false 1) s (Err EEof) (setr false (at_ file defBuf (0 + length (@nil byte)) []) s) none).
  { apply readfull_eof; [cbn; lia|right; unfold lt|exact G]. pose proof defBuf_big. destruct H as [H|H]; [pose proof defBuf_pos; congruence|lia]. }
  destruct RF as [W [RF _]]. unfold read_hdr2, read_hdr, recv, rd_uint. rewrite !run_bind, RF. reflexivity.
Qed.
Lemma contribute2_alias {E : Ext2} bs (d s : E) p f : can_create dev 0 p = true -> f p <> None ->
  exists w', l_contribute2 dev bs d s p p (start f) = (Err EEof, w') /\ w_fs w' p = Some [].
Proof.
  intros CR H. change (l_contribute2 dev bs d s p p (start f)) with (l_one dev (contribute2 bs d s) p p (start f)).
  rewrite l_one_open by assumption. unfold lstage. rewrite contribute2_split. unfold body2.
  match goal with |- context [with_flush 0 (bind ?q ?k)] =>
    destruct (dead_section true any _ q k false defBuf defBuf (fresh p p [p]) (created f p) EEof (sok_read_hdr2 true nowr false)) as [hs' [H1 _]] end.
  - split; intros _; reflexivity.
  - eapply run_hdr2_empty. rewrite getr_abss. cbn [geti seti h_a fresh i_path i_pos]. rewrite absr_new.
    destruct (alias_path p f false) as [_ ->]. cbn [skipn]. reflexivity.
  - rewrite H1. eexists. split; [reflexivity|]. apply fset_same.
Qed.

Lemma decode1_short {E : Ext} s file cap p rest : bigcap cap -> getr false s = at_ file cap p rest -> length rest < 32 ->
  fst (fst (run (decode1 (E := E) false) s)) = Err EEof.
Proof.
  intros B G L. destruct (readfull_eof false file cap p rest s 32 L ltac:(unfold bigcap in B; lia) G) as [W [RF _]]. unfold decode1. rewrite run_bind, RF. reflexivity.
Qed.
Lemma decode2_short {E : Ext} s file cap p rest : bigcap cap -> getr false s = at_ file cap p rest -> length rest < 32 ->
  fst (fst (run (decode2 (E := E) false) s)) = Err EEof.
Proof.
  intros B G L. destruct (readfull_eof false file cap p rest s 64 ltac:(lia) ltac:(unfold bigcap in B; lia) G) as [W [RF _]]. unfold decode2. rewrite run_bind, RF. reflexivity.
Qed.
Lemma lrun_seek h z hs w : lrun dev (seek h z) hs w = if (z <? 0)%Z then (Err ESeek, hs, w)
  else (Ok tt, seti h (mkI (i_path (geti h hs)) (Z.to_nat z) 0 []) hs, w).
Proof. unfold seek. cbn [lrun]. destruct (z <? 0)%Z; reflexivity. Qed.
(* a section of Transform on a file that holds no point *)
Lemma short_section {E : Ext} (dec : io E) enc pos size hs w : sok true nowr any dec ->
  (forall s file cap p rest, bigcap cap -> getr false s = at_ file cap p rest -> length rest < 32 -> fst (fst (run dec s)) = Err EEof) ->
  isok hs -> length (contents (w_fs w) (i_path (geti false hs))) < 32 ->
  exists r hs', lrun dev (transform_section dec enc pos size) hs w = (r, hs', w) /\ isok hs' /\
    i_path (geti false hs') = i_path (geti false hs) /\ paths hs' 0 = paths hs 0 /\
    ((exists e, r = Err e) \/ (r = Ok tt /\ Z.to_nat size = 0%nat)).
Proof.
  intros D S I L. unfold transform_section. rewrite lrun_bind, lrun_seek. destruct (pos <? 0)%Z.
  { exists (Err ESeek), hs. split; [reflexivity|]. split; [exact I|]. split; [reflexivity|]. split; [reflexivity|]. left; eauto. }
  set (hs1 := seti false _ hs). assert (I1 : isok hs1) by (apply isok_set; [exact I|intros _; reflexivity]).
  assert (P1 : paths hs1 0 = paths hs 0) by apply paths_seti.
  destruct (Z.to_nat size) as [|n]; cbn [transform_loop].
  - cbn [lrun]. set (hs2 := seti false _ hs1). assert (I2 : isok hs2) by (apply isok_set; [exact I1|intros _; reflexivity]).
    rewrite lrun_with_flush. cbn [lrun]. set (hs3 := seto 0 _ hs2).
    destruct (idle_flush (h_out hs3 0) w) as [x' [FL PX]]; [repeat split; cbn; auto; lia|reflexivity|]. rewrite FL.
    eexists _, _. split; [reflexivity|]. split; [exact I2|]. split; [reflexivity|]. split; [|right; auto].
    unfold paths. rewrite h_out_seto. cbn [Nat.eqb]. rewrite PX. reflexivity.
  - destruct (dead_section true any _ dec (fun x => write 0 (enc x) ;;; transform_loop dec enc 0 n) false defBuf defBuf hs1 w EEof D I1)
      as [hs' [H1 [H2 [H3 H4]]]].
    + eapply S; [exact defBuf_big|rewrite getr_abss; cbn [geti seti h_a]; rewrite absr_new; reflexivity|].
      rewrite skipn_length. unfold hs1. cbn [geti seti h_a i_path] in *. lia.
    + rewrite H1. eexists _, hs'. split; [reflexivity|]. split; [exact H2|]. split; [rewrite H3; reflexivity|]. split; [congruence|]. left; eauto.
Qed.
Lemma bind_err {X Y} (q : io X) (k : X -> io Y) hs w e hs1 w1 : lrun dev q hs w = (Err e, hs1, w1) ->
  lrun dev (bind q k) hs w = (Err e, hs1, w1).
Proof. intros H. rewrite lrun_bind, H. reflexivity. Qed.
Lemma bind_ok {X Y} (q : io X) (k : X -> io Y) hs w a hs1 w1 : lrun dev q hs w = (Ok a, hs1, w1) ->
  lrun dev (bind q k) hs w = lrun dev (k a) hs1 w1.
Proof. intros H. rewrite lrun_bind, H. reflexivity. Qed.
Lemma write_live d p hs w F : ogood (h_out hs 0) -> o_cap (h_out hs 0) = 0%nat -> paths hs 0 = Some p -> w_fs w p = Some F ->
  exists r hs' w' n, lrun dev (write 0 d) hs w = (r, hs', w') /\ w_fs w' p = Some (F ++ firstn n d) /\
    ((exists e, r = Err e) \/ (r = Ok tt /\ n = length d)) /\ h_a hs' = h_a hs /\ h_b hs' = h_b hs /\
    ogood (h_out hs' 0) /\ o_cap (h_out hs' 0) = 0%nat /\ paths hs' 0 = Some p.
Proof.
  intros G NC P HF. unfold write. cbn [lrun]. unfold h_write. rewrite NC. unfold paths in P. rewrite P.
  destruct (os_write_moved dev p F d w HF) as [n [w' [W [N [F1 _]]]]]. rewrite W.
  destruct (Nat.eqb_spec n (length d)) as [EN|EN]; cbn [lrun]; eexists _, _, w', n; (split; [reflexivity|]); (split; [exact F1|]);
    (split; [|auto]); eauto.
Qed.
Lemma write_header_live pw p hs w F : ogood (h_out hs 0) -> o_cap (h_out hs 0) = 0%nat -> paths hs 0 = Some p -> w_fs w p = Some F ->
  exists r hs' w' n, lrun dev (write_header 0 pw 0) hs w = (r, hs', w') /\ w_fs w' p = Some (F ++ firstn n [pw; x00; x00]) /\
    ((exists e, r = Err e) \/ r = Ok tt) /\ h_a hs' = h_a hs /\ h_b hs' = h_b hs.
Proof.
  intros G NC P HF. unfold write_header.
  destruct (write_live [pw] p hs w F G NC P HF) as [r [hs1 [w1 [n [L1 [F1 [[[e ->]|[-> ->]] [A1 [B1 [G1 [C1 P1]]]]]]]]]]].
  - rewrite (bind_err _ _ _ _ _ _ _ L1). exists (Err e), hs1, w1, (Nat.min n 1). split; [reflexivity|]. split; [|eauto].
    rewrite F1. destruct n as [|n]; [reflexivity|]. rewrite Nat.min_r by lia. cbn [firstn]. now rewrite firstn_nil.
  - rewrite (bind_ok _ _ _ _ _ _ _ L1).
    destruct (write_live (be16 0) p hs1 w1 _ G1 C1 P1 F1) as [r [hs2 [w2 [n [L2 [F2 [RR [A2 [B2 _]]]]]]]]].
    exists r, hs2, w2, (S n). split; [exact L2|]. split; [rewrite F2, <- app_assoc; reflexivity|]. split; [|split; congruence].
    destruct RR as [RR|[-> _]]; auto.
Qed.
(* Transform onto its own input: the input is gone before it is read *)
Lemma transform_alias {E : Ext} ipw opw p f : can_create dev 0 p = true -> f p <> None ->
  exists e w' n, l_transform (E := E) dev ipw opw p p (start f) = (Err e, w') /\
    w_fs w' p = Some (firstn n [opw; x00; x00]).
Proof.
  intros CR H. change (l_transform (E := E) dev ipw opw p p (start f)) with (l_one dev (transform (E := E) ipw opw) p p (start f)).
  rewrite l_one_open by assumption. unfold lstage.
  assert (K : exists e w' n hs', lrun dev (transform (E := E) ipw opw) (fresh p p [p]) (created f p) = (Err e, hs', w') /\
    w_fs w' p = Some (firstn n [opw; x00; x00])).
  2: { destruct K as [e [w' [n [hs' [K1 K2]]]]]. rewrite K1. eauto. }
  pose proof (good_fresh p p) as G. assert (AP : paths (fresh p p [p]) 0 = Some p) by reflexivity.
  destruct (write_header_live opw p (fresh p p [p]) (created f p) [] G eq_refl AP (created_ok f p)) as [r [hs1 [w1 [n [L1 [F1 [R1 [HA HB]]]]]]]].
  cbn [app] in F1. unfold transform. destruct R1 as [[e ->]| ->].
  { exists e, w1, n, hs1. split; [apply bind_err; exact L1|exact F1]. }
  rewrite (bind_ok _ _ _ _ _ _ _ L1). cbv zeta.
  assert (I1 : isok hs1) by (split; [rewrite HA|rewrite HB]; intros _; reflexivity).
  assert (P1 : i_path (geti false hs1) = p) by (cbn [geti]; rewrite HA; reflexivity).
  assert (SH : length (contents (w_fs w1) p) < 32).
  { unfold contents. rewrite F1, firstn_length. cbn [length]. lia. }
  clear L1 HA HB AP G.
  assert (D1 : sok true nowr any (decode1 (E := E) false)) by apply sok_decode1.
  assert (D2 : sok true nowr any (decode2 (E := E) false)) by apply sok_decode2.
  assert (ST : forall dec enc pos size hs, sok true nowr any dec ->
    (forall s file cap p rest, bigcap cap -> getr false s = at_ file cap p rest -> length rest < 32 -> fst (fst (run dec s)) = Err EEof) ->
    isok hs -> i_path (geti false hs) = p ->
    (exists e hs', lrun dev (transform_section (E := E) dec enc pos size) hs w1 = (Err e, hs', w1)) \/
    (exists hs', lrun dev (transform_section dec enc pos size) hs w1 = (Ok tt, hs', w1) /\ isok hs' /\ i_path (geti false hs') = p /\ Z.to_nat size = 0%nat)).
  { intros dec enc pos size hs D S I P. destruct (short_section dec enc pos size hs w1 D S I) as [r [hs' [L [I' [P' [_ [[e ->]|[-> Z]]]]]]]]; [now rewrite P|left; eauto|].
    right. exists hs'. rewrite P' in *. auto. }
  assert (GO : forall dec enc pos size hs (k : io unit), sok true nowr any dec ->
    (forall s file cap p rest, bigcap cap -> getr false s = at_ file cap p rest -> length rest < 32 -> fst (fst (run dec s)) = Err EEof) ->
    isok hs -> i_path (geti false hs) = p ->
    (forall hs', isok hs' -> i_path (geti false hs') = p -> exists e hs2, lrun dev k hs' w1 = (Err e, hs2, w1)) ->
    exists e hs2, lrun dev (transform_section (E := E) dec enc pos size ;;; k) hs w1 = (Err e, hs2, w1)).
  { intros dec enc pos size hs k D S I P Hk. destruct (ST dec enc pos size hs D S I P) as [[e [hs' L]]|[hs' [L [I' [P' _]]]]].
    - exists e, hs'. apply bind_err. exact L.
    - rewrite (bind_ok _ _ _ _ _ _ _ L). auto. }
  assert (K : forall hs, isok hs -> i_path (geti false hs) = p -> forall pos2 pos3 pos4 pos5 s1 s2 s3 s4,
    exists e hs2, lrun dev (transformG1 (E := E) 64 s1 ;;; transformG1 (E := E) pos3 s2 ;;; transformG1 (E := E) pos4 s3 ;;; transformG2 (E := E) pos2 s4 ;;; transformG2 (E := E) pos5 1) hs w1 = (Err e, hs2, w1)).
  { intros hs I P pos2 pos3 pos4 pos5 s1 s2 s3 s4. unfold transformG1, transformG2.
    apply GO; [exact D1|exact decode1_short|exact I|exact P|]. clear hs I P. intros hs I P.
    apply GO; [exact D1|exact decode1_short|exact I|exact P|]. clear hs I P. intros hs I P.
    apply GO; [exact D1|exact decode1_short|exact I|exact P|]. clear hs I P. intros hs I P.
    apply GO; [exact D2|exact decode2_short|exact I|exact P|]. clear hs I P. intros hs I P.
    destruct (ST (decode2 false) g2c pos5 1%Z hs D2 decode2_short I P) as [EE|[hs' [_ [_ [_ Z]]]]]; [exact EE|discriminate]. }
  destruct (K hs1 I1 P1 (wrap64 (64 + wrap64 (2 * pow2 ipw - 1) * 64)) (wrap64 (wrap64 (64 + wrap64 (2 * pow2 ipw - 1) * 64) + pow2 ipw * 128))
    (wrap64 (wrap64 (wrap64 (64 + wrap64 (2 * pow2 ipw - 1) * 64) + pow2 ipw * 128) + pow2 ipw * 64))
    (wrap64 (wrap64 (wrap64 (wrap64 (64 + wrap64 (2 * pow2 ipw - 1) * 64) + pow2 ipw * 128) + pow2 ipw * 64) + pow2 ipw * 64))
    (wrap64 (2 * pow2 opw - 1)) (pow2 opw) (pow2 opw) (pow2 opw)) as [e [hs2 L]].
  exists e, w1, n, hs2. split; [exact L|exact F1].
Qed.
End Honest.
