(* LiveClaims.v -- files after failures, crashes and full disks. *)
From Coq Require String.
From Verif Require Import Base Fld Conc Parallel IO Ext Spec1 Phase1 Gob Circuit Spec2 Phase2 Spec3 Fs Init2 Spec4 Keys Phase1Io
  Phase1Verify Live LiveLemmas Sok LiveFail SokPrograms LiveCmd.
Local Open Scope io_scope.

(* a program that returns its write errors, except that the last K bytes are written without
   looking at them *)
Inductive ends (cap K : nat) {X} : io X -> Prop :=
| ends_bind Y (Q : Y -> Prop) (q : io Y) (f : Y -> io X) : sok true (small0 cap) Q q ->
    (forall a, Q a -> ends cap K (f a)) -> ends cap K (bind q f)
| ends_end (q : io unit) (v : X) : sok true (small0 cap) any q ->
    (forall s, exists W, run q s = (Ok tt, s, W) /\ length (out 0 W) = K) -> ends cap K (try q ;;; Ret v).
Lemma ends_seq cap K {X Y} (q : io Y) (f : Y -> io X) : sok true (small0 cap) any q ->
  (forall a, ends cap K (f a)) -> ends cap K (bind q f).
Proof. intros A H. eapply ends_bind; [exact A|]. auto. Qed.
Lemma ends_tailcap C cap p base u0 K {X} (q : io X) : cap <> 0 -> ends cap K q -> tailcap C cap p base u0 K q.
Proof.
  intros N. induction 1 as [Y Q q f A _ IH|q v A H].
  - eapply tailcap_bind; eauto.
  - now apply tailcap_end.
Qed.
Lemma ends_sok cap K {X} (q : io X) : ends cap K q -> sok false only0 any q.
Proof.
  induction 1 as [Y Q q f A _ IH|q v A H].
  - eapply sok_bind; [|exact IH]. apply sok_weak. eapply sok_mono; [exact A|apply small0_only0|auto].
  - apply sok_seq; [|intros; exact I]. apply sok_try with (Q := any). apply sok_weak. eapply sok_mono; [exact A|apply small0_only0|auto].
Qed.
Lemma sok_honest {X} dev p (Q : X -> Prop) (q : io X) : sok true only0 Q q -> honest dev p q.
Proof.
  intros A hs w a hs' w' AP G NC HF R. destruct (w_fs w p) as [F|] eqn:EF; [|congruence].
  destruct (run q (abss (w_fs w) hs)) as [[r1 s1] W1] eqn:R1.
  destruct (buffered_prefix dev true Q q p A hs w F r1 s1 W1 AP G NC EF R1) as [r' [hs1 [w1 [n [L1 [L2 [L3 [L4 L5]]]]]]]].
  rewrite L1 in R. injection R as -> _ _. destruct L4 as [[<- _]|[_ ER]]; [eauto|]. destruct (ER eq_refl). discriminate.
Qed.
Lemma ends_honest dev p cap K {X} (q : io X) : ends cap K q -> honest dev p q.
Proof.
  assert (Z : forall q : io X, ends cap K q -> honest dev p q).
  { clear q. intros q H. induction H as [Y Q q f A F IH|q v A H].
    - intros hs w a hs' w' AP G NC HF R. rewrite lrun_bind in R. rewrite run_bind.
      destruct (w_fs w p) as [Fi|] eqn:EF; [|congruence].
      assert (A' : sok true only0 Q q) by (eapply sok_mono; [exact A|apply small0_only0|auto]).
      destruct (run q (abss (w_fs w) hs)) as [[r1 s1] W1] eqn:R1.
      pose proof (sok_run true _ Q q A (abss (w_fs w) hs)) as QA. rewrite R1 in QA. cbn [fst] in QA.
      destruct (buffered_prefix dev true Q q p A' hs w Fi r1 s1 W1 AP G NC EF R1) as [r' [hs1 [w1 [n [L1 [L2 [L3 [L4 L5]]]]]]]].
      rewrite L1 in R. destruct L4 as [[-> [G1 [B1 [AP1 AB]]]]|[_ ER]].
      + destruct r1 as [b|e|]; try discriminate. destruct (IH b QA hs1 w1 a hs' w' AP1 G1 L5) as [s' [W2 R2]]; [rewrite L2; discriminate|exact R|].
        rewrite AB in R2. rewrite R2. eauto.
      + destruct (ER eq_refl) as [e ->]. discriminate.
    - apply honest_end. intros s. destruct (H s) as [W [R _]]. eauto. }
  apply Z.
Qed.

Local Transparent defBuf bigBuf.
Lemma defBuf_N : defBuf = N.to_nat 4096. Proof. reflexivity. Qed.
Lemma bigBuf_N : bigBuf = N.to_nat 1048576. Proof. reflexivity. Qed.
Local Opaque defBuf bigBuf.
Lemma defBuf_pos : defBuf <> 0. Proof. rewrite defBuf_N. lia. Qed.
Lemma bigBuf_pos : bigBuf <> 0. Proof. rewrite bigBuf_N. lia. Qed.
Lemma small0_256 : forall d, length d <= 256 -> small0 defBuf 0 d.
Proof. intros d H. split; [reflexivity|]. rewrite defBuf_N. lia. Qed.

(* ---- any command of the form open, create, run ---- *)
Definition l_one {X} (dev : device) (p : io X) (ip op : string) : lcmd X :=
  (lopen ip ;;; lcreate dev op ;;; lstage dev p ip ip [op])%lcmd.
Lemma l_one_missing {X} dev (p : io X) ip op f : f ip = None -> l_one dev p ip op (start f) = (Err ENoFile, start f).
Proof. intros H. unfold l_one, lbind, lopen. cbn [start w_fs]. now rewrite H. Qed.
Definition created (f : fs) (op : string) : world := mkW (fset f op []) 0 0 [OTrunc op].
Lemma l_one_open {X} dev (p : io X) ip op f : can_create dev 0 op = true -> f ip <> None ->
  l_one dev p ip op (start f) = lstage dev p ip ip [op] (created f op).
Proof.
  intros C H. unfold l_one, lbind, lopen, lcreate. cbn [start w_fs w_used w_calls w_ops app length]. rewrite C.
  destruct (f ip); [reflexivity|congruence].
Qed.
Lemma l_one_denied {X} dev (p : io X) ip op f : can_create dev 0 op = false -> snd (l_one dev p ip op (start f)) = start f.
Proof.
  intros C. unfold l_one, lbind, lopen, lcreate. cbn [start w_fs w_ops length]. rewrite C. now destruct (f ip).
Qed.
Lemma paths_one a b op k q : paths (fresh a b [op]) k = Some q -> k = 0 /\ q = op.
Proof.
  unfold paths. destruct k as [|[|k]]; intros H; cbn in H; try discriminate. now injection H as <-.
Qed.
(* what it did to the files: truncated op, then appended to it *)
Lemma l_one_ops {X} dev (p : io X) ip op f : can_create dev 0 op = true -> f ip <> None -> exists l,
  w_ops (snd (l_one dev p ip op (start f))) = OTrunc op :: l /\ apps op l /\
  forall q, w_fs (snd (l_one dev p ip op (start f))) q = replay (OTrunc op :: l) f q.
Proof.
  intros C H. rewrite l_one_open by assumption. unfold lstage.
  pose proof (lrun_grow dev p (fresh ip ip [op]) (created f op)) as G.
  destruct (lrun dev p (fresh ip ip [op]) (created f op)) as [[r hs'] w']. cbn [snd] in *. destruct G as [[l [G1 [G2 G3]]] _].
  exists l. split; [exact G1|]. split.
  - intros o I. destruct (G3 o I) as [k [q [d [-> K]]]]. apply paths_one in K as [_ ->]. eauto.
  - intros q. rewrite G2. reflexivity.
Qed.
Lemma l_one_other {X} dev (p : io X) ip op f q : q <> op -> w_fs (snd (l_one dev p ip op (start f))) q = f q.
Proof.
  intros Q. destruct (f ip) as [bb|] eqn:EF; [|now rewrite l_one_missing].
  destruct (can_create dev 0 op) eqn:CR; [|now rewrite l_one_denied].
  destruct (l_one_ops dev p ip op f CR) as [l [_ [A R]]]; [congruence|]. rewrite R.
  change (replay (OTrunc op :: l) f) with (replay l (fset f op [])).
  destruct (replay_apps op l (fset f op []) A) as [H _]. rewrite H by exact Q. apply fset_other; auto.
Qed.
Lemma apps_app p l1 l2 : apps p (l1 ++ l2) <-> apps p l1 /\ apps p l2.
Proof.
  unfold apps. split.
  - intros H. split; intros o I; apply H, in_or_app; auto.
  - intros [H1 H2] o I. apply in_app_or in I as [I|I]; auto.
Qed.
Lemma data_app l1 l2 : data (l1 ++ l2) = data l1 ++ data l2.
Proof. apply flat_map_app. Qed.
(* a crash in between: a prefix of what the whole command would have left *)
Lemma l_one_died {X} dev (p : io X) ip op f l' F : f ip <> None ->
  w_fs (snd (l_one dev p ip op (start f))) op = Some F ->
  died (w_ops (snd (l_one dev p ip op (start f)))) l' ->
  (forall q, q <> op -> replay l' f q = f q) /\
  (l' = [] \/ exists n, replay l' f op = Some (firstn n F)).
Proof.
  intros H HF D. destruct (can_create dev 0 op) eqn:CR.
  2: { rewrite l_one_denied in D by exact CR. cbn [start w_ops] in D.
       assert (Z : l' = []); [|rewrite Z; split; [reflexivity|now left]].
       destruct D as [[l2 D]|[l1 [q [d [t [l2 [D _]]]]]]]; [|now destruct l1]. now destruct l'. }
  destruct (l_one_ops dev p ip op f CR H) as [l [L [A R]]]. rewrite R in HF. rewrite L in D.
  change (replay (OTrunc op :: l) f) with (replay l (fset f op [])) in HF.
  destruct (replay_apps op l (fset f op []) A) as [_ RA]. rewrite RA, contents_same in HF by (rewrite fset_same; discriminate).
  injection HF as <-. cbn [app].
  assert (Z : l' = [] \/ exists l1, l' = OTrunc op :: l1 /\ apps op l1 /\ exists n, data l1 = firstn n (data l)).
  { destruct D as [[l2 D]|[l1 [q [d [t [l2 [D ->]]]]]]].
    - destruct l' as [|o l1]; [now left|]. right. cbn in D. injection D as <- D. exists l1. split; [reflexivity|].
      rewrite D in A |- *. apply apps_app in A as [A _]. split; [exact A|]. exists (length (data l1)).
      rewrite data_app, firstn_app, Nat.sub_diag, firstn_all. cbn. now rewrite app_nil_r.
    - destruct l1 as [|o l1]; [discriminate|]. right. cbn in D. injection D as <- D. exists (l1 ++ [OApp q (firstn t d)]).
      split; [reflexivity|]. rewrite D in A. apply apps_app in A as [A1 A2].
      destruct (A2 (OApp q d)) as [d' E]; [now left|]. injection E as -> ->. split.
      + apply apps_app. split; [exact A1|]. intros o [<-|[]]. eauto.
      + exists (length (data l1) + Nat.min t (length d')). rewrite D, !data_app. cbn. rewrite app_nil_r.
        rewrite firstn_app_2. f_equal. rewrite firstn_longer by lia. now rewrite firstn_min. }
  destruct Z as [->|[l1 [-> [A1 [n N]]]]]; [split; [reflexivity|now left]|].
  change (replay (OTrunc op :: l1) f) with (replay l1 (fset f op [])).
  destruct (replay_apps op l1 (fset f op []) A1) as [H1 H2]. split.
  - intros q Q. rewrite H1 by exact Q. apply fset_other; auto.
  - right. exists n. rewrite H2 by (rewrite fset_same; discriminate). rewrite contents_same, N. reflexivity.
Qed.
Lemma apart_fresh ip op : ip <> op -> apart op (fresh ip ip [op]).
Proof. intros N. split; [split; intros _; reflexivity|]. split; [exact N|]. split; [exact N|]. reflexivity. Qed.
Lemma abss_fresh f op ip : ip <> op -> f ip <> None ->
  abss (fset f op []) (fresh ip ip [op]) = (opened (contents f ip), opened (contents f ip)).
Proof.
  intros N H. unfold abss, absr. cbn [fresh h_a h_b i_path i_pos i_buf i_cap app skipn length].
  rewrite contents_other by auto. reflexivity.
Qed.

(* ---- the two Contribute programs ---- *)
Section C1.
Context {E : Ext}.
Local Open Scope fld_scope.
Lemma run_encodes o : forall (l : list bytes) s, exists W, run (encodes o l) s = (Ok tt, s, W) /\ out o W = concat l /\ forall o', o' <> o -> out o' W = [].
Proof.
  induction l as [|b l IH]; intros s; [exists []; split; [|split]; reflexivity|]. cbn [encodes].
  destruct (IH s) as [W [R [H1 H2]]]. exists ((o, b) :: W). split; [cbn; now rewrite R|]. unfold out in *. cbn [flat_map fst snd].
  rewrite Nat.eqb_refl. split; [cbn; now rewrite H1|]. intros o' N. rewrite (proj2 (Nat.eqb_neq o o')) by auto. now apply H2.
Qed.
Lemma run_write_contrib (c : contrib E) : length (c_hash c) = 32%nat -> forall s,
  exists W, run (write_contrib 0 c) s = (Ok tt, s, W) /\ length (out 0 W) = 640%nat.
Proof.
  intros L s. unfold write_contrib. destruct (run_encodes 0 (map (put c) toEncode) s) as [W [R [O _]]].
  exists (W ++ [(0%nat, c_hash c)]). rewrite run_bind, R. split; [reflexivity|].
  rewrite out_app, O. cbn [out flat_map fst snd Nat.eqb]. rewrite app_nil_r, app_length, L.
  unfold toEncode. cbn [map concat put p_tau1 p_alpha1 p_beta1 p_tau2 p_beta2 p_ktS p_ktSX p_ktSPX p_kaS p_kaSX p_kaSPX p_kbS p_kbSX p_kbSPX].
  rewrite !app_length, !g1c_len, !g2c_len. reflexivity.
Qed.
Definition body1 (bs : nat) (w : @rnd1 E) (pw : byte) (n1 : N) : io bytes :=
    let N := pow2 pw in
    let '(mkRnd1 tau alpha beta st sa sb) := w in
    first1 <- scaleG1 bs false 0 (wrap64 (2 * N - 1)) tau None ;;
    let contribution := s_tau1 zero_contrib first1 in
    first1 <- scaleG1 bs false 0 N tau (Some alpha) ;;
    let contribution := s_alpha1 contribution first1 in
    first1 <- scaleG1 bs false 0 N tau (Some beta) ;;
    let contribution := s_beta1 contribution first1 in
    first2 <- scaleG2 bs false 0 N tau ;;
    let contribution := s_tau2 contribution first2 in
    betaG2 <- decode2 (E := E) false ;;
    let betaG2 := betaG2 * beta in
    write 0 (g2c betaG2) ;;;
    let contribution := s_beta2 contribution betaG2 in
    let existing := ((n1 + 65535) mod 65536)%N in
    c <- copy_contribs (E := E) false 0 (N.to_nat existing) zero_contrib ;;
    let prevHash := if (existing =? 0)%N then [] else c_hash c in
    let contribution := s_kt contribution (gen_key tau st prevHash 1) in
    let contribution := s_ka contribution (gen_key alpha sa prevHash 2) in
    let contribution := s_kb contribution (gen_key beta sb prevHash 3) in
    let contribution := s_hash contribution (compute_hash contribution) in
    try (write_contrib 0 contribution) ;;;
    Ret (c_hash contribution).
Lemma contribute_split bs w : contribute (E := E) bs w =
  ('(pw, n) <- read_header false ;;
   write_header 0 pw ((n + 1) mod 65536)%N ;;;
   NewRd false defBuf (NewWr 0 defBuf (with_flush 0 (body1 bs w pw ((n + 1) mod 65536)%N)))).
Proof. reflexivity. Qed.
Lemma body1_ends bs w pw n1 : ends defBuf 640 (body1 bs w pw n1).
Proof.
  unfold body1. destruct w as [tau alpha beta st sa sb]. cbv zeta.
  do 3 (apply ends_seq; [apply sok_scaleG1, small0_256|]; intros ?).
  apply ends_seq; [apply sok_scaleG2, small0_256|]; intros ?.
  apply ends_seq; [apply sok_decode2|]; intros ?.
  apply ends_seq; [apply sok_write, small0_256; rewrite g2c_len; lia|]; intros _.
  apply ends_seq; [apply sok_copy, small0_256|]; intros c.
  assert (L : forall x : contrib E, length (c_hash (s_hash x (compute_hash x))) = 32%nat).
  { intros x. cbn [s_hash c_hash]. apply sha_len. }
  apply ends_end; [apply sok_write_contrib; [apply small0_256|rewrite L; lia]|]. apply run_write_contrib, L.
Qed.
End C1.

Section C2.
Context {E : Ext2}.
Local Open Scope fld_scope.
Lemma run_write_contrib2 (c : contrib2 E) : length (d_hash c) = 32%nat -> forall s,
  exists W, run (write_contrib2 0 c) s = (Ok tt, s, W) /\ length (out 0 W) = 192%nat.
Proof.
  intros L s. unfold write_contrib2. destruct (run_encodes 0 (put2 c) s) as [W [R [O _]]].
  exists (W ++ [(0%nat, d_hash c)]). rewrite run_bind, R. split; [reflexivity|].
  rewrite out_app, O. cbn [out flat_map fst snd Nat.eqb]. rewrite app_nil_r, app_length, L.
  unfold put2. cbn [concat]. rewrite !app_length, !g1c_len, !g2c_len. reflexivity.
Qed.
Definition body2 (bs : nat) (d s : E) : io bytes :=
    header <- read_hdr2 (E := E) false ;;
    let header := set_contribs header (wrap64 (h_contribs header + 1)) in
    write_hdr 0 header ;;;
    let deltaInv := finv d in
    delta1 <- decode1 (E := E) false ;;
    let delta1 := delta1 * d in
    write 0 (g1c delta1) ;;;
    delta2 <- decode2 (E := E) false ;;
    let delta2 := delta2 * d in
    write 0 (g2c delta2) ;;;
    scale2 bs false 0 (wrap64 (h_domain header - 1)) deltaInv ;;;
    scale2 bs false 0 (h_witness header) deltaInv ;;;
    let existing := wrap64 (h_contribs header - 1) in
    c <- copy_contribs2 (E := E) false 0 (Z.to_nat existing) zero_contrib2 ;;
    let prevHash := if (existing =? 0)%Z then [] else d_hash c in
    let contribution := mkC2 delta1 (gen_key d s prevHash 1) [] in
    let contribution := mkC2 (d_delta contribution) (d_key contribution) (compute_hash2 contribution) in
    try (write_contrib2 0 contribution) ;;;
    Ret (d_hash contribution).
Lemma contribute2_split bs (d s : E) : contribute2 bs d s =
  NewRd false defBuf (NewWr 0 defBuf (with_flush 0 (body2 bs d s))).
Proof. reflexivity. Qed.
Lemma body2_ends bs (d s : E) : ends defBuf 192 (body2 bs d s).
Proof.
  unfold body2. cbv zeta.
  apply ends_seq; [apply sok_read_hdr2|]; intros h.
  apply ends_seq; [apply sok_write_hdr, small0_256|]; intros _.
  apply ends_seq; [apply sok_decode1|]; intros d1.
  apply ends_seq; [apply sok_write, small0_256; rewrite g1c_len; lia|]; intros _.
  apply ends_seq; [apply sok_decode2|]; intros d2.
  apply ends_seq; [apply sok_write, small0_256; rewrite g2c_len; lia|]; intros _.
  do 2 (apply ends_seq; [apply sok_scale2, small0_256|]; intros _).
  apply ends_seq; [apply sok_copy2, small0_256|]; intros c.
  assert (L : forall x : contrib2 E, length (d_hash (mkC2 (d_delta x) (d_key x) (compute_hash2 x))) = 32%nat).
  { intros x. cbn [d_hash]. apply sha_len. }
  apply ends_end; [apply sok_write_contrib2; [apply small0_256|rewrite L; lia]|]. apply run_write_contrib2, L.
Qed.
End C2.

(* ---- what is left in the output ---- *)
Lemma exec_run {X} (p : io X) a b r O : exec p a b = (r, O) ->
  exists s' W, run p (opened a, opened b) = (r, s', W) /\ out 0 W = O.
Proof.
  unfold exec. destruct (run p (opened a, opened b)) as [[r1 s1] W]. intros H. injection H as <- <-. eauto.
Qed.
Lemma created_ok f op : w_fs (created f op) op = Some [].
Proof. apply fset_same. Qed.
Lemma good_fresh a op : ogood (h_out (fresh a a [op]) 0).
Proof. repeat split; cbn; auto. Qed.

Section AnyDev.
Variable dev : device.
Lemma prefix_left {X} (p : io X) ip op f F r O : can_create dev 0 op = true -> ip <> op -> f ip = Some F -> exec p F F = (r, O) ->
  (forall hs w, apart op hs -> ogood (h_out hs 0) -> o_cap (h_out hs 0) = 0 -> w_fs w op = Some [] ->
     forall r s' W, run p (abss (w_fs w) hs) = (r, s', W) ->
     exists r' hs' w' n, lrun dev p hs w = (r', hs', w') /\ w_fs w' op = Some (firstn n (out 0 W))) ->
  exists n, w_fs (snd (l_one dev p ip op (start f))) op = Some (firstn n O).
Proof.
  intros CR N HF X1 H. destruct (exec_run p F F r O X1) as [s' [W [R <-]]].
  rewrite l_one_open by (exact CR || congruence). unfold lstage.
  destruct (H (fresh ip ip [op]) (created f op) (apart_fresh ip op N) (good_fresh ip op) eq_refl (created_ok f op) r s' W) as [r' [hs' [w' [n [L1 L2]]]]].
  { change (w_fs (created f op)) with (fset f op []). rewrite abss_fresh by (auto; congruence). unfold contents. rewrite HF. exact R. }
  rewrite L1. exists n. exact L2.
Qed.
Lemma section_rd {X} st (Q : X -> Prop) (q : io X) p h rn cap hs w F r s' W : sok st only0 Q q -> cap <> 0 ->
  apart p hs -> w_fs w p = Some F -> run (NewRd h rn (NewWr 0 cap (with_flush 0 q))) (abss (w_fs w) hs) = (r, s', W) ->
  exists r' hs' w' n, lrun dev (NewRd h rn (NewWr 0 cap (with_flush 0 q))) hs w = (r', hs', w') /\
    w_fs w' p = Some (F ++ firstn n (out 0 W)).
Proof.
  intros A NC AP HF R. cbn [run] in R. rewrite run_with_flush, getr_abss, <- newrd_abs, setr_abss in R.
  change (lrun dev (NewRd h rn ?q) hs w) with (lrun dev q (seti h (mkI (i_path (geti h hs)) (i_pos (geti h hs)) rn []) hs) w).
  eapply section_prefix; [exact A|exact NC| |exact HF|exact R].
  apply apart_seti; [exact AP|intros _; reflexivity|reflexivity].
Qed.
Lemma contribute_prefix {E : Ext} bs (w : @rnd1 E) ip op f F r O : can_create dev 0 op = true -> ip <> op -> f ip = Some F ->
  exec (contribute bs w) F F = (r, O) ->
  exists n, w_fs (snd (l_contribute dev bs w ip op (start f))) op = Some (firstn n O).
Proof.
  intros CR N HF X1. apply (prefix_left (contribute bs w) ip op f F r O CR N HF X1). clear - E.
  intros hs w0 AP G NC HF r s' W R. rewrite contribute_split in *. rewrite lrun_bind. rewrite run_bind in R.
  destruct (run (read_header false) (abss (w_fs w0) hs)) as [[r1 s1] W1] eqn:R1.
  destruct (unbuffered_prefix dev any (read_header false) op (sok_read_header true only0 false) hs w0 [] r1 s1 W1 AP G NC HF R1)
    as [r1' [hs1 [w1 [n1 [L1 [F1 D1]]]]]]. rewrite L1.
  destruct D1 as [[-> [NN [AP1 [AB1 HO1]]]]|[[e ->] LT]].
  2: { exists (Err e), hs1, w1, n1. split; [reflexivity|]. rewrite F1. cbn [app].
       destruct r1 as [[pw m]|e1|]; [destruct (run _ s1) as [[r2 s2] W2]|..]; injection R as _ _ <-; rewrite ?out_app, ?firstn_longer by lia; reflexivity. }
  rewrite NN, firstn_all in F1. cbn [app] in F1.
  destruct r1 as [[pw m]|e1|].
  2,3: injection R as <- <- <-; eexists _, _, _, (length (out 0 W1)); split; [reflexivity|]; now rewrite firstn_all.
  rewrite lrun_bind. rewrite run_bind in R.
  assert (SW : sok true only0 any (write_header 0 pw ((m + 1) mod 65536)%N)) by (apply sok_write_header; reflexivity).
  destruct (run (write_header 0 pw ((m + 1) mod 65536)%N) s1) as [[r2 s2] W2] eqn:R2. rewrite <- AB1 in R2.
  destruct (unbuffered_prefix dev any _ op SW hs1 w1 (out 0 W1) r2 s2 W2 AP1) as [r2' [hs2 [w2 [n2 [L2 [F2 D2]]]]]];
    [now rewrite HO1|now rewrite HO1|exact F1|exact R2|]. rewrite L2.
  assert (SH : sok true nowr any (read_header false)) by apply sok_read_header.
  destruct D2 as [[-> [NN2 [AP2 [AB2 HO2]]]]|[[e ->] LT]].
  2: { exists (Err e), hs2, w2, (length (out 0 W1) + n2). split; [reflexivity|]. rewrite F2.
       destruct r2 as [[]|e1|]; [destruct (run _ s2) as [[r3 s3] W3]|..]; injection R as _ _ <-;
         rewrite !out_app, firstn_app_2, ?firstn_longer by lia; reflexivity. }
  rewrite NN2, firstn_all in F2. destruct r2 as [[]|e1|].
  2,3: injection R as <- <- <-; eexists _, _, _, (length (out 0 (W1 ++ W2))); split; [reflexivity|]; now rewrite firstn_all, out_app.
  destruct (run _ s2) as [[r3 s3] W3] eqn:R3 in R. injection R as <- <- <-. rewrite <- AB2 in R3.
  destruct (section_rd false any _ op false defBuf defBuf hs2 w2 _ r3 s3 W3 (ends_sok _ _ _ (body1_ends bs w pw ((m + 1) mod 65536)%N)) defBuf_pos AP2 F2 R3)
    as [r' [hs' [w' [n [L3 F3]]]]].
  exists r', hs', w', (length (out 0 (W1 ++ W2)) + n). split; [exact L3|]. rewrite F3, <- out_app, !out_app.
  rewrite (app_assoc (out 0 W1)), <- out_app. now rewrite firstn_app_2.
Qed.
Lemma contribute2_prefix {E : Ext2} bs (d s : E) ip op f F r O : can_create dev 0 op = true -> ip <> op -> f ip = Some F ->
  exec (contribute2 bs d s) F F = (r, O) ->
  exists n, w_fs (snd (l_contribute2 dev bs d s ip op (start f))) op = Some (firstn n O).
Proof.
  intros CR N HF X1. apply (prefix_left (contribute2 bs d s) ip op f F r O CR N HF X1). clear - E.
  intros hs w0 AP G NC HF r s' W R. rewrite contribute2_split in *.
  exact (section_rd false any _ op false defBuf defBuf hs w0 _ r s' W (ends_sok _ _ _ (body2_ends bs d s)) defBuf_pos AP HF R).
Qed.
End AnyDev.

Lemma fl_div cap n : fl cap n = cap * ((n - 1) / cap).
Proof.
  unfold fl. destruct (Nat.eqb_spec n 0) as [->|]; [|reflexivity]. cbn [Nat.sub].
  destruct cap; [reflexivity|]. rewrite Nat.div_0_l by lia. lia.
Qed.
Lemma fl_N n : N.of_nat (fl defBuf n) = (4096 * ((N.of_nat n - 1) / 4096))%N.
Proof. rewrite fl_div, defBuf_N, Nat2N.inj_mul, Nat2N.inj_div, N2Nat.id, Nat2N.inj_sub. reflexivity. Qed.

Section FullDisk.
Variable C : nat.
Lemma cap_rd {X} h rn (q : io X) K p hs w F a s' W : w_used w <= C -> ends defBuf K q ->
  apart p hs -> w_fs w p = Some F ->
  run (NewRd h rn (NewWr 0 defBuf (with_flush 0 q))) (abss (w_fs w) hs) = (Ok a, s', W) ->
  exists r hs' w', lrun (disk C) (NewRd h rn (NewWr 0 defBuf (with_flush 0 q))) hs w = (r, hs', w') /\
    w_fs w' p = Some (F ++ firstn (C - w_used w) (out 0 W)) /\
    (w_used w + fl defBuf (length (out 0 W) - K) <= C -> r = Ok a) /\
    (C < w_used w + fl defBuf (length (out 0 W) - K) -> exists e, r = Err e).
Proof.
  intros U A AP HF R. cbn [run] in R. rewrite run_with_flush, getr_abss, <- newrd_abs, setr_abss in R.
  change (lrun (disk C) (NewRd h rn ?q) hs w) with (lrun (disk C) q (seti h (mkI (i_path (geti h hs)) (i_pos (geti h hs)) rn []) hs) w).
  eapply section_cap; [exact defBuf_pos|exact U|apply ends_tailcap; [exact defBuf_pos|exact A]| |exact HF|exact R].
  apply apart_seti; [exact AP|intros _; reflexivity|reflexivity].
Qed.
Lemma contribute_disk {E : Ext} bs (w : @rnd1 E) ip op f F h O : ip <> op -> f ip = Some F ->
  exec (contribute bs w) F F = (Ok h, O) ->
  exists r w', l_contribute (disk C) bs w ip op (start f) = (r, w') /\ w_fs w' op = Some (firstn C O) /\
    (3 + fl defBuf (length O - 643) <= C -> r = Ok h) /\
    (C < 3 + fl defBuf (length O - 643) -> exists e, r = Err e).
Proof.
  intros N HF X1. destruct (exec_run _ F F (Ok h) O X1) as [s' [W [R <-]]].
  change (l_contribute (disk C) bs w ip op (start f)) with (l_one (disk C) (contribute bs w) ip op (start f)).
  rewrite l_one_open by (reflexivity || congruence). unfold lstage.
  pose proof (apart_fresh ip op N) as AP. pose proof (good_fresh ip op) as G. pose proof (created_ok f op) as HF0.
  assert (NC : o_cap (h_out (fresh ip ip [op]) 0) = 0) by reflexivity. assert (U0 : w_used (created f op) = 0) by reflexivity.
  assert (R' : run (contribute bs w) (abss (w_fs (created f op)) (fresh ip ip [op])) = (Ok h, s', W)).
  { change (w_fs (created f op)) with (fset f op []). rewrite abss_fresh by (auto; congruence). unfold contents. now rewrite HF. }
  clear R HF X1. revert AP G NC HF0 U0 R'. generalize (created f op) as w0, (fresh ip ip [op]) as hs. intros w0 hs AP G NC HF U0 R.
  rewrite contribute_split in *. rewrite lrun_bind. rewrite run_bind in R.
  destruct (run (read_header false) (abss (w_fs w0) hs)) as [[r1 s1] W1] eqn:R1.
  assert (O1 : out 0 W1 = []).
  { pose proof (sok_read_header true nowr false) as S. pose proof (quiet_out _ _ _ S (abss (w_fs w0) hs) 0) as Q. now rewrite R1 in Q. }
  destruct (unbuffered_full C any (read_header false) op (sok_read_header true only0 false) hs w0 [] r1 s1 W1 AP G NC HF R1) as [D1 _].
  destruct D1 as [hs1 [w1 [L1 [F1 [AP1 [AB1 [HO1 U1]]]]]]]; [rewrite O1; cbn; lia|]. rewrite L1. rewrite O1 in F1, U1. cbn [app length] in F1, U1.
  destruct r1 as [[pw m]|e1|]; try discriminate.
  rewrite lrun_bind. rewrite run_bind in R.
  assert (SW : sok true only0 any (write_header 0 pw ((m + 1) mod 65536)%N)) by (apply sok_write_header; reflexivity).
  set (hd := write_header 0 pw ((m + 1) mod 65536)%N) in *.
  assert (R2 : run hd s1 = (Ok tt, s1, [(0, [pw]); (0, be16 ((m + 1) mod 65536))])) by reflexivity. rewrite R2 in R.
  destruct (run _ s1) as [[r3 s3] W3] eqn:R3 in R. injection R as -> <- EW. rewrite <- AB1 in R2.
  set (H3 := out 0 [(0, [pw]); (0, be16 ((m + 1) mod 65536))]) in *.
  assert (LH : length H3 = 3) by reflexivity.
  assert (EO : out 0 W = H3 ++ out 0 W3) by (rewrite <- EW, out_app, O1; reflexivity). rewrite EO, app_length, LH.
  destruct (unbuffered_full C any hd op SW hs1 w1 [] _ _ _ AP1 ltac:(now rewrite HO1) ltac:(now rewrite HO1) F1 R2) as [D2 D3].
  fold H3 in D2, D3. rewrite LH, U1, U0 in D2, D3. cbn [app Nat.add] in D2, D3.
  destruct (Nat.le_gt_cases 3 (C - 0)) as [Q|Q].
  - destruct (D2 Q) as [hs2 [w2 [L2 [F2 [AP2 [AB2 [HO2 U2]]]]]]]. rewrite L2. rewrite <- AB1, <- AB2 in R3.
    destruct (cap_rd false defBuf _ 640 op hs2 w2 H3 h s3 W3 ltac:(lia) (body1_ends bs w pw ((m + 1) mod 65536)%N) AP2 F2 R3) as [r [hs' [w' [L3 [F3 [A B]]]]]].
    rewrite L3. exists r, w'. split; [reflexivity|]. rewrite U2 in *.
    replace (3 + length (out 0 W3) - 643) with (length (out 0 W3) - 640) by lia. split; [|split; [exact A|exact B]].
    rewrite F3. f_equal. rewrite firstn_app, LH, (@firstn_all2 _ _ H3) by lia. reflexivity.
  - destruct (D3 Q) as [e [hs2 [w2 [L2 F2]]]]. rewrite L2. exists (Err e), w2. split; [reflexivity|]. rewrite F2.
    replace (C - 0) with C by lia. split; [rewrite firstn_longer by lia; reflexivity|]. split; [lia|eauto].
Qed.
Lemma contribute2_disk {E : Ext2} bs (d s : E) ip op f F h O : ip <> op -> f ip = Some F ->
  exec (contribute2 bs d s) F F = (Ok h, O) ->
  exists r w', l_contribute2 (disk C) bs d s ip op (start f) = (r, w') /\ w_fs w' op = Some (firstn C O) /\
    (fl defBuf (length O - 192) <= C -> r = Ok h) /\
    (C < fl defBuf (length O - 192) -> exists e, r = Err e).
Proof.
  intros N HF X1. destruct (exec_run _ F F (Ok h) O X1) as [s' [W [R <-]]].
  change (l_contribute2 (disk C) bs d s ip op (start f)) with (l_one (disk C) (contribute2 bs d s) ip op (start f)).
  rewrite l_one_open by (reflexivity || congruence). unfold lstage.
  assert (R' : run (contribute2 bs d s) (abss (w_fs (created f op)) (fresh ip ip [op])) = (Ok h, s', W)).
  { change (w_fs (created f op)) with (fset f op []). rewrite abss_fresh by (auto; congruence). unfold contents. now rewrite HF. }
  rewrite contribute2_split in *.
  destruct (cap_rd false defBuf _ 192 op _ (created f op) [] h s' W ltac:(cbn; lia) (body2_ends bs d s) (apart_fresh ip op N) (created_ok f op) R') as [r [hs' [w' [L3 [F3 [A B]]]]]].
  rewrite L3. exists r, w'. split; [reflexivity|]. cbn [created w_used app Nat.add] in *. rewrite Nat.sub_0_r in F3. auto.
Qed.
End FullDisk.
