(* Safe2.v -- panics of the phase-1 commands on the lower level, of phase 2 and of the key extraction. *)
From Coq Require String.
From Coq Require Import ZifyBool ZifyNat ZifyN.
From Verif Require Import Base Fld Conc Parallel IO Ext Spec1 Phase1 Phase1Io Phase1Verify Phase1Claims Phase1More Phase1Inv
  Gob GobLemmas Circuit Spec2 Phase2 Phase2Io Fs Init2 Keys Live LiveCmd LiveLemmas Spec5 Safe.
Local Open Scope fld_scope.
Local Open Scope io_scope.

(* ---- phase 1, whatever the device does ---- *)
Section P1Live.
Context {E : Ext}.
Lemma safe_lstage {X} (p : io X) dev a b outs w : safe any p -> fst (lstage dev p a b outs w) <> Panic.
Proof.
  intros S. unfold lstage. pose proof (safe_lrun any dev p S (fresh a b outs) w) as Q.
  destruct (lrun dev p (fresh a b outs) w) as [[r hs] w']. cbn in *. now destruct r.
Qed.
Lemma lopen_result p w : fst (lopen p w) <> Panic.
Proof. unfold lopen. destruct (w_fs w p); discriminate. Qed.
Lemma lcreate_result dev p w : fst (lcreate dev p w) <> Panic.
Proof. unfold lcreate. destruct (can_create dev (length (w_ops w)) p); discriminate. Qed.
Lemma lbind_panic {X Y} (c : lcmd X) (k : X -> lcmd Y) w : fst (lbind c k w) = Panic -> fst (c w) <> Panic ->
  exists x, fst (c w) = Ok x /\ fst (k x (snd (c w))) = Panic.
Proof. unfold lbind. destruct (c w) as [[x|e|] w1]; cbn; intros H N; [eauto|discriminate|destruct (N eq_refl)]. Qed.

Lemma l_contribute_panics dev bs (w : @rnd1 E) ip op f : 2 <= bs ->
  result_of (l_contribute dev bs w ip op) f = Panic ->
  exists pw t, f ip = Some (pw :: t) /\ (bN pw = 0 \/ 63 <= bN pw)%N.
Proof.
  intros B H. unfold result_of, l_contribute in H.
  apply lbind_panic in H as [u [H1 H]]; [|apply lopen_result].
  assert (EX : exists b0, f ip = Some b0).
  { unfold lopen in H1. cbn in H1. destruct (f ip) as [b0|]; [eauto|discriminate]. }
  destruct EX as [b0 EX]. change (snd (lopen ip (start f))) with (start f) in H. clear u H1.
  apply lbind_panic in H as [u [H1 H]]; [|apply lcreate_result].
  set (w1 := snd (lcreate dev op (start f))) in *.
  assert (EC : contents (w_fs w1) ip = b0 \/ contents (w_fs w1) ip = []).
  { unfold w1, lcreate. cbn [w_ops start length]. destruct (can_create dev 0 op); cbn [snd w_fs]; unfold contents.
    - unfold fset. destruct (String.eqb op ip); [auto|]. cbn. rewrite EX. auto.
    - cbn. rewrite EX. auto. }
  clear H1. unfold lstage in H. destruct (contribute_split' bs w B) as [K [EK [S _]]]. rewrite EK in H.
  rewrite lrun_bind in H.
  unfold read_header at 1 in H. cbn [lrun geti fresh h_a] in H. unfold l_read in H. cbn [i_pos i_cap i_path i_buf skipn] in H.
  destruct EC as [EC|EC]; rewrite EC in H; [|cbn in H; discriminate].
  destruct b0 as [|pw t]; [cbn in H; discriminate|].
  exists pw, t. split; [exact EX|].
  destruct (N.le_gt_cases (bN pw) 62) as [L|L]; [|lia]. destruct (N.le_gt_cases 1 (bN pw)) as [L1|L1]; [|lia]. exfalso.
  cbn [firstn length] in H. cbn [lrun geti seti h_a] in H. unfold l_read in H. cbn [i_pos i_cap i_path i_buf Nat.add] in H. rewrite EC in H.
  cbn [skipn] in H. destruct t as [|c0 t]; [cbn in H; discriminate|]. destruct t as [|c1 t];
    cbn [firstn app lrun] in H; match type of H with context [lrun dev ?q ?hs ?ww] =>
    pose proof (safe_lrun any dev q (S pw _ (conj L1 L)) hs ww) as Q; destruct (lrun dev q hs ww) as [[r hs'] w'] end;
    cbn in H, Q; subst r; exact Q.
Qed.
Lemma safe_transform a b : safe any (transform (E := E) a b).
Proof.
  unfold transform. apply safe_then; [apply safe_write_header|]. cbv zeta.
  repeat (apply safe_then; [apply safe_transform_section; first [apply safe_decode1|apply safe_decode2]|]).
  apply safe_transform_section, safe_decode2.
Qed.
Lemma safe_initialize a : safe any (initialize (E := E) a).
Proof.
  unfold initialize. cbv zeta. apply safe_then; [apply safe_try, safe_write_header|]. cbn [safe]. apply safe_flush.
  repeat (apply safe_then; [apply safe_encodes|]). apply safe_write_.
Qed.
Lemma l_transform_safe dev a b ip op f : result_of (l_transform (E := E) dev a b ip op) f <> Panic.
Proof.
  intros H. unfold result_of, l_transform in H. apply lbind_panic in H as [u [_ H]]; [|apply lopen_result].
  apply lbind_panic in H as [u' [_ H]]; [|apply lcreate_result]. revert H. apply safe_lstage, safe_transform.
Qed.
Lemma l_initialize_safe dev a op f : result_of (l_initialize (E := E) dev a op) f <> Panic.
Proof.
  intros H. unfold result_of, l_initialize in H. apply lbind_panic in H as [u [_ H]]; [|apply lcreate_result].
  revert H. apply safe_lstage, safe_initialize.
Qed.
End P1Live.

(* ---- phase 2 ---- *)
Section P2.
Context {E : Ext2}.
Lemma safe_write_hdr o h : safe any (write_hdr o h).
Proof. apply safe_then; apply safe_write. Qed.
Lemma safe_any1 h n : safe any (decodes1 (E := E) h n).
Proof. eapply safe_imp; [apply safe_decodes1|]. unfold any. auto. Qed.
Lemma safe_any2 h n : safe any (decodes2 (E := E) h n).
Proof. eapply safe_imp; [apply safe_decodes2|]. unfold any. auto. Qed.
Lemma safe_scale2 bs h o N (d : E) : (0 <= N)%Z -> safe any (scale2 bs h o N d).
Proof.
  intros H. unfold scale2. destruct (Z.ltb_spec N 0); [lia|]. cbv zeta. generalize (repeat (0 : E) (Nat.min (Z.to_nat N) bs)) as buff.
  generalize (Z.to_nat N) at 2 as r. generalize (Z.to_nat N) as fuel. clear.
  induction fuel as [|fuel IH]; intros r buff; [destruct r; exact I|]. destruct r as [|r]; [exact I|]. cbn [scale2_loop].
  apply safe_get; [apply safe_any1|]. intros pts. eapply safe_orBoom; [apply par_cells_spec, ncpu_pos|].
  apply safe_then; [apply safe_encodes|apply IH].
Qed.
Lemma safe_aggregate bs rho N : (0 <= N)%Z -> safe any (aggregate (E := E) bs rho N).
Proof.
  intros H. unfold aggregate. destruct (Z.ltb_spec N 0); [lia|]. cbv zeta. generalize (repeat (0 : E) (Z.to_nat N)) as buff.
  generalize (Z.to_nat N) at 2 as r. generalize (Z.to_nat N) as fuel. generalize (0 : E) at 1 as x. generalize (0 : E) as y. clear.
  intros y x fuel r buff. revert x y r buff.
  induction fuel as [|fuel IH]; intros x y r buff; [destruct r; exact I|]. destruct r as [|r]; [exact I|]. cbn [aggregate_loop].
  eapply safe_orBoom; [unfold randomize; apply par_cells_spec, ncpu_pos|].
  apply safe_get; [apply safe_any1|]. intros ins. destruct (mexp E ins _); [|exact I].
  apply safe_get; [apply safe_any1|]. intros ors. destruct (mexp E ors _); [|exact I]. apply IH.
Qed.
Lemma safe_verify_param bs rho (d g : E) N e : (0 <= N)%Z -> safe any (verify_param bs rho d g N e).
Proof.
  intros H. apply safe_get; [apply safe_try, safe_aggregate, H|]. intros [[i r]|]; [apply safe_require|exact I].
Qed.
Lemma safe_read_contrib2 h : safe any (read_contrib2 (E := E) h).
Proof.
  do 3 (apply safe_get; [apply safe_decode1|]; intros ?). apply safe_get; [apply safe_decode2|]. intros x [b|]; exact I.
Qed.
Lemma safe_write_contrib2 o (c : contrib2 E) : safe any (write_contrib2 o c).
Proof. apply safe_then; [apply safe_encodes|apply safe_write]. Qed.
Lemma safe_copy2 h o n : forall c : contrib2 E, safe any (copy_contribs2 h o n c).
Proof.
  induction n as [|n IH]; intros c; [exact I|]. cbn [copy_contribs2]. apply safe_get; [apply safe_read_contrib2|]. intros c'.
  apply safe_then; [apply safe_write_contrib2|apply IH].
Qed.
Lemma safe_chain2 n : forall (l p : E) h, safe any (verify_chain2 n l p h).
Proof.
  induction n as [|n IH]; intros l p h; [exact I|]. cbn [verify_chain2]. apply safe_get; [apply safe_read_contrib2|]. intros c.
  destruct (verify_contrib2 c p h); [exact I|]. apply safe_get; [apply IH|]. intros [x hs]. exact I.
Qed.
Lemma safe_slice1 h : safe any (read_slice1 (E := E) h).
Proof. apply safe_get; [apply safe_readfull|]. intros b. apply safe_any1. Qed.
Lemma safe_slice2 h : safe any (read_slice2 (E := E) h).
Proof. apply safe_get; [apply safe_readfull|]. intros b. apply safe_any2. Qed.

Lemma domain_int64 h : hdr_ok h -> (- two63 <= h_domain h < two63)%Z.
Proof. unfold hdr_ok, hdr_fields, int64. rewrite !Forall_cons_iff. unfold two63. intros H. lia. Qed.
Lemma wrap_pred d : (- two63 <= d < two63)%Z -> (wrap64 (d - 1) < 0 <-> - two63 < d <= 0)%Z.
Proof.
  intros H. destruct (Z.eq_dec d (- two63)) as [->|N]; [split; [intros K; vm_compute in K; discriminate|lia]|].
  rewrite wrap64_small by lia. lia.
Qed.
Lemma cap136 : defBuf = 0%nat \/ (136 < defBuf)%nat.
Proof. right. apply Nat.ltb_lt. vm_compute. reflexivity. Qed.

(* the header, then the rest *)
Lemma hdr_panic {X} (K : hdr -> io X) b h f t s s' d : hdr_ok h -> getr b s = at_ f defBuf 0%nat (gob_hdr h ++ t) ->
  ev (bind (read_hdr2 (E := E) b) K) s Panic s' d -> exists d', ev (K h) (setr b (at_ f defBuf (0 + length (gob_hdr h))%nat t) s) Panic s' d'.
Proof.
  intros H G R. pose proof (ev_read_hdr (@gob_alt E) b f defBuf 0%nat h t s cap136 H G) as Q.
  destruct (bind_panic_inv _ _ _ _ _ R) as [R1|[h' [s1 [d1 [d2 [R1 R2]]]]]].
  - destruct (ev_det _ _ _ _ _ _ _ _ R1 Q) as [Z _]. discriminate.
  - destruct (ev_det _ _ _ _ _ _ _ _ R1 Q) as [Z [-> _]]. injection Z as ->. eauto.
Qed.

Lemma write_state o d s r s' D : ev (write o d) s r s' D -> s' = s.
Proof. intros H. now destruct (ev_det _ _ _ _ _ _ _ _ H (ev_write o d s)) as [_ [Q _]]. Qed.
(* p2c *)
Lemma scale2_ok_inv bs (h : bool) o N (d : E) f p rest s x s' D : 1 <= bs -> getr h s = at_ f defBuf p rest ->
  ev (scale2 bs h o N d) s (Ok x) s' D -> exists b (l : list E) t, rest = b ++ t /\ are1 b l /\ Z.of_nat (length l) = N /\
    s' = setr h (at_ f defBuf (p + length b)%nat t) s.
Proof.
  intros B G H. unfold scale2 in H. destruct (Z.ltb_spec N 0) as [L|L]; [destruct H as [w [H _]]; discriminate|]. cbv zeta in H.
  assert (Q : forall fuel rem p rest s buff s' D, rem <= fuel -> getr h s = at_ f defBuf p rest ->
    ev (scale2_loop bs h o d fuel rem buff) s (Ok x) s' D -> exists b (l : list E) t, rest = b ++ t /\ are1 b l /\ length l = rem /\
    s' = setr h (at_ f defBuf (p + length b)%nat t) s).
  { clear - B. induction fuel as [|fuel IH]; intros rem p rest s buff s' D F G H.
    - assert (rem = 0)%nat by lia. subst rem. cbn [scale2_loop] in H. apply ret_inv in H as [_ ->]. exists [], [], rest.
      split; [auto|]. split; [constructor|]. split; [auto|]. cbn [length]. now rewrite Nat.add_0_r, <- G, setr_getr.
    - destruct rem as [|m].
      { cbn [scale2_loop] in H. apply ret_inv in H as [_ ->]. exists [], [], rest.
        split; [auto|]. split; [constructor|]. split; [auto|]. cbn [length]. now rewrite Nat.add_0_r, <- G, setr_getr. }
      cbn [scale2_loop] in H. set (rem := S m) in *. assert (HR : 1 <= rem) by (unfold rem; lia). clearbody rem.
      apply bind_ok_inv in H as [pts [s1 [d1 [d2 [H1 [H2 _]]]]]].
      destruct (decodes1_inv _ _ _ defBuf_big _ _ _ _ _ _ _ G H1) as [b1 [u1 [-> [I1 [N1 ->]]]]].
      cbv beta zeta in H2. rewrite par_cells_spec in H2 by apply ncpu_pos. cbn [orBoom] in H2.
      apply bind_ok_inv in H2 as [u [s2 [d3 [d4 [H3 [H2 _]]]]]].
      destruct (ev_det _ _ _ _ _ _ _ _ H3 (ev_encodes _ _ _)) as [_ [-> _]].
      assert (FU : rem - Nat.min rem bs <= fuel) by lia.
      destruct (IH _ _ _ _ _ _ _ FU (getr_setr _ _ _) H2) as [b2 [l2 [u2 [-> [I2 [N2 ->]]]]]].
      exists (b1 ++ b2), (pts ++ l2), u2. rewrite app_assoc. split; [auto|]. split; [now apply parses_app|].
      split; [rewrite app_length; lia|]. now rewrite setr_setr, app_length, Nat.add_assoc. }
  destruct (Q _ _ _ _ _ _ _ _ (le_n _) G H) as [b [l [t [E1 [E2 [E3 E4]]]]]]. exists b, l, t. split; [auto|]. split; [auto|]. split; [lia|auto].
Qed.
Lemma contribute2_panics bs (d s : E) h t g : 1 <= bs -> hdr_ok h -> (- two63 < h_domain h)%Z ->
  (fst (exec (contribute2 bs d s) (gob_hdr h ++ t) g) = Panic <->
   exists b1 (x1 : E) b2 (x2 : E) t1, t = b1 ++ b2 ++ t1 /\ is1 b1 x1 /\ is2 b2 x2 /\
     ((h_domain h <= 0)%Z \/
      (h_witness h < 0)%Z /\ exists b3 (l : list E) t2, t1 = b3 ++ t2 /\ are1 b3 l /\ Z.of_nat (length l) = (h_domain h - 1)%Z)).
Proof.
  intros B H Dm. pose proof (domain_int64 h H) as DI. pose proof (wrap_pred (h_domain h) DI) as WP. pose proof defBuf_big as BB.
  set (f := gob_hdr h ++ t). split.
  - intros X. destruct (exec (contribute2 bs d s) f g) as [r out0] eqn:Y. cbn [fst] in X. subst r. apply exec_ev in Y as [s' [D [X _]]].
    unfold contribute2 in X. apply newrd_inv, newwr_inv, flush_inv in X. cbn [getr fst opened] in X. unfold opened in X. rewrite rd_buf_at in X.
    apply (hdr_panic _ false h f t) in X; [|exact H|reflexivity]. destruct X as [d' X]. rewrite setr_setr in X. cbv beta iota zeta in X.
    apply (bind_panic any) in X; [|apply safe_write_hdr]. destruct X as [u [s1 [d1 [d2 [X1 X]]]]].
    assert (s1 = setr false (at_ f defBuf (0 + length (gob_hdr h))%nat t) (opened f, opened g)) as ->.
    { destruct (ev_det _ _ _ _ _ _ _ _ X1 (ev_bind _ _ _ _ _ _ _ _ _ (ev_write _ _ _) (ev_write _ _ _))) as [_ [Q _]]. exact Q. } clear X1.
    apply (bind_panic any) in X; [|apply safe_decode1]. destruct X as [x1 [s1 [d3 [d4 [X1 X]]]]].
    destruct (decode1_ok_inv _ _ _ _ _ _ _ _ _ BB (getr_setr _ _ _) X1) as [b1 [t1 [-> [I1 ->]]]]. clear X1. rewrite setr_setr in X.
    apply (bind_panic any) in X; [|apply safe_write]. destruct X as [u1 [s1 [d5 [d6 [X1 X]]]]].
    apply write_state in X1. subst s1.
    apply (bind_panic any) in X; [|apply safe_decode2]. destruct X as [x2 [s1 [d7 [d8 [X1 X]]]]].
    destruct (decode2_ok_inv _ _ _ _ _ _ _ _ _ BB (getr_setr _ _ _) X1) as [b2 [t2 [-> [I2 ->]]]]. clear X1. rewrite setr_setr in X.
    apply (bind_panic any) in X; [|apply safe_write]. destruct X as [u2 [s1 [d9 [d10 [X1 X]]]]].
    apply write_state in X1. subst s1.
    exists b1, x1, b2, x2, t2. do 3 (split; [auto|]).
    destruct (Z.le_gt_cases (h_domain h) 0) as [L|L]; [left; exact L|right].
    change (h_domain (set_contribs h _)) with (h_domain h) in X. change (h_witness (set_contribs h _)) with (h_witness h) in X.
    rewrite wrap64_small in X by lia.
    apply (bind_panic any) in X; [|apply safe_scale2; lia]. destruct X as [u3 [s1 [d11 [d12 [X1 X]]]]].
    destruct (scale2_ok_inv _ _ _ _ _ _ _ _ _ _ _ _ B (getr_setr _ _ _) X1) as [b3 [l [t3 [-> [A3 [L3 ->]]]]]].
    split; [|exists b3, l, t3; auto].
    destruct (Z.lt_ge_cases (h_witness h) 0) as [LW|LW]; [exact LW|exfalso]. revert X.
    match goal with |- ev ?q _ _ _ _ -> False => assert (SF : safe any q); [|exact (safe_ev any q _ _ _ SF)] end.
    apply safe_then; [apply safe_scale2; lia|]. apply safe_get; [apply safe_copy2|]. intros c.
    apply safe_then; [apply safe_try, safe_write_contrib2|exact I].
  - intros [b1 [x1 [b2 [x2 [t1 [Et [I1 [I2 C]]]]]]]]. subst t.
    assert (P : forall (q : io bytes), exists s1 d1, ev (scale2 bs false 0 (wrap64 (h_domain h - 1)) (finv d) ;;; scale2 bs false 0 (h_witness h) (finv d) ;;; q)
      (setr false (at_ f defBuf (0 + length (gob_hdr h) + length b1 + length b2)%nat t1) (opened f, opened g)) Panic s1 d1).
    { intros q. destruct C as [C|[W [b3 [l [t2 [-> [A3 L3]]]]]]].
      - do 2 eexists. apply ev_bind_panic. unfold scale2. destruct (Z.ltb_spec (wrap64 (h_domain h - 1)) 0); [apply ev_boom|lia].
      - do 2 eexists. eapply ev_bind; [eapply ev_scale2; [exact B|exact BB| |exact A3|apply getr_setr]; rewrite wrap64_small; lia|].
        apply ev_bind_panic. unfold scale2. destruct (Z.ltb_spec (h_witness h) 0); [apply ev_boom|lia]. }
    assert (X : exists s' D, ev (contribute2 bs d s) (opened f, opened g) Panic s' D).
    { edestruct P as [s1 [d1 P']]. do 2 eexists. unfold contribute2. apply ev_newrd, ev_newwr, ev_with_flush. cbn [getr fst opened]. unfold opened. rewrite rd_buf_at.
      eapply ev_bind; [eapply ev_read_hdr; [exact cap136|exact H|apply getr_setr]|]. cbv beta iota zeta. rewrite setr_setr.
      eapply ev_bind; [eapply ev_bind; [apply ev_write|apply ev_write]|].
      eapply ev_bind; [eapply ev_decode1; [exact BB|exact I1|apply getr_setr]|]. rewrite setr_setr.
      eapply ev_bind; [apply ev_write|].
      eapply ev_bind; [eapply ev_decode2; [exact BB|exact I2|apply getr_setr]|]. rewrite setr_setr.
      eapply ev_bind; [apply ev_write|].
      change (h_domain (set_contribs h _)) with (h_domain h). change (h_witness (set_contribs h _)) with (h_witness h).
      exact P'. }
    destruct X as [s' [D X]]. apply ev_exec in X. now rewrite X.
Qed.

(* p2v *)
Lemma verify2_safe bs rho h h' t t' : hdr_ok h -> hdr_ok h' -> (1 <= h_domain h <= 2 ^ 42)%Z -> (0 <= h_witness h <= 2 ^ 42)%Z ->
  fst (exec (verify2 (E := E) bs rho) (gob_hdr h ++ t) (gob_hdr h' ++ t')) <> Panic.
Proof.
  intros H H' D1 W1 X. pose proof (domain_int64 h H) as DI. set (f := gob_hdr h ++ t) in *. set (g := gob_hdr h' ++ t') in *.
  destruct (exec (verify2 bs rho) f g) as [r out0] eqn:Y. cbn [fst] in X. subst r. apply exec_ev in Y as [s' [D [X _]]].
  unfold verify2 in X. apply newrd_inv in X. cbn [getr fst opened] in X. unfold opened in X. rewrite rd_buf_at in X.
  apply newrd_inv in X. cbn [getr setr fst snd] in X. rewrite rd_buf_at in X. cbn [fst snd] in X.
  apply (hdr_panic _ false h f t) in X; [|exact H|reflexivity]. destruct X as [d' X]. cbv beta in X.
  apply (hdr_panic _ true h' g t') in X; [|exact H'|reflexivity]. destruct X as [d'' X]. revert X.
  match goal with |- ev ?q _ _ _ _ -> False => assert (SF : safe any q); [|exact (safe_ev any q _ _ _ SF)] end.
  do 2 (apply safe_then; [apply safe_require|]).
  apply safe_get; [apply safe_decode1|]. intros g1. apply safe_get; [apply safe_decode2|]. intros g2.
  apply safe_get; [apply safe_decode1|]. intros d1. apply safe_get; [apply safe_decode2|]. intros d2.
  apply safe_then; [apply safe_require|]. rewrite wrap64_small by lia.
  apply safe_then; [apply safe_verify_param; lia|]. apply safe_then; [apply safe_verify_param; lia|].
  apply safe_get; [apply safe_chain2|]. intros [dl hs]. apply safe_then; [apply safe_require|exact I].
Qed.
Lemma verify2_panics bs rho h h' (o1 o2 x1 x2 : E) b1 b2 b3 b4 t t' : hdr_ok h -> hdr_ok h' -> hdr_eqb h h' = true -> h_contribs h <> 0%Z ->
  (- two63 < h_domain h <= 0)%Z -> is1 b1 x1 -> is2 b2 x2 -> is1 b3 o1 -> is2 b4 o2 -> o1 * x2 = x1 * o2 ->
  fst (exec (verify2 (E := E) bs rho) (gob_hdr h ++ b1 ++ b2 ++ t) (gob_hdr h' ++ b3 ++ b4 ++ t')) = Panic.
Proof.
  intros H H' EQ C D I1 I2 I3 I4 R. set (f := gob_hdr h ++ _). set (g := gob_hdr h' ++ _). pose proof defBuf_big as BB.
  pose proof (wrap_pred (h_domain h) (domain_int64 h H)) as WP.
  assert (X : exists s' D, ev (verify2 (E := E) bs rho) (opened f, opened g) Panic s' D).
  { do 2 eexists. unfold verify2. apply ev_newrd. cbn [getr fst opened]. unfold opened. rewrite rd_buf_at. apply ev_newrd. cbn [getr setr fst snd]. rewrite rd_buf_at.
    eapply ev_bind; [eapply ev_read_hdr; [exact cap136|exact H|reflexivity]|].
    eapply ev_bind; [eapply ev_read_hdr; [exact cap136|exact H'|reflexivity]|].
    rewrite EQ. destruct (Z.eqb_spec (h_contribs h) 0) as [Q|_]; [destruct (C Q)|]. cbn [negb require bind].
    eapply ev_bind; [eapply ev_decode1; [exact BB|exact I3|reflexivity]|].
    eapply ev_bind; [eapply ev_decode2; [exact BB|exact I4|reflexivity]|].
    eapply ev_bind; [eapply ev_decode1; [exact BB|exact I1|reflexivity]|].
    eapply ev_bind; [eapply ev_decode2; [exact BB|exact I2|reflexivity]|].
    assert (SR : same_ratio o1 x1 x2 o2 = true) by (unfold same_ratio; rewrite R; apply feqb_refl). rewrite SR. cbn [require bind].
    apply ev_bind_panic. unfold verify_param. apply ev_bind_panic. unfold aggregate.
    destruct (Z.ltb_spec (wrap64 (h_domain h - 1)) 0); [|lia]. apply ev_boom. }
  destruct X as [s' [DD X]]. apply ev_exec in X. now rewrite X.
Qed.

(* the keys *)
Lemma new_domain_some m : (0 <= m <= 2 ^ Z.of_nat (kmax E))%Z -> exists k, new_domain (E := E) m = Some k.
Proof.
  intros H. unfold new_domain. destruct (Z.ltb_spec m 0); [lia|]. destruct (Nat.ltb_spec (kmax E) (Z.to_nat (Z.log2_up m))) as [L|L]; [|eauto].
  exfalso. assert (Z.log2_up m <= Z.of_nat (kmax E))%Z; [|lia].
  destruct (Z.le_gt_cases m 1) as [M|M]; [rewrite Z.log2_up_eqn0 by lia; lia|]. apply Z.log2_up_le_pow2; lia.
Qed.
Lemma new_domain_none m : (m < 0 \/ 2 ^ Z.of_nat (kmax E) < m)%Z -> new_domain (E := E) m = None.
Proof.
  intros H. unfold new_domain. destruct (Z.ltb_spec m 0); [reflexivity|]. destruct H as [H|H]; [lia|].
  destruct (Nat.ltb_spec (kmax E) (Z.to_nat (Z.log2_up m))) as [L|L]; [reflexivity|exfalso].
  assert (P : (0 < 2 ^ Z.of_nat (kmax E))%Z) by (apply Z.pow_pos_nonneg; lia).
  assert (Z.of_nat (kmax E) < Z.log2_up m)%Z; [|lia]. apply Z.log2_up_lt_pow2; lia.
Qed.
Lemma safe_read_n n : (0 <= n)%Z -> safe any (read_n (E := E) n).
Proof. intros H. unfold read_n. destruct (Z.ltb_spec n 0); [lia|]. apply safe_any1. Qed.
Lemma safe_write_slice o l : safe any (write_slice o l).
Proof. apply safe_then; [apply safe_write|apply safe_encodes]. Qed.

Lemma pk_open {Y} (K : hdr -> io Y) h t g : hdr_ok h ->
  fst (exec (NewRd false defBuf (NewRd true defBuf (bind (read_hdr2 (E := E) false) K))) (gob_hdr h ++ t) g) = Panic ->
  ~ safe any (K h).
Proof.
  intros H X S. set (f := gob_hdr h ++ t) in *. destruct (exec _ f g) as [r out0] eqn:YY. cbn [fst] in X. subst r. apply exec_ev in YY as [s' [D [X _]]].
  apply newrd_inv in X. cbn [getr fst opened] in X. unfold opened in X. rewrite rd_buf_at in X.
  apply newrd_inv in X. cbn [getr setr fst snd] in X. rewrite rd_buf_at in X. cbn [fst snd] in X.
  apply (hdr_panic _ false h f t) in X; [|exact H|reflexivity]. destruct X as [d' X]. revert X. exact (safe_ev any _ _ _ _ S).
Qed.
Ltac sk := repeat first
  [ apply safe_then; [first [apply safe_write | apply safe_write_ | apply safe_write_slice | apply safe_seek]|]
  | apply safe_get; [first [apply safe_decode1 | apply safe_decode2 | apply safe_slice1 | apply safe_slice2]|intros ?]
  | match goal with |- context [filterInfinity ?b] => let x := fresh in destruct (filterInfinity b) as [[x ?] ?] end
  | apply safe_get; [apply safe_read_n; first [assumption|lia]|intros ?] ].
Lemma pk_safe h t g : hdr_ok h -> (1 <= h_domain h <= 2 ^ Z.of_nat (kmax E))%Z -> (0 <= h_witness h <= 2 ^ 42)%Z ->
  fst (exec (extract_pk (E := E)) (gob_hdr h ++ t) g) <> Panic.
Proof.
  intros H D W X. unfold extract_pk in X. apply pk_open in X; [|exact H]. apply X. clear X. pose proof (domain_int64 h H) as DI. cbv beta. cbn [safe]. apply safe_flush.
  destruct (new_domain_some (h_domain h)) as [k Q]; [lia|]. eapply safe_orBoom; [exact Q|]. rewrite wrap64_small by lia. sk. apply safe_write.
Qed.
Lemma split_pk_safe h t g : hdr_ok h -> (1 <= h_domain h <= 2 ^ 42)%Z -> (0 <= h_witness h <= 2 ^ 42)%Z ->
  fst (exec (extract_split_pk (E := E)) (gob_hdr h ++ t) g) <> Panic.
Proof.
  intros H D W X. unfold extract_split_pk in X. apply pk_open in X; [|exact H]. apply X. clear X. pose proof (domain_int64 h H) as DI. cbv beta.
  cbn [safe with_flush]. do 6 (cbn [safe with_flush]; apply safe_flush). rewrite wrap64_small by lia. sk. apply safe_write.
Qed.
Lemma vk_safe wr (x sigma : E) h t g : hdr_ok h -> fst (exec (extract_vk wr x sigma) (gob_hdr h ++ t) g) <> Panic.
Proof.
  intros H X. unfold extract_vk in X. apply pk_open in X; [|exact H]. apply X. clear X. cbv beta. cbn [safe]. apply safe_flush. sk.
  cbv zeta. sk. cbn [safe]. sk. unfold write_vk, write_raw1. apply safe_then; [|exact I]. sk. apply safe_write.
Qed.
Lemma pk_panics h t g : hdr_ok h -> (h_domain h < 0 \/ 2 ^ Z.of_nat (kmax E) < h_domain h)%Z ->
  exec (extract_pk (E := E)) (gob_hdr h ++ t) g = (Panic, []).
Proof.
  intros H D. assert (X : exists s', ev (extract_pk (E := E)) (opened (gob_hdr h ++ t), opened g) Panic s' none).
  { eexists. unfold extract_pk. apply ev_newrd. cbn [getr fst opened]. unfold opened. rewrite rd_buf_at. apply ev_newrd. cbn [getr setr fst snd]. rewrite rd_buf_at.
    apply ev_ext with (d := cat none none); [|reflexivity].
    eapply ev_bind; [eapply ev_read_hdr; [exact cap136|exact H|reflexivity]|]. apply ev_newwr, ev_with_flush. rewrite new_domain_none by exact D. apply ev_boom. }
  destruct X as [s' X]. apply ev_exec in X. exact X.
Qed.
End P2.
