(* LiveDisk3.v -- the key extraction on a disk of limited size. *)
From Coq Require String.
From Verif Require Import Base Fld Conc Parallel IO Ext Spec1 Phase1 Gob Circuit Spec2 Phase2 Spec3 Fs Init2 Spec4 Keys KeysLemmas KeysClaims KeysProps Phase1Io
  Phase1Verify Live LiveLemmas Sok LiveFail SokPrograms LiveCmd LiveClaims LiveMore Spec5 LiveProps LiveDisk LiveDisk2.
Local Open Scope io_scope.


(* p runs from s to s' with result r, its writes to output 0 being some of at most defBuf bytes and then those of lengths t *)
Definition cvb (t : list nat) {X} (p : io X) (s : rds) (r : res X) (s' : rds) : Prop :=
  exists W front, run p s = (r, s', W) /\ chunks W = front ++ t /\ Forall (fun d => d <= defBuf) front.
Lemma cvb_ret {X} (x : X) s : cvb [] (Ret x) s (Ok x) s.
Proof. exists [], []. repeat split. constructor. Qed.
Lemma cvb_q {X Y} t (q : io X) (f : X -> io Y) s a s1 r s' : quiet q -> ev q s (Ok a) s1 none -> cvb t (f a) s1 r s' -> cvb t (bind q f) s r s'.
Proof.
  intros Q [W1 [R1 _]] [W [front [R [CH FA]]]]. specialize (Q s). rewrite R1 in Q. cbn [snd] in Q. subst W1.
  exists W, front. rewrite run_bind, R1, R. auto.
Qed.
Lemma cvb_w {Y} t (q : io unit) d (f : unit -> io Y) s r s' : puts q tt d -> sok true (small0 defBuf) any q -> cvb t (f tt) s r s' -> cvb t (bind q f) s r s'.
Proof.
  intros P A [W [front [R [CH FA]]]]. destruct (P s) as [W1 [R1 _]]. pose proof (sok_chunks true defBuf any q A s) as C1.
  rewrite R1 in C1. cbn [snd] in C1. exists (W1 ++ W), (chunks W1 ++ front). rewrite run_bind, R1, R. split; [reflexivity|].
  rewrite chunks_app, CH, app_assoc. split; [reflexivity|]. apply Forall_app. auto.
Qed.
Lemma cvb_d {Y} t d (f : unit -> io Y) s r s' : length d <= defBuf -> cvb t (f tt) s r s' -> cvb t (bind (write_ 0 d) f) s r s'.
Proof.
  intros L [W [front [R [CH FA]]]]. exists ((0, d) :: W), (length d :: front). rewrite run_bind. cbn [write_ run]. rewrite R.
  split; [reflexivity|]. change (chunks ((0, d) :: W)) with (length d :: chunks W). rewrite CH. split; [reflexivity|]. now constructor.
Qed.
Lemma cvb_newrd {X} t h n (p : io X) s r s' : cvb t p (setr h (rd_buf n (getr h s)) s) r s' -> cvb t (NewRd h n p) s r s'.
Proof. intros H. exact H. Qed.
Lemma cvb_flush {X} t o n (p : io X) s r s' : cvb t p s r s' -> cvb t (NewWr o n (with_flush o p)) s r s'.
Proof. intros [W [front H]]. exists W, front. cbn [run]. rewrite run_with_flush. exact H. Qed.
Lemma cvb_last2 a b s : cvb [length a; length b] (write 0 a ;;; write 0 b) s (Ok tt) s.
Proof. exists [(0, a); (0, b)], []. repeat split. constructor. Qed.

(* two writes of the same length after small ones *)
Lemma pass_two cap front w : cap <> 0 -> Forall (fun d => d <= cap) front -> list_sum front <> 0 ->
  let l := list_sum front in
  pass cap 0 0 (front ++ [w; w]) = if 3 * cap <? 2 * w + (l - fl cap l) then l + w + w else fl cap (l + w + w).
Proof.
  intros N FA Z l. pose proof (pass_small cap N front 0 FA) as PS. assert (F0 : fl cap 0 = 0) by (unfold fl; cbn; lia). rewrite F0 in PS.
  rewrite pass_app, PS. cbn [Nat.add]. fold l. fold l in Z. pose proof (fl_spec cap l N Z) as S. cbn [pass].
  destruct (Nat.leb_spec w cap) as [W|W].
  - destruct (Nat.ltb_spec (3 * cap) (2 * w + (l - fl cap l))); [lia|].
    pose proof (pass_small cap N [w; w] l ltac:(repeat constructor; lia)) as P2. cbn [pass] in P2. rewrite P2. f_equal. cbn. lia.
  - assert (Q1 : pass1 cap (fl cap l) l w = if 2 * cap <? w + (l - fl cap l) then l + w else fl cap l + cap).
    { unfold pass1. cbv zeta. destruct (Nat.leb_spec w (cap - (l - fl cap l))); [lia|]. destruct (Nat.eqb_spec (l - fl cap l) 0); [lia|].
      destruct (Nat.leb_spec (w - (cap - (l - fl cap l))) cap); destruct (Nat.ltb_spec (2 * cap) (w + (l - fl cap l))); try lia; reflexivity. }
    rewrite Q1. destruct (Nat.ltb_spec (2 * cap) (w + (l - fl cap l))).
    + destruct (Nat.ltb_spec (3 * cap) (2 * w + (l - fl cap l))); [|lia]. unfold pass1. cbv zeta. rewrite Nat.sub_diag.
      destruct (Nat.leb_spec w (cap - 0)); [lia|]. reflexivity.
    + unfold pass1. cbv zeta. set (b := l + w - (fl cap l + cap)). assert (B : 1 <= b <= cap) by (unfold b; lia).
      destruct (Nat.leb_spec w (cap - b)); [lia|]. destruct (Nat.eqb_spec b 0); [lia|].
      destruct (Nat.leb_spec (w - (cap - b)) cap); destruct (Nat.ltb_spec (3 * cap) (2 * w + (l - fl cap l))); unfold b in *; try lia; try reflexivity.
      assert (FU : exists j, fl cap l = cap * j) by (unfold fl; destruct (Nat.eqb_spec l 0); [lia|eauto]). destruct FU as [j FU]. rewrite FU in *.
      rewrite (fl_unique cap (l + w + w) (j + 2) N); lia.
Qed.

Section P.
Context {E : Ext2}.
Local Open Scope fld_scope.
Hypothesis dom_small : forall k, length (dom_bytes (e := E) k) <= defBuf.
Definition pk_body (header : hdr) : io unit :=
  orBoom (new_domain (E := E) (h_domain header)) (fun k =>
  write_ 0 (dom_bytes (e := E) k) ;;;
  alphaG1 <- decode1 (E := E) true ;;
  write 0 (g1c (e := E) alphaG1) ;;;
  betaG1 <- decode1 (E := E) true ;;
  write 0 (g1c (e := E) betaG1) ;;;
  deltaG1 <- decode1 (E := E) false ;;
  write 0 (g1c (e := E) deltaG1) ;;;
  betaG2 <- decode2 (E := E) true ;;
  deltaG2 <- decode2 (E := E) false ;;
  buffG1 <- read_slice1 (E := E) true ;;
  let '(buffG1, infinityA, nbInfinityA) := filterInfinity buffG1 in
  write_slice1 (E := E) 0 buffG1 ;;;
  buffG1 <- read_slice1 (E := E) true ;;
  let '(buffG1, infinityB, nbInfinityB) := filterInfinity buffG1 in
  write_slice1 (E := E) 0 buffG1 ;;;
  buffG1 <- read_n (E := E) (wrap64 (h_domain header - 1)) ;;
  write_slice1 (E := E) 0 buffG1 ;;;
  buffG1 <- read_n (E := E) (h_witness header) ;;
  write_slice1 (E := E) 0 buffG1 ;;;
  write 0 (g2c (e := E) betaG2) ;;;
  write 0 (g2c (e := E) deltaG2) ;;;
  buffG2 <- read_slice2 (E := E) true ;;
  let '(buffG2, _, _) := filterInfinity buffG2 in
  write_slice2 (E := E) 0 buffG2 ;;;
  write 0 (be64 (u64 (h_wires header))) ;;;
  write 0 (be64 nbInfinityA) ;;;
  write 0 (be64 nbInfinityB) ;;;
  write 0 (bools infinityA) ;;;
  write 0 (bools infinityB)).
Lemma pk_split : extract_pk (E := E) =
  NewRd false defBuf (NewRd true defBuf (bind (read_hdr2 (E := E) false) (fun h => NewWr 0 defBuf (with_flush 0 (pk_body h))))).
Proof. reflexivity. Qed.

Lemma sok_pk_rest (h : hdr) : forall k, new_domain (E := E) (h_domain h) = Some k -> exists q, pk_body h = (write_ 0 (dom_bytes (e := E) k) ;;; q) /\ sok true only0 any q.
Proof.
  intros k ND. unfold pk_body. rewrite ND. cbn [orBoom]. eexists. split; [reflexivity|].
  assert (H0 : forall d : bytes, length d <= 256 -> only0 0 d) by (intros; reflexivity).
  assert (W : forall d, sok true only0 any (write 0 d)) by (intros d; apply sok_write; reflexivity).
  assert (S1 : forall l : list E, sok true only0 any (write_slice1 0 l)) by (intros; now apply sok_write_slice1).
  assert (S2 : forall l : list E, sok true only0 any (write_slice2 0 l)) by (intros; now apply sok_write_slice2).
  apply sok_seq; [apply sok_decode1|]; intros. apply sok_seq; [apply W|]; intros. apply sok_seq; [apply sok_decode1|]; intros.
  apply sok_seq; [apply W|]; intros. apply sok_seq; [apply sok_decode1|]; intros. apply sok_seq; [apply W|]; intros.
  apply sok_seq; [apply sok_decode2|]; intros. apply sok_seq; [apply sok_decode2|]; intros. apply sok_seq; [apply sok_read_slice1|]; intros lA.
  rewrite filter_inf_spec. apply sok_seq; [apply S1|]; intros. apply sok_seq; [apply sok_read_slice1|]; intros lB.
  rewrite filter_inf_spec. apply sok_seq; [apply S1|]; intros. apply sok_seq; [apply sok_read_n|]; intros.
  apply sok_seq; [apply S1|]; intros. apply sok_seq; [apply sok_read_n|]; intros. apply sok_seq; [apply S1|]; intros.
  apply sok_seq; [apply W|]; intros. apply sok_seq; [apply W|]; intros. apply sok_seq; [apply sok_read_slice2|]; intros lB2.
  rewrite filter_inf_spec. apply sok_seq; [apply S2|]; intros. do 4 (apply sok_seq; [apply W|]; intros). apply W.
Qed.
Lemma pk_strictly C p base u0 h : strictly C defBuf p base u0 [] 0 (pk_body h).
Proof.
  destruct (new_domain (E := E) (h_domain h)) as [k|] eqn:ND.
  - destruct (sok_pk_rest h k ND) as [q [-> S]]. apply first_strictly; [exact defBuf_pos|apply dom_small|].
    apply (sok_strictly C defBuf defBuf_pos p base u0 any q S).
  - unfold pk_body. rewrite ND. cbn [orBoom]. apply (sok_strictly C defBuf defBuf_pos p base u0 any Boom I).
Qed.

Ltac qt := lazymatch goal with
  | |- quiet (read_hdr2 _) => apply quiet_hdr | |- quiet (decode1 _) => apply quiet_decode1 | |- quiet (decode2 _) => apply quiet_decode2
  | |- quiet (read_slice1 _) => apply quiet_slice1 | |- quiet (read_slice2 _) => apply quiet_slice2
  | |- quiet (read_n _) => apply quiet_read_n | |- quiet (seek _ _) => apply quiet_seek end.
Ltac pt := lazymatch goal with
  | |- puts (write _ _) _ _ => apply puts_write | |- puts (write_slice1 _ _) _ _ => apply puts_slice1
  | |- puts (write_slice2 _ _) _ _ => apply puts_slice2 | |- puts (write_raw1 _ _) _ _ => apply puts_raw1 end.
Ltac qinv H := apply qbind_inv in H; [|qt]; let a := fresh "a" in let s := fresh "s" in let R := fresh "R" in
  destruct H as [a [s [R H]]]; cbn beta in H.
Ltac winv H := match type of H with
  | ev (NewRd ?h ?n ?p) _ _ _ _ => apply (newrd_inv h n p) in H end.
Ltac cst := match goal with R : ev ?p ?s (Ok ?a) ?s1 none |- cvb ?t (bind ?p ?f) ?s ?r ?s2 => apply (cvb_q t p f s a s1 r s2); [qt|exact R|cbn beta] end.
Ltac small := lazymatch goal with
  | |- sok _ _ _ (write_slice1 _ _) => apply sok_write_slice1; exact small0_256
  | |- sok _ _ _ (write_slice2 _ _) => apply sok_write_slice2; exact small0_256
  | |- sok _ _ _ (write_raw1 _ _) => apply sok_write_raw1; exact small0_256
  | |- sok _ _ _ (write _ _) => apply sok_write, small0_256; rewrite ?g1c_len, ?g2c_len, ?g1r_len, ?g2r_len; cbn; lia end.
Ltac cw := eapply cvb_w; [pt|small|].
Lemma pk_chunks s s' h q k : ev (read_pk (E := E)) s (Ok (h, q)) s' none -> new_domain (E := E) (h_domain h) = Some k ->
  cvb [length (q_A q); length (q_B q)] (extract_pk (E := E)) s (Ok tt) s'.
Proof.
  unfold read_pk. intros H ND. do 2 winv H. do 11 qinv H.
  destruct H as [w [H _]]. cbn in H. injection H as <- <- <- _.
  unfold extract_pk. apply cvb_newrd, cvb_newrd. cst. apply cvb_flush. rewrite ND. cbn [orBoom]. cbn [q_A q_B].
  apply cvb_d; [apply dom_small|].
  cst. cw. cst. cw. cst. cw. cst. cst. cst. rewrite filter_inf_spec. cw. cst. rewrite filter_inf_spec. cw. cst. cw. cst. cw.
  cw. cw. cst. rewrite filter_inf_spec. cw. cw. cw. cw.
  replace (length a5) with (length (bools (absent a5))) by (unfold bools, absent; now rewrite !map_length).
  replace (length a6) with (length (bools (absent a6))) by (unfold bools, absent; now rewrite !map_length).
  apply cvb_last2.
Qed.

(* the commitment key and the empty commitment info *)
Definition vk_body (wr : Z -> Z) (g sigma : E) (header : hdr) : io bytes :=
  alpha <- decode1 (E := E) true ;;
  beta1 <- decode1 (E := E) true ;;
  beta2 <- decode2 (E := E) true ;;
  let gamma2 := 1 in
  delta1 <- decode1 (E := E) false ;;
  delta2 <- decode2 (E := E) false ;;
  let pos := wr (wr (128 * wr (h_wires header + 1)) + 12)%Z in
  seek true pos ;;;
  NewRd true defBuf (
  k <- read_slice1 (E := E) true ;;
  ckk <- read_slice1 (E := E) true ;;
  let commitmentKey := ped (e := E) g sigma ckk in
  write_vk 0 commitmentKey alpha beta1 beta2 gamma2 delta1 delta2 k (mkCmt [] 0 0) ;;;
  Ret commitmentKey).
Lemma vk_split wr (g sg : E) : extract_vk wr g sg =
  NewRd false defBuf (NewRd true defBuf (bind (read_hdr2 (E := E) false) (fun h => NewWr 0 defBuf (with_flush 0 (vk_body wr g sg h))))).
Proof. reflexivity. Qed.
Lemma vk_strictly wr (g sg : E) C p base u0 h : strictly C defBuf p base u0 [] 0 (vk_body wr g sg h).
Proof.
  apply (sok_strictly C defBuf defBuf_pos p base u0 any). unfold vk_body.
  assert (H0 : forall d : bytes, length d <= 256 -> only0 0 d) by (intros; reflexivity).
  assert (W : forall d, sok true only0 any (write 0 d)) by (intros d; apply sok_write; reflexivity).
  apply sok_seq; [apply sok_decode1|]; intros. apply sok_seq; [apply sok_decode1|]; intros. apply sok_seq; [apply sok_decode2|]; intros.
  cbv zeta. apply sok_seq; [apply sok_decode1|]; intros. apply sok_seq; [apply sok_decode2|]; intros. apply sok_seq; [apply sok_seek|]; intros.
  apply sok_newrd. apply sok_seq; [apply sok_read_slice1|]; intros. apply sok_seq; [apply sok_read_slice1|]; intros.
  apply sok_seq; [|intros; apply sok_ret; exact I]. unfold write_vk. do 7 (apply sok_seq; [apply W|]; intros).
  apply sok_seq; [now apply sok_write_raw1|]; intros. apply W.
Qed.
Lemma vk_chunks wr (g sg : E) s s' v : length (ped (e := E) g sg (w_ck v)) <= defBuf -> length (empty_info (E := E)) <= defBuf ->
  ev (read_vk (E := E) wr) s (Ok v) s' none -> cvb [] (extract_vk wr g sg) s (Ok (ped (e := E) g sg (w_ck v))) s'.
Proof.
  unfold read_vk. intros LP LI H. do 2 winv H. do 7 qinv H. winv H. do 2 qinv H.
  destruct H as [w [H _]]. cbn in H. injection H as <- <- _. cbn [w_ck] in *.
  unfold extract_vk. apply cvb_newrd, cvb_newrd. cst. apply cvb_flush. do 3 cst. cbv zeta. do 3 cst. apply cvb_newrd. do 2 cst.
  eapply cvb_w; [apply (puts_vk 0 _ (mkVk a0 a1 a2 a3 a4 a6 a7))| |apply cvb_ret].
  unfold write_vk. apply sok_seq; [apply sok_write; split; [reflexivity|exact LP]|]; intros.
  do 6 (apply sok_seq; [small|]; intros). apply sok_seq; [small|]; intros. apply sok_write. split; [reflexivity|exact LI].
Qed.

(* an extraction from open to close: header, create, run *)
Definition l_ext {X} (dev : device) (P : io X) (p op : string) : lcmd X :=
  (lopen p ;;; lopen evals_path ;;; l_header (E := E) dev p ;;; lcreate dev op ;;; lstage dev P p evals_path [op])%lcmd.
Lemma l_header_ok dev p w h : c_header (E := E) p (w_fs w) = (Ok h, w_fs w) -> l_header (E := E) dev p w = (Ok h, w).
Proof.
  intros Q. unfold l_header, lstage.
  destruct (quiet_lrun dev true any (NewRd false defBuf (read_hdr2 (E := E) false)) (sok_newrd _ _ _ _ _ _ (sok_read_hdr2 _ _ _)) (fresh p p []) w) as [hs' [-> _]].
  { split; intros _; reflexivity. }
  f_equal. unfold c_header, stage in Q.
  change (abss (w_fs w) (fresh p p [])) with (opened (contents (w_fs w) p), opened (contents (w_fs w) p)).
  destruct (run _ (opened _, opened _)) as [[r s1] W1]. injection Q as -> _. reflexivity.
Qed.
Lemma l_ext_disk {X} C (body : hdr -> io X) p op w F G x s' W :
  let P := NewRd false defBuf (NewRd true defBuf (bind (read_hdr2 (E := E) false) (fun h => NewWr 0 defBuf (with_flush 0 (body h))))) in
  p <> op -> evals_path <> op -> w_used w <= C -> w_fs w p = Some F -> w_fs w evals_path = Some G ->
  (forall base u0 h, strictly C defBuf op base u0 [] 0 (body h)) ->
  run P (opened F, opened G) = (Ok x, s', W) ->
  let n := pass defBuf 0 0 (chunks W) in
  exists r w', l_ext (disk C) P p op w = (r, w') /\ w_fs w' op = Some (firstn (C - w_used w) (out 0 W)) /\
    (forall y, y <> op -> w_fs w' y = w_fs w y) /\
    (w_used w + n <= C -> r = Ok x /\ w_used w' = Nat.min C (w_used w + length (out 0 W))) /\
    (C < w_used w + n -> exists e, r = Err e).
Proof.
  intros P N1 N2 U HF HG ST R n.
  assert (EV : ev P (opened (contents (w_fs w) p), opened G) (Ok x) s' (fun o => out o W)).
  { unfold contents. rewrite HF. exists W. auto. }
  destruct (starts_header P p (w_fs w) G x s' _ ltac:(eexists; reflexivity) EV) as [h0 CH].
  unfold l_ext, lbind, lopen. rewrite HF, HG, (l_header_ok _ _ _ _ CH). unfold lcreate. cbn [can_create disk].
  set (w0 := mkW _ _ _ _). unfold lstage.
  assert (GR := lrun_grow (disk C) P (fresh p evals_path [op]) w0).
  assert (AP : apart op (fresh p evals_path [op])) by (split; [split; intros _; reflexivity|]; split; [exact N1|]; split; [exact N2|reflexivity]).
  assert (HO : w_fs w0 op = Some []) by apply fset_same.
  assert (AB : abss (w_fs w0) (fresh p evals_path [op]) = (opened F, opened G)).
  { unfold abss, absr. cbn [fresh h_a h_b i_path i_pos i_buf i_cap app skipn length w0 w_fs].
    rewrite !contents_other by auto. unfold contents. rewrite HF, HG. reflexivity. }
  rewrite <- AB in R.
  assert (D : exists r hs' w', lrun (disk C) P (fresh p evals_path [op]) w0 = (r, hs', w') /\ w_fs w' op = Some (firstn (C - w_used w) (out 0 W)) /\
    (w_used w + n <= C -> r = Ok x /\ w_used w' = Nat.min C (w_used w + length (out 0 W))) /\ (C < w_used w + n -> exists e, r = Err e)).
  { clear GR EV CH AB. unfold P in *. cbn [run] in R. rewrite !getr_abss, <- newrd_abs, setr_abss, getr_abss, <- newrd_abs, setr_abss in R. cbn [lrun].
    set (hs1 := seti false _ _) in *. assert (AP1 : apart op hs1) by (apply apart_seti; [exact AP|intros _; reflexivity|reflexivity]).
    assert (O1 : h_out hs1 0 = h_out (fresh p evals_path [op]) 0) by apply h_out_seti. clearbody hs1.
    set (hs2 := seti true _ _) in *. assert (AP2 : apart op hs2) by (apply apart_seti; [exact AP1|intros _; reflexivity|reflexivity]).
    assert (O2 : h_out hs2 0 = h_out (fresh p evals_path [op]) 0) by (rewrite <- O1; apply h_out_seti). clearbody hs2.
    rewrite lrun_bind. rewrite run_bind in R.
    destruct (run (read_hdr2 (E := E) false) (abss (w_fs w0) hs2)) as [[r1 s1] W1] eqn:R1. destruct r1 as [h|e|]; try discriminate.
    pose proof (quiet_hdr (E := E) false (abss (w_fs w0) hs2)) as QH. rewrite R1 in QH. cbn [snd] in QH. subst W1.
    assert (SH : sok true only0 any (read_hdr2 (E := E) false)) by apply sok_read_hdr2.
    assert (OG : ogood (h_out hs2 0)) by (rewrite O2; repeat split; cbn; auto).
    assert (OC : o_cap (h_out hs2 0) = 0%nat) by (rewrite O2; reflexivity).
    destruct (unbuffered_full C any _ op SH hs2 w0 [] _ _ _ AP2 OG OC HO R1) as [UA _].
    destruct (UA (Nat.le_0_l _)) as [hs3 [w3 [L3 [F3 [AP3 [AB3 [_ U3]]]]]]]. rewrite L3. change (w_used w0) with (w_used w) in U3. cbn [out flat_map length app] in U3, F3. rewrite Nat.add_0_r in U3.
    cbn [run] in R. rewrite run_with_flush in R. destruct (run (body h) s1) as [[r2 s2] W2] eqn:R2. injection R as -> <- <-. rewrite <- AB3 in R2.
    destruct (section_strict C defBuf (body h) op hs3 w3 [] (Ok x) s2 W2 defBuf_pos ltac:(lia) (ST [] (w_used w3) h) AP3 F3 R2) as [S1 S2].
    rewrite U3 in S1, S2. cbn [app] in *. fold n in S1, S2. destruct (Nat.leb_spec (w_used w + n) C) as [Q|Q].
    - destruct (S1 Q) as [hs' [w' [K1 [K2 [K3 _]]]]]. exists (Ok x), hs', w'. split; [exact K1|]. split; [exact K2|]. split; [auto|lia].
    - destruct (S2 Q) as [e [hs' [w' [K1 [K2 _]]]]]. exists (Err e), hs', w'. split; [exact K1|]. split; [exact K2|]. split; [lia|eauto]. }
  destruct D as [r [hs' [w' [K1 [K2 [K3 K4]]]]]]. rewrite K1 in GR |- *. exists r, w'. split; [reflexivity|]. split; [exact K2|]. split; [|auto].
  intros y Y. destruct GR as [[l [G1 [G2 G3]]] _]. rewrite G2.
  assert (AL : apps op l). { intros o I. destruct (G3 o I) as [k [q [d [-> K]]]]. apply paths_one in K as [_ ->]. eauto. }
  destruct (replay_apps op l (w_fs w0) AL) as [H _]. rewrite H by exact Y. apply fset_other. auto.
Qed.

Lemma l_pk_ext C p w : l_pk (E := E) (disk C) p w = l_ext (disk C) (extract_pk (E := E)) p pk_path w.
Proof. reflexivity. Qed.
Lemma l_vk_ext C wr (g sg : E) p w : l_vk (disk C) wr g sg p w =
  let '(r, w') := l_ext (disk C) (extract_vk wr g sg) p vk_path w in (match r with Ok _ => Ok tt | Err e => Err e | Panic => Panic end, w').
Proof.
  unfold l_vk, l_ext, lbind. destruct (lopen p w) as [[[]|e|] w1]; try reflexivity. destruct (lopen evals_path w1) as [[[]|e|] w2]; try reflexivity.
  destruct (l_header (disk C) p w2) as [[h|e|] w3]; try reflexivity. destruct (lcreate (disk C) vk_path w3) as [[[]|e|] w4]; try reflexivity.
  destruct (lstage (disk C) (extract_vk wr g sg) p evals_path [vk_path] w4) as [[ck|e|] w5]; reflexivity.
Qed.
Lemma pk_disk C p w F h (q : par2 E) (v : evals E) k : p <> pk_path -> w_used w <= C -> w_fs w p = Some F -> w_fs w evals_path = Some (evals_bytes v) ->
  ph2 F h q -> smalls v -> new_domain (E := E) (h_domain h) = Some k ->
  let O := pk_bytes k (u64 (h_wires h)) (pk_of q v) in
  exists n r w', l_pk (E := E) (disk C) p w = (r, w') /\ w_fs w' pk_path = Some (firstn (C - w_used w) O) /\
    (forall y, y <> pk_path -> w_fs w' y = w_fs w y) /\
    (w_used w + n <= C -> r = Ok tt /\ w_used w' = Nat.min C (w_used w + length O)) /\
    (C < w_used w + n -> exists e, r = Err e) /\
    (length (v_A v) = length (v_B v) -> let w := length (v_A v) in let l := (length O - (w + w))%nat in
      n = if (3 * defBuf <? 2 * w + (l - fl defBuf l))%nat then length O else fl defBuf (length O)).
Proof.
  intros N1 U HF HG HP HS ND O. destruct (read_pk_ok F h q v HP HS) as [s' RP].
  destruct (pk_fwd _ _ _ _ _ RP ND) as [W0 [R0 OW]]. destruct (pk_chunks _ _ _ _ _ RP ND) as [W [front [R [CH FA]]]].
  rewrite R in R0. injection R0 as <-. assert (EO : out 0 W = O) by apply (OW 0%nat).
  rewrite pk_split in R. pose proof (l_ext_disk C pk_body p pk_path w F (evals_bytes v) tt s' W N1 ltac:(discriminate) U HF HG (fun base u0 h => pk_strictly C pk_path base u0 h) R) as D.
  destruct D as [r [w' [D1 [D2 [D3 [D4 D5]]]]]]. rewrite <- pk_split in D1. rewrite EO in *.
  exists (pass defBuf 0 0 (chunks W)), r, w'. rewrite l_pk_ext. split; [exact D1|]. split; [exact D2|]. split; [exact D3|]. split; [exact D4|]. split; [exact D5|].
  pose proof (chunks_sum W) as CS. rewrite EO in CS. cbn [pk_of q_A q_B] in CH. intros LE. cbv zeta. rewrite <- LE in CH.
  assert (LS : list_sum (front ++ [length (v_A v); length (v_A v)]) = (list_sum front + length (v_A v) + length (v_A v))%nat)
    by (rewrite list_sum_app; unfold list_sum; cbn [fold_right]; lia).
  rewrite CH, LS in CS. rewrite <- CS.
  replace (list_sum front + length (v_A v) + length (v_A v) - (length (v_A v) + length (v_A v)))%nat with (list_sum front) by lia.
  rewrite CH. apply pass_two; [exact defBuf_pos|exact FA|].
  intros Z. rewrite Z in CS. assert (B : forall l : list E, length (bools (absent l)) = length l) by (intros; unfold bools, absent; now rewrite !map_length).
  unfold O, pk_bytes in CS. rewrite !app_length, !B in CS. cbn [pk_of q_A q_B] in CS. rewrite g1c_len in CS. lia.
Qed.
Lemma vk_disk C (g sg : E) p w F h (q : par2 E) (v : evals E) n : length (ped (e := E) g sg (v_ckk v)) <= defBuf -> length (empty_info (E := E)) <= defBuf ->
  p <> vk_path -> w_used w <= C -> w_fs w p = Some F -> w_fs w evals_path = Some (evals_bytes v) ->
  ph2 F h q -> smalls v -> same_wires n v -> h_wires h = Z.of_nat n -> (Z.of_nat n < 72057594037927935)%Z ->
  let O := vk_bytes (ped (e := E) g sg (v_ckk v)) (empty_info (E := E)) (vk_of q v) in
  exists r w', l_vk (disk C) wrap64 g sg p w = (r, w') /\ w_fs w' vk_path = Some (firstn (C - w_used w) O) /\
    (forall y, y <> vk_path -> w_fs w' y = w_fs w y) /\
    (w_used w + fl defBuf (length O) <= C -> r = Ok tt) /\
    (C < w_used w + fl defBuf (length O) -> exists e, r = Err e).
Proof.
  intros LP LI N1 U HF HG HP HS SW HW BW O.
  destruct (read_vk_ok wrap64 F h q v n HP HS SW HW (pos64 (Z.of_nat n) ltac:(lia))) as [s' RP].
  destruct (vk_fwd wrap64 g sg _ _ _ RP) as [W0 [R0 OW]]. destruct (vk_chunks wrap64 g sg _ _ (vk_of q v) LP LI RP) as [W [front [R [CH FA]]]].
  rewrite R in R0. injection R0 as <-. assert (EO : out 0 W = O) by apply (OW 0%nat).
  rewrite vk_split in R. pose proof (l_ext_disk C (vk_body wrap64 g sg) p vk_path w F (evals_bytes v) _ s' W N1 ltac:(discriminate) U HF HG (fun base u0 h => vk_strictly wrap64 g sg C vk_path base u0 h) R) as D.
  destruct D as [r [w' [D1 [D2 [D3 [D4 D5]]]]]]. rewrite <- vk_split in D1. rewrite EO in *.
  pose proof (pass_small defBuf defBuf_pos (chunks W) 0) as PS. change (fl defBuf 0) with 0%nat in PS.
  rewrite PS, chunks_sum, EO in D4, D5 by (rewrite CH, app_nil_r; exact FA). cbn [Nat.add] in D4, D5.
  rewrite l_vk_ext, D1. eexists _, w'. split; [reflexivity|]. split; [exact D2|]. split; [exact D3|]. split.
  - intros Q. destruct (D4 Q) as [-> _]. reflexivity.
  - intros Q. destruct (D5 Q) as [e ->]. eauto.
Qed.
End P.

Lemma c51_keys_disk {E : Ext2} (g sg : E) p f F h (q : par2 E) (v : evals E) w k C :
  (forall j, length (dom_bytes (e := E) j) <= N.to_nat 4096) -> length (empty_info (E := E)) <= N.to_nat 4096 ->
  length (ped (e := E) g sg (v_ckk v)) <= N.to_nat 4096 ->
  p <> pk_path -> p <> vk_path -> f p = Some F -> f evals_path = Some (evals_bytes v) ->
  ph2 F h q -> smalls v -> same_wires w v -> h_wires h = Z.of_nat w -> (Z.of_nat w < 72057594037927935)%Z ->
  new_domain (E := E) (h_domain h) = Some k ->
  let P := pk_bytes k (u64 (h_wires h)) (pk_of q v) in
  let V := vk_bytes (ped (e := E) g sg (v_ckk v)) (empty_info (E := E)) (vk_of q v) in
  let c := l_keys (disk C) wrap64 g sg p in
  after c f pk_path = Some (firstn C P) /\
  forall need, need = (if (12288 <? 2 * N.of_nat w + last_block (firstn (length P - 2 * w) P))%N then N.of_nat (length P) else full_blocks P) ->
  ((N.of_nat C < need)%N -> (exists e, result_of c f = Err e) /\ after c f vk_path = f vk_path) /\
  ((need <= N.of_nat C)%N ->
     after c f vk_path = Some (firstn (C - length P) V) /\
     ((N.min (N.of_nat C) (N.of_nat (length P)) + full_blocks V <= N.of_nat C)%N -> result_of c f = Ok tt) /\
     ((N.of_nat C < N.min (N.of_nat C) (N.of_nat (length P)) + full_blocks V)%N -> exists e, result_of c f = Err e)).
Proof.
  intros DS IS PS N1 N2 HF HG HP HS SW HW BW ND P V c.
  destruct (pk_disk DS C p (start f) F h q v k N1 (Nat.le_0_l C) HF HG HP HS ND) as [n [r [w1 [K1 [K2 [K3 [K4 [K5 K6]]]]]]]].
  fold P in K2, K4, K6. change (w_used (start f)) with 0%nat in *. rewrite Nat.sub_0_r in K2. cbn [Nat.add] in K4, K5.
  unfold c, l_keys, result_of, after, lbind. rewrite K1. clear c.
  assert (NN : forall need, need = (if (12288 <? 2 * N.of_nat w + last_block (firstn (length P - 2 * w) P))%N then N.of_nat (length P) else full_blocks P) -> need = N.of_nat n).
  { intros need ->. destruct SW as [SA [SB _]]. rewrite K6 by congruence. rewrite SA. unfold last_block.
    set (P0 := firstn (length P - 2 * w) P). replace (length P - (w + w))%nat with (length P0) by (unfold P0; rewrite firstn_length; lia).
    pose proof (fl_N (length P0)) as FN0. fold (full_blocks P0) in FN0. pose proof (fl_N (length P)) as FN. fold (full_blocks P) in FN.
    rewrite <- FN0, <- FN. pose proof (fl_le defBuf (length P0) defBuf_pos) as FL. pose proof defBuf_N as DN.
    destruct (N.ltb_spec 12288 (2 * N.of_nat w + (N.of_nat (length P0) - N.of_nat (fl defBuf (length P0)))));
      destruct (Nat.ltb_spec (3 * defBuf) (2 * w + (length P0 - fl defBuf (length P0)))); try reflexivity; exfalso; lia. }
  destruct (Nat.leb_spec n C) as [Q|Q].
  - destruct (K4 Q) as [-> U1]. assert (U1' : w_used w1 <= C) by lia.
    assert (HF1 : w_fs w1 p = Some F) by (rewrite K3 by exact N1; exact HF).
    assert (HG1 : w_fs w1 evals_path = Some (evals_bytes v)) by (rewrite K3 by discriminate; exact HG).
    destruct (vk_disk DS C g sg p w1 F h q v w PS IS N2 U1' HF1 HG1 HP HS SW HW BW) as [r2 [w2 [J1 [J2 [J3 [J4 J5]]]]]].
    fold V in J2, J4, J5. rewrite J1. cbn [fst snd]. split; [rewrite J3 by discriminate; exact K2|].
    intros need HN. apply NN in HN. subst need. split; [lia|]. intros _. pose proof (fl_N (length V)) as FN. fold (full_blocks V) in FN.
    rewrite <- FN. split; [rewrite J2; do 2 f_equal; lia|]. split; intros L; [apply J4|apply J5]; lia.
  - destruct (K5 Q) as [e ->]. cbn [fst snd]. split; [exact K2|]. intros need HN. apply NN in HN. subst need. split; [|lia].
    intros _. split; [eauto|]. apply K3. discriminate.
Qed.
(* with at most 4096 wires, a proving key that is cut and a verification key that is empty *)
Lemma c51_keys_refuted {E : Ext2} (g sg : E) p f F h (q : par2 E) (v : evals E) w k :
  (forall j, length (dom_bytes (e := E) j) <= N.to_nat 4096) -> length (empty_info (E := E)) <= N.to_nat 4096 ->
  length (ped (e := E) g sg (v_ckk v)) <= N.to_nat 4096 ->
  p <> pk_path -> p <> vk_path -> f p = Some F -> f evals_path = Some (evals_bytes v) ->
  ph2 F h q -> smalls v -> same_wires w v -> h_wires h = Z.of_nat w -> w <= N.to_nat 4096 ->
  new_domain (E := E) (h_domain h) = Some k ->
  let P := pk_bytes k (u64 (h_wires h)) (pk_of q v) in
  let V := vk_bytes (ped (e := E) g sg (v_ckk v)) (empty_info (E := E)) (vk_of q v) in
  (N.of_nat (length V) <= 4096)%N ->
  exists C, C < length P /\ result_of (l_keys (disk C) wrap64 g sg p) f = Ok tt /\
    after (l_keys (disk C) wrap64 g sg p) f pk_path = Some (firstn C P) /\ after (l_keys (disk C) wrap64 g sg p) f vk_path = Some [].
Proof.
  intros DS IS PS N1 N2 HF HG HP HS SW HW BW ND P V LV.
  assert (LP : 0 < length P).
  { unfold P, pk_bytes. rewrite app_length. rewrite app_length, g1c_len. lia. }
  exists (length P - 1)%nat. split; [lia|].
  destruct (c51_keys_disk g sg p f F h q v w k (length P - 1) DS IS PS N1 N2 HF HG HP HS SW HW ltac:(lia) ND) as [A B]. fold P V in A, B.
  destruct (B _ eq_refl) as [_ D]. assert (FB : forall b, (full_blocks b <= N.of_nat (length b) - 1)%N).
  { intros b. unfold full_blocks. apply N.mul_div_le. discriminate. }
  assert (FV : full_blocks V = 0%N). { unfold full_blocks. rewrite N.div_small by lia. reflexivity. }
  assert (LB : forall b, (last_block b <= 4096)%N).
  { intros b. unfold last_block, full_blocks. pose proof (N.div_mod (N.of_nat (length b) - 1) 4096 ltac:(discriminate)). pose proof (N.mod_lt (N.of_nat (length b) - 1) 4096 ltac:(discriminate)). lia. }
  specialize (LB (firstn (length P - 2 * w) P)). pose proof (FB P) as FP.
  assert (DD : (12288 <? 2 * N.of_nat w + last_block (firstn (length P - 2 * w) P))%N = false) by (apply N.ltb_ge; lia). rewrite DD in D.
  destruct D as [D1 [D2 _]]; [lia|]. split; [apply D2; rewrite FV; lia|]. split; [exact A|].
  rewrite D1. replace (length P - 1 - length P)%nat with 0%nat by lia. reflexivity.
Qed.
