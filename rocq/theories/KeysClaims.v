(* KeysClaims.v -- key extraction on well-formed files, and as commands. *)
From Coq Require Import Ring Field String.
From Verif Require Import Base Fld Poly BitRev IO Ext Spec1 Phase1 Phase1Io Phase1Verify Gob GobLemmas Circuit Spec2 Phase2 Phase2Io Phase2More Phase2Claims Spec3 Fs Init2 Init2Pure Init2Io Init2Claims Init2More Spec4 Keys KeysLemmas.
Local Open Scope fld_scope.

Section Claims.
Context {E : Ext2}.
Add Field Ekc : (f_th E).

Ltac rd L := rewrite <- ?app_assoc; eapply evb; [eapply L; [first [apply defBuf_big|apply defBuf_gob]| |cbn [getr setr fst snd]; reflexivity]; eassumption|];
  cbn [getr setr fst snd]; cbn beta.
Lemma ev_read_n n (l : list E) F p b t s : n = Z.of_nat (length l) -> are1 b l -> getr false s = at_ F defBuf p (b ++ t) ->
  ev (read_n n) s (Ok l) (setr false (at_ F defBuf (p + length b) t) s) none.
Proof.
  intros -> A G. unfold read_n. destruct (Z.ltb_spec (Z.of_nat (length l)) 0); [lia|]. rewrite Nat2Z.id.
  eapply ev_decodes1; [apply defBuf_big|exact A|exact G].
Qed.
Lemma newrd_opened {X} h n (p : io X) s r s' d f : getr h s = opened f -> ev p (setr h (at_ f n 0 f) s) r s' d -> ev (NewRd h n p) s r s' d.
Proof. intros G H. eapply ev_newrd0; [exact G|exact H]. Qed.

Lemma read_pk_ok F h q v : ph2 F h q -> smalls v -> exists s',
  ev (read_pk (E := E)) (opened F, opened (evals_bytes v)) (Ok (h, pk_of q v)) s' none.
Proof.
  intros [HO [[SZ SK] [pb [junk [EF [b1 [b2 [b3 [b4 [EP [I1 [I2 [A3 A4]]]]]]]]]]]]] [S1 [S2 [S3 [S4 S5]]]].
  assert (W : wrap64 (h_domain h - 1) = Z.of_nat (length (p_Z q))).
  { rewrite <- SZ. apply wrap64_small. unfold hdr_ok, hdr_fields in HO. rewrite !Forall_cons_iff in HO. unfold int64, two63 in *. lia. }
  pose proof (is1_c (v_alpha v)) as Ia. pose proof (is1_c (v_beta1 v)) as Ib. pose proof (is2_c (v_beta2 v)) as Ib2.
  remember (evals_bytes v) as G eqn:EG. eexists. unfold read_pk. eapply newrd_opened; [reflexivity|]. eapply newrd_opened; [reflexivity|].
  cbn [setr fst snd]. rewrite EG at 2. clear EG. unfold evals_bytes.
  rewrite EF at 2. clear EF. subst pb.
  rd (ev_read_hdr (gob_alt (e := E))).
  do 2 rd (@ev_decode1 E). rd (@ev_decode1 E). rd (@ev_decode2 E). rd (@ev_decode2 E).
  do 2 rd (@ev_read_slice1 E).
  eapply evb; [eapply ev_read_n; [exact W|exact A3|cbn [getr setr fst snd]; rewrite <- ?app_assoc; reflexivity]|]. cbn [getr setr fst snd]. cbn beta.
  eapply evb; [eapply ev_read_n; [exact SK|exact A4|cbn [getr setr fst snd]; rewrite <- ?app_assoc; reflexivity]|]. cbn [getr setr fst snd]. cbn beta.
  rd (@ev_read_slice2 E). apply ev_ret.
Qed.

Lemma vkk_at (v : evals E) w : same_wires w v ->
  skipn (Z.to_nat (vkk_off (Z.of_nat w))) (evals_bytes v) = slice1 (v_vkk v) ++ slice1 (v_ckk v) ++ v_cmt v.
Proof.
  intros [L1 [L2 L3]]. unfold evals_bytes.
  set (r := slice1 (v_vkk v) ++ slice1 (v_ckk v) ++ v_cmt v). rewrite !app_assoc.
  match goal with |- skipn ?n (?a ++ r) = r => replace n with (length a); [apply skipn_app_exact|] end. rewrite !app_length, !slice1_length, slice2_length, !g1c_len, g2c_len, L1, L2, L3. unfold vkk_off. lia.
Qed.
Definition pos_of (wr : Z -> Z) (w : Z) : Z := wr (wr (128 * wr (w + 1)) + 12)%Z.
Lemma pos64 w : (-1 <= w < 72057594037927935)%Z -> pos_of wrap64 w = vkk_off w.
Proof.
  intros H. unfold pos_of, vkk_off. rewrite (wrap64_small (w + 1)) by (unfold two63; lia).
  rewrite (wrap64_small (128 * _)) by (unfold two63; lia). apply wrap64_small. unfold two63. lia.
Qed.
Lemma wrap32_small z : (- 2147483648 <= z < 2147483648)%Z -> wrap32 z = z.
Proof. intros H. unfold wrap32. rewrite Z.mod_small; lia. Qed.
Lemma pos32 w : (-1 <= w < 16777215)%Z -> pos_of wrap32 w = vkk_off w.
Proof.
  intros H. unfold pos_of, vkk_off. rewrite (wrap32_small (w + 1)) by lia.
  rewrite (wrap32_small (128 * _)) by lia. apply wrap32_small. lia.
Qed.
Lemma pos32_neg w : (16777215 <= w < 33554431)%Z -> (pos_of wrap32 w < 0)%Z.
Proof.
  intros H. unfold pos_of. rewrite (wrap32_small (w + 1)) by lia.
  assert (Q : wrap32 (128 * (w + 1)) = (128 * (w + 1) - 4294967296)%Z).
  { unfold wrap32. rewrite <- (Z.mod_add _ (-1)) by lia. rewrite Z.mod_small by lia. lia. }
  rewrite Q, wrap32_small by lia. lia.
Qed.

Lemma read_vk_ok wr F h q v w : ph2 F h q -> smalls v -> same_wires w v -> h_wires h = Z.of_nat w ->
  pos_of wr (Z.of_nat w) = vkk_off (Z.of_nat w) -> exists s',
  ev (read_vk (E := E) wr) (opened F, opened (evals_bytes v)) (Ok (vk_of q v)) s' none.
Proof.
  intros [HO [SZ [pb [junk [EF [b1 [b2 [b3 [b4 [EP [I1 [I2 [A3 A4]]]]]]]]]]]]] [S1 [S2 [S3 [S4 S5]]]] SW HW HP.
  pose proof (is1_c (v_alpha v)) as Ia. pose proof (is1_c (v_beta1 v)) as Ib. pose proof (is2_c (v_beta2 v)) as Ib2.
  pose proof (vkk_at v w SW) as VK.
  remember (evals_bytes v) as G eqn:EG. eexists. unfold read_vk. eapply newrd_opened; [reflexivity|]. eapply newrd_opened; [reflexivity|].
  cbn [setr fst snd]. rewrite EG at 2. clear EG. unfold evals_bytes.
  rewrite EF at 2. clear EF. subst pb.
  rd (ev_read_hdr (gob_alt (e := E))). rewrite HW. change (wr (wr (128 * wr (Z.of_nat w + 1)) + 12)%Z) with (pos_of wr (Z.of_nat w)). rewrite HP.
  rd (@ev_decode1 E). rd (@ev_decode1 E). rd (@ev_decode2 E). rd (@ev_decode1 E). rd (@ev_decode2 E).
  eapply evb; [eapply ev_seek; [cbn [getr setr fst snd]; reflexivity|symmetry; apply Z2Nat.id; unfold vkk_off; lia]|].
  cbn [getr setr fst snd]. rewrite VK. cbn beta.
  eapply ev_newrd0; [cbn [getr setr fst snd]; reflexivity|]. cbn [getr setr fst snd].
  do 2 rd (@ev_read_slice1 E). apply ev_ret.
Qed.
(* an int that overflows *)
Lemma vk_negative wr (g sg : E) F G h t x d : F = gob_hdr h ++ t -> hdr_ok h -> (pos_of wr (h_wires h) < 0)%Z ->
  exec (extract_vk wr g sg) F G <> (Ok x, d).
Proof.
  intros EF HO N H. apply exec_ev in H. destruct H as [s' [D [H _]]]. apply vk_bwd in H. destruct H as [v H].
  unfold read_vk in H. do 2 apply newrd_inv in H.
  apply qbind_inv in H; [|apply quiet_hdr]. destruct H as [h' [s1 [R H]]].
  assert (h' = h).
  { cbn [getr setr fst snd] in R. unfold opened in R. rewrite !rd_buf_at in R. rewrite EF in R at 2.
    pose proof (ev_read_hdr (gob_alt (e := E)) false F defBuf 0 h t (at_ F defBuf 0 (gob_hdr h ++ t), at_ G defBuf 0 G) defBuf_gob HO eq_refl) as R2.
    destruct (ev_det _ _ _ _ _ _ _ _ R R2) as [X _]. now injection X. }
  subst h'. do 5 (apply qbind_inv in H; [|first [apply quiet_decode1|apply quiet_decode2]]; destruct H as [? [? [_ H]]]).
  apply qbind_inv in H; [|apply quiet_seek]. destruct H as [a [s2 [[w [S _]] _]]].
  fold (pos_of wr (h_wires h)) in S. unfold seek in S. cbn [run] in S.
  destruct (Z.ltb_spec (pos_of wr (h_wires h)) 0); [discriminate S|lia].
Qed.

(* ---- commands ---- *)
Lemma stage1 {X} (p : io X) a b o f r s' d c : f o = Some c ->
  ev p (opened (contents f a), opened (contents f b)) r s' d ->
  exists f', stage p a b [o] f = (r, f') /\ (forall x, x <> o -> f' x = f x) /\ f' o = Some (c ++ d 0%nat).
Proof.
  intros F0 H. destruct (stage_ev p a b [o] f r s' d H) as [f' [S [O W]]]. exists f'. split; [exact S|]. split.
  - intros x Hx. apply O. intros [<-|[]]. congruence.
  - rewrite (W ltac:(repeat constructor; auto) 0%nat o eq_refl) by congruence. now rewrite (contents_some f o c F0).
Qed.
Lemma c_header_run p f : exists r, c_header (E := E) p f = (r, f) /\
  forall g, exists s', ev (read_hdr2 (E := E) false) (at_ (contents f p) defBuf 0 (contents f p), g) r s' none.
Proof.
  set (F := contents f p).
  destruct (frame false F defBuf (read_hdr2 (E := E) false) 0 F (reads_hdr2 false)) as [r [p' [rest' Q]]].
  exists r. split.
  - unfold c_header, stage. fold F. cbn [run]. unfold opened at 1. cbn [getr fst]. rewrite rd_buf_at. cbn [setr snd].
    rewrite Q by reflexivity. reflexivity.
  - intros g. eexists. exists []. split; [apply Q; reflexivity|reflexivity].
Qed.
(* the programs start by reading the header *)
Definition starts {X} (P : io X) : Prop := exists K : hdr -> io X, P = NewRd false defBuf (NewRd true defBuf (bind (read_hdr2 (E := E) false) K)).
Lemma starts_header {X} (P : io X) p f G x s' d : starts P -> ev P (opened (contents f p), opened G) (Ok x) s' d ->
  exists h, c_header (E := E) p f = (Ok h, f).
Proof.
  intros [K ->] H. do 2 apply newrd_inv in H. apply qbind_inv in H; [|apply quiet_hdr]. destruct H as [h [s1 [R _]]].
  cbn [getr setr fst snd] in R. unfold opened in R. rewrite !rd_buf_at in R.
  destruct (c_header_run p f) as [r [Q1 Q2]]. destruct (Q2 (at_ G defBuf 0 G)) as [s2 Q3].
  destruct (ev_det _ _ _ _ _ _ _ _ R Q3) as [<- _]. eauto.
Qed.
Lemma starts_pk : starts (extract_pk (E := E)). Proof. eexists. reflexivity. Qed.
Lemma starts_split : starts (extract_split_pk (E := E)). Proof. eexists. reflexivity. Qed.
Lemma starts_vk wr (g sg : E) : starts (extract_vk wr g sg). Proof. eexists. reflexivity. Qed.

(* the shape of the commands: header, create the outputs, run *)
Definition creates (names : list string) : cmd unit := fold_left (fun c n => cbind c (fun _ => ccreate n)) names (cret tt).
Lemma creates_run_gen names : forall (c : cmd unit) f0 f, c f0 = (Ok tt, f) -> exists f',
  fold_left (fun c n => cbind c (fun _ => ccreate n)) names c f0 = (Ok tt, f') /\
  (forall x, ~ In x names -> f' x = f x) /\ (forall x, In x names -> f' x = Some []).
Proof.
  induction names as [|n names IH]; intros c f0 f H; cbn [fold_left]; [exists f; split; [auto|split; [auto|intros x []]]|].
  destruct (IH (cbind c (fun _ => ccreate n)) f0 (fset f n [])) as [f' [A [B C]]]; [rewrite (cbind_ok _ _ _ _ _ H); reflexivity|].
  exists f'. split; [exact A|]. split.
  - intros x Hx. rewrite B by (intros Q; apply Hx; now right). apply fset_other. intros ->. apply Hx. now left.
  - intros x [<-|Hx]; [|auto]. destruct (in_dec String.string_dec n names) as [I|I]; [auto|]. rewrite B by auto. apply fset_same.
Qed.
Lemma creates_run names f : exists f', creates names f = (Ok tt, f') /\
  (forall x, ~ In x names -> f' x = f x) /\ (forall x, In x names -> f' x = Some []).
Proof. now apply creates_run_gen with (f := f). Qed.

Definition extraction {X} (P : io X) (p : string) (names : list string) : cmd X :=
  (copen p ;;; copen evals_path ;;; c_header (E := E) p ;;; creates names ;;; stage P p evals_path names)%cmd.
Lemma extraction_fwd {X} (P : io X) p names f F G x s' d : starts P -> NoDup names -> ~ In p names -> ~ In evals_path names ->
  f p = Some F -> f evals_path = Some G -> ev P (opened F, opened G) (Ok x) s' d ->
  exists f', extraction P p names f = (Ok x, f') /\ (forall y, ~ In y names -> f' y = f y) /\
    forall o y, nth_error names o = Some y -> f' y = Some (d o).
Proof.
  intros ST ND Np Ne HF HG H. unfold extraction.
  rewrite (cbind_ok _ _ _ _ _ (copen_ok _ _ _ HF)), (cbind_ok _ _ _ _ _ (copen_ok _ _ _ HG)).
  rewrite <- (contents_some f p F HF) in H. destruct (starts_header P p f G x s' d ST H) as [h Q].
  rewrite (cbind_ok _ _ _ _ _ Q). destruct (creates_run names f) as [f1 [C1 [C2 C3]]]. rewrite (cbind_ok _ _ _ _ _ C1).
  assert (CF : contents f1 p = contents f p) by (unfold contents; now rewrite C2).
  assert (CG : contents f1 evals_path = G) by (unfold contents; now rewrite C2, HG).
  destruct (stage_ev P p evals_path names f1 (Ok x) s' d) as [f' [S [O W]]]; [now rewrite CF, CG|].
  exists f'. split; [exact S|]. split.
  - intros y Hy. now rewrite O, C2.
  - intros o y Hy. assert (I : In y names) by (eapply nth_error_In; eauto).
    rewrite (W ND o y Hy) by (rewrite C3 by auto; discriminate). unfold contents. now rewrite C3.
Qed.
Lemma extraction_bwd {X} (P : io X) p names f x f' : NoDup names -> ~ In p names -> ~ In evals_path names ->
  extraction P p names f = (Ok x, f') ->
  exists F G s' d, f p = Some F /\ f evals_path = Some G /\ ev P (opened F, opened G) (Ok x) s' d /\
    (forall y, ~ In y names -> f' y = f y) /\ forall o y, nth_error names o = Some y -> f' y = Some (d o).
Proof.
  intros ND Np Ne H. unfold extraction in H.
  unfold cbind at 1 in H. unfold copen at 1 in H. destruct (f p) as [F|] eqn:HF; [|discriminate].
  unfold cbind at 1 in H. unfold copen at 1 in H. destruct (f evals_path) as [G|] eqn:HG; [|discriminate].
  unfold cbind at 1 in H. destruct (c_header_run p f) as [r [Q1 _]]. rewrite Q1 in H. destruct r as [h|e|]; try discriminate.
  destruct (creates_run names f) as [f1 [C1 [C2 C3]]]. rewrite (cbind_ok _ _ _ _ _ C1) in H.
  assert (CF : contents f1 p = F) by (unfold contents; now rewrite C2, HF).
  assert (CG : contents f1 evals_path = G) by (unfold contents; now rewrite C2, HG).
  destruct (stage_inv _ _ _ _ _ _ _ H) as [s' [d [EV W]]]. rewrite CF, CG in EV.
  exists F, G, s', d. repeat (split; [solve [auto]|]). split.
  - intros y Hy. rewrite (stage_other _ _ _ _ _ _ _ _ H Hy). auto.
  - intros o y Hy. assert (I : In y names) by (eapply nth_error_In; eauto).
    rewrite (W ND o y Hy) by (rewrite C3 by auto; discriminate). unfold contents. now rewrite C3.
Qed.

Lemma append_inj s a b : String.append s a = String.append s b -> a = b.
Proof. induction s as [|c s IH]; cbn; intros H; [auto|]. injection H. auto. Qed.
Lemma append_len s a : String.length (String.append s a) = (String.length s + String.length a)%nat.
Proof. induction s as [|c s IH]; cbn; [auto|]. now rewrite IH. Qed.
Lemma save_inj s a b : save_path s a = save_path s b -> String.append a ".save" = String.append b ".save".
Proof. apply append_inj. Qed.
Lemma save_long s a x : save_path s a = x -> (5 <= String.length x)%nat.
Proof. intros <-. unfold save_path. rewrite !append_len. cbn. lia. Qed.
Lemma save_evals s a : (1 <= String.length a)%nat -> save_path s a <> evals_path.
Proof. intros L H. apply (f_equal String.length) in H. unfold save_path in H. rewrite !append_len in H. cbn in H. lia. Qed.
Lemma split_nodup s : NoDup (split_names s).
Proof.
  unfold split_names. cbn [List.map].
  repeat (constructor; [intros Q; cbn [In] in Q; repeat (destruct Q as [Q|Q]; [apply save_inj in Q; discriminate Q|]); exact Q|]).
  constructor.
Qed.
Lemma split_evals s : ~ In evals_path (split_names s).
Proof. intros Q. cbn [split_names List.map In] in Q. repeat (destruct Q as [Q|Q]; [revert Q; apply save_evals; cbn; lia|]). exact Q. Qed.

Lemma c_pk_eq p f : c_pk (E := E) p f = extraction (extract_pk (E := E)) p [pk_path] f. Proof. reflexivity. Qed.
Lemma c_split_pk_eq p s f : c_split_pk (E := E) p s f = extraction (extract_split_pk (E := E)) p (split_names s) f. Proof. reflexivity. Qed.
Lemma cbind_assoc {X Y W} (c : cmd X) (k : X -> cmd Y) (l : Y -> cmd W) f :
  cbind (cbind c k) l f = cbind c (fun x => cbind (k x) l) f.
Proof. unfold cbind. destruct (c f) as [[x|e|] f1]; reflexivity. Qed.
Lemma cbind_ext {X Y} (c : cmd X) (k l : X -> cmd Y) f : (forall x g, k x g = l x g) -> cbind c k f = cbind c l f.
Proof. intros H. unfold cbind. destruct (c f) as [[x|e|] f1]; auto. Qed.
Lemma c_vk_eq wr (g sg : E) p f : c_vk wr g sg p f = cbind (extraction (extract_vk wr g sg) p [vk_path]) (fun _ => cret tt) f.
Proof.
  unfold extraction. rewrite !cbind_assoc. unfold c_vk. apply cbind_ext. intros _ f1. rewrite !cbind_assoc.
  apply cbind_ext. intros _ f2. rewrite !cbind_assoc. apply cbind_ext. intros h f3. rewrite !cbind_assoc. reflexivity.
Qed.
Lemma c_split_vk_eq wr (g sg : E) p s f : c_split_vk wr g sg p s f =
  cbind (extraction (extract_vk wr g sg) p [vks_path s]) (fun ck => cbind (ccreate (ckey_path s)) (fun _ =>
    stage (bind (write_ 0 ck) (fun _ => write 0 ck)) (ckey_path s) (ckey_path s) [ckey_path s])) f.
Proof.
  unfold extraction. rewrite !cbind_assoc. unfold c_split_vk. apply cbind_ext. intros _ f1. rewrite !cbind_assoc.
  apply cbind_ext. intros _ f2. rewrite !cbind_assoc. apply cbind_ext. intros h f3. rewrite !cbind_assoc. reflexivity.
Qed.

Lemma pk_vk : pk_path <> vk_path. Proof. discriminate. Qed.
Lemma in1 (x y : string) : x <> y -> ~ In x [y]. Proof. intros H [Q|[]]. congruence. Qed.
Lemma nd1 (x : string) : NoDup [x]. Proof. repeat constructor. auto. Qed.

(* both commands succeed with the keys in the two files *)
Lemma extract_keys_run wr (g sg : E) p f F G h q k v s1 s2 : p <> pk_path -> p <> vk_path ->
  f p = Some F -> f evals_path = Some G ->
  ev (read_pk (E := E)) (opened F, opened G) (Ok (h, q)) s1 none -> new_domain (E := E) (h_domain h) = Some k ->
  ev (read_vk (E := E) wr) (opened F, opened G) (Ok v) s2 none ->
  exists f', extract_keys wr g sg p f = (Ok tt, f') /\
    f' pk_path = Some (pk_bytes k (u64 (h_wires h)) q) /\
    f' vk_path = Some (vk_bytes (ped (e := E) g sg (w_ck v)) (empty_info (E := E)) v) /\
    forall x, x <> pk_path -> x <> vk_path -> f' x = f x.
Proof.
  intros N1 N2 HF HG Hp ND Hv.
  destruct (extraction_fwd (extract_pk (E := E)) p [pk_path] f F G tt s1 _ starts_pk (nd1 _) (in1 _ _ N1) (in1 evals_path pk_path ltac:(discriminate))
    HF HG (pk_fwd _ _ _ _ _ Hp ND)) as [f1 [A1 [A2 A3]]].
  assert (HF1 : f1 p = Some F) by (rewrite A2; [exact HF|now apply in1]).
  assert (HG1 : f1 evals_path = Some G) by (rewrite A2; [exact HG|apply in1; discriminate]).
  destruct (extraction_fwd (extract_vk wr g sg) p [vk_path] f1 F G _ s2 _ (starts_vk wr g sg) (nd1 _) (in1 _ _ N2) (in1 evals_path vk_path ltac:(discriminate))
    HF1 HG1 (vk_fwd wr g sg _ _ _ Hv)) as [f2 [B1 [B2 B3]]].
  exists f2. split; [|split; [|split]].
  - unfold extract_keys. rewrite <- c_pk_eq in A1. rewrite (cbind_ok _ _ _ _ _ A1), c_vk_eq, (cbind_ok _ _ _ _ _ B1). reflexivity.
  - rewrite B2 by (apply in1; discriminate). exact (A3 0%nat pk_path eq_refl).
  - exact (B3 0%nat vk_path eq_refl).
  - intros x X1 X2. rewrite B2 by now apply in1. rewrite A2 by now apply in1. reflexivity.
Qed.
Lemma extract_split_run wr (g sg : E) p s f F G h q v s1 s2 : ~ In p (split_names s) -> p <> vks_path s ->
  f p = Some F -> f evals_path = Some G ->
  ev (read_pk (E := E)) (opened F, opened G) (Ok (h, q)) s1 none ->
  ev (read_vk (E := E) wr) (opened F, opened G) (Ok v) s2 none ->
  let ck := ped (e := E) g sg (w_ck v) in
  exists f', extract_split_keys wr g sg p s f = (Ok tt, f') /\
    (forall i x, nth_error (split_names s) i = Some x -> f' x = nth_error (split_bytes (u64 (h_domain h)) (u64 (h_wires h)) q) i) /\
    f' (vks_path s) = Some (vk_bytes ck (empty_info (E := E)) v) /\
    f' (ckey_path s) = Some (ck ++ ck) /\
    forall x, ~ In x (split_names s) -> x <> vks_path s -> x <> ckey_path s -> f' x = f x.
Proof.
  intros N1 N2 HF HG Hp Hv ck.
  assert (D1 : ~ In (vks_path s) (split_names s)).
  { intros Q. cbn [split_names List.map In] in Q. repeat (destruct Q as [Q|Q]; [apply save_inj in Q; discriminate Q|]). exact Q. }
  assert (D2 : ~ In (ckey_path s) (split_names s)).
  { intros Q. cbn [split_names List.map In] in Q. repeat (destruct Q as [Q|Q]; [apply save_inj in Q; discriminate Q|]). exact Q. }
  assert (D3 : vks_path s <> ckey_path s) by (intros Q; apply save_inj in Q; discriminate Q).
  assert (D4 : evals_path <> vks_path s) by (apply not_eq_sym, save_evals; cbn; lia).
  destruct (extraction_fwd (extract_split_pk (E := E)) p (split_names s) f F G tt s1 _ starts_split (split_nodup s) N1 (split_evals s)
    HF HG (split_fwd _ _ _ _ Hp)) as [f1 [A1 [A2 A3]]].
  assert (HF1 : f1 p = Some F) by (rewrite A2; [exact HF|auto]).
  assert (HG1 : f1 evals_path = Some G) by (rewrite A2; [exact HG|apply split_evals]).
  destruct (extraction_fwd (extract_vk wr g sg) p [vks_path s] f1 F G _ s2 _ (starts_vk wr g sg) (nd1 _) (in1 _ _ N2) (in1 _ _ D4)
    HF1 HG1 (vk_fwd wr g sg _ _ _ Hv)) as [f2 [B1 [B2 B3]]].
  fold ck in B1, B3.
  destruct (stage1 (bind (write_ 0 ck) (fun _ => write 0 ck)) (ckey_path s) (ckey_path s) (ckey_path s) (fset f2 (ckey_path s) []) (Ok tt)
    (opened (contents (fset f2 (ckey_path s) []) (ckey_path s)), opened (contents (fset f2 (ckey_path s) []) (ckey_path s)))
    (on 0 (ck ++ ck)) []) as [f3 [C1 [C2 C3]]]; [apply fset_same|eapply evw; [apply puts_write_|apply puts_write]|].
  assert (O3 : forall x, x <> ckey_path s -> f3 x = f2 x) by (intros x Hx; rewrite C2 by auto; now apply fset_other, not_eq_sym).
  exists f3. split; [|split; [|split; [|split]]].
  - unfold extract_split_keys. rewrite <- c_split_pk_eq in A1. rewrite (cbind_ok _ _ _ _ _ A1), c_split_vk_eq, (cbind_ok _ _ _ _ _ B1).
    unfold cbind, ccreate. exact C1.
  - intros i x Hx. assert (I : In x (split_names s)) by (eapply nth_error_In; eauto).
    rewrite O3 by (intros ->; auto). rewrite B2 by (apply in1; intros ->; auto). rewrite (A3 i x Hx).
    symmetry. apply nth_error_nth'. assert (i < length (split_names s)) by (apply nth_error_Some; congruence).
    cbn [split_names List.map length] in H. cbn [split_bytes length]. exact H.
  - rewrite O3 by auto. exact (B3 0%nat _ eq_refl).
  - exact C3.
  - intros x X1 X2 X3. rewrite O3 by auto. rewrite B2 by now apply in1. auto.
Qed.
(* inverse: success of extract_keys means the keys could be read *)
Lemma extract_keys_inv wr (g sg : E) p f f' : p <> pk_path -> p <> vk_path -> extract_keys wr g sg p f = (Ok tt, f') ->
  exists F G h q k v s1 s2, f p = Some F /\ f evals_path = Some G /\
    ev (read_pk (E := E)) (opened F, opened G) (Ok (h, q)) s1 none /\ new_domain (E := E) (h_domain h) = Some k /\
    ev (read_vk (E := E) wr) (opened F, opened G) (Ok v) s2 none.
Proof.
  intros N1 N2 H. unfold extract_keys in H. apply cbind_inv in H. destruct H as [x [f1 [H1 H2]]].
  rewrite c_pk_eq in H1. apply extraction_bwd in H1; [|apply nd1|now apply in1|apply in1; discriminate].
  destruct H1 as [F [G [s1 [d [HF [HG [H1 [A2 A3]]]]]]]].
  rewrite c_vk_eq in H2. apply cbind_inv in H2. destruct H2 as [ck [f2 [H2 _]]].
  apply extraction_bwd in H2; [|apply nd1|now apply in1|apply in1; discriminate].
  destruct H2 as [F2 [G2 [s2 [d2 [HF2 [HG2 [H2 _]]]]]]].
  rewrite A2 in HF2 by now apply in1. rewrite A2 in HG2 by (apply in1; discriminate).
  assert (F2 = F) by congruence. assert (G2 = G) by congruence. subst F2 G2. destruct x.
  destruct (pk_bwd _ _ _ H1) as [h [q [k [R ND]]]]. destruct (vk_bwd _ _ _ _ _ _ _ H2) as [v RV].
  exists F, G, h, q, k, v, s1, s2. auto.
Qed.
End Claims.
