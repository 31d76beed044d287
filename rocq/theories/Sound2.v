(* Sound2.v -- keys extracted from a file that p2v accepted, whatever its bytes. *)
From Coq Require Import Ring Field String.
From Verif Require Import Base Fld Poly BitRev IO Ext Spec1 Phase1 Phase1Io Phase1Verify Phase1Trans Phase1Facts Phase1Inv Phase1Claims Gob GobLemmas Circuit Spec2 Phase2 Phase2Io Phase2Lemmas Phase2Claims Phase2More Phase2Bad Spec3 Fs Init2 Init2Pure Init2Io Init2Claims Init2More Spec4 Keys KeysLemmas KeysClaims KeysProps.
Local Open Scope fld_scope.
Local Open Scope io_scope.

Section Sound.
Context {E : Ext2}.
Add Field Esnd : (f_th E).
Ltac rd L := rewrite <- ?app_assoc; eapply evb; [eapply L; [first [apply defBuf_big|apply defBuf_gob]| |cbn [getr setr fst snd]; reflexivity]; eassumption|];
  cbn [getr setr fst snd]; cbn beta.

(* F, read through handle c, is a phase-2 file with this header, however encoded, and these parameters *)
Definition opens2 (c : bool) (F : bytes) (h : hdr) (q : par2 E) : Prop := exists p b1 b2 b3 b4 junk,
  (forall s, getr c s = at_ F defBuf 0 F -> ev (read_hdr2 (E := E) c) s (Ok h) (setr c (at_ F defBuf p (b1 ++ b2 ++ b3 ++ b4 ++ junk)) s) none) /\
  is1 b1 (p_d1 q) /\ is2 b2 (p_d2 q) /\ are1 b3 (p_Z q) /\ are1 b4 (p_K q) /\
  wrap64 (h_domain h - 1) = Z.of_nat (length (p_Z q)) /\ h_witness h = Z.of_nat (length (p_K q)).

Lemma opens_file c F h q : ph2 F h q -> opens2 c F h q.
Proof.
  intros [HO [[SZ SK] [pb [junk [EF [b1 [b2 [b3 [b4 [-> [I1 [I2 [A3 A4]]]]]]]]]]]]].
  exists (0 + length (gob_hdr h))%nat, b1, b2, b3, b4, junk. split.
  - intros s G. eapply ev_read_hdr; [apply defBuf_gob|exact HO|]. rewrite G. rewrite EF at 2. now rewrite <- !app_assoc.
  - repeat (split; [assumption|]). split; [|exact SK]. rewrite <- SZ. apply wrap64_small. unfold hdr_ok, hdr_fields in HO. rewrite !Forall_cons_iff in HO.
    unfold int64, two63 in *. lia.
Qed.

Lemma reads_decodes1 c n : only_reads c (decodes1 (E := E) c n).
Proof. induction n as [|n IH]; cbn [decodes1]; [exact I|]. apply only_reads_bind; [apply reads_decode1|]. intros x. apply only_reads_bind; [exact IH|]. intros; exact I. Qed.
Lemma reads_slice1 c : only_reads c (read_slice1 (E := E) c).
Proof. apply only_reads_bind; [apply only_reads_full|]. intros; apply reads_decodes1. Qed.

Lemma dstep1 {Y} c file p rest (f : E -> io Y) s y s2 d : getr c s = at_ file defBuf p rest -> ev (bind (decode1 c) f) s (Ok y) s2 d ->
  exists x b t d', rest = b ++ t /\ is1 b x /\ ev (f x) (setr c (at_ file defBuf (p + length b) t) s) (Ok y) s2 d'.
Proof.
  intros G H. apply bind_ok_inv in H as [x [s1 [d1 [d2 [H1 [H2 _]]]]]].
  destruct (decode1_ok_inv c file defBuf p rest s x s1 d1 defBuf_big G H1) as [b [t [-> [I1 ->]]]]. eauto 10.
Qed.
Lemma dstep2 {Y} c file p rest (f : E -> io Y) s y s2 d : getr c s = at_ file defBuf p rest -> ev (bind (decode2 c) f) s (Ok y) s2 d ->
  exists x b t d', rest = b ++ t /\ is2 b x /\ ev (f x) (setr c (at_ file defBuf (p + length b) t) s) (Ok y) s2 d'.
Proof.
  intros G H. apply bind_ok_inv in H as [x [s1 [d1 [d2 [H1 [H2 _]]]]]].
  destruct (decode2_ok_inv c file defBuf p rest s x s1 d1 defBuf_big G H1) as [b [t [-> [I1 ->]]]]. eauto 10.
Qed.
Lemma nstep {Y} file p rest n (f : list E -> io Y) s y s2 d : getr false s = at_ file defBuf p rest -> ev (bind (read_n n) f) s (Ok y) s2 d ->
  exists l b t d', rest = b ++ t /\ are1 b l /\ n = Z.of_nat (length l) /\ ev (f l) (setr false (at_ file defBuf (p + length b) t) s) (Ok y) s2 d'.
Proof.
  intros G H. apply bind_ok_inv in H as [l [s1 [d1 [d2 [H1 [H2 _]]]]]]. unfold read_n in H1.
  destruct (Z.ltb_spec n 0); [destruct H1 as [w [H1 _]]; discriminate H1|].
  destruct (decodes1_inv false file defBuf defBuf_big _ p rest s l s1 d1 G H1) as [b [t [-> [I1 [L1 ->]]]]]. exists l, b, t, d2.
  repeat split; auto. lia.
Qed.

(* what extraction of the proving key saw *)
Lemma opens_pk F G h (pk : pkey E) s' : ev (read_pk (E := E)) (opened F, opened G) (Ok (h, pk)) s' none ->
  opens2 false F h (mkPar2 (q_delta pk) (q_delta2 pk) (q_Z pk) (q_K pk)).
Proof.
  unfold read_pk. intros H. apply newrd_inv, newrd_inv in H. cbn [getr setr fst snd] in H. unfold opened in H. rewrite !rd_buf_at in H.
  eapply step_inv in H; [|apply reads_hdr2|reflexivity]. destruct H as [h' [p [rest [e1 [RH H]]]]].
  eapply step_inv in H; [|apply reads_decode1|reflexivity]. destruct H as [a [p1 [r1 [e2 [_ H]]]]].
  eapply step_inv in H; [|apply reads_decode1|reflexivity]. destruct H as [b [p2 [r2 [e3 [_ H]]]]].
  eapply dstep1 in H; [|reflexivity]. destruct H as [x1 [b1 [t1 [e4 [-> [I1 H]]]]]].
  eapply step_inv in H; [|apply reads_decode2|reflexivity]. destruct H as [c [p3 [r3 [e5 [_ H]]]]].
  eapply dstep2 in H; [|reflexivity]. destruct H as [x2 [b2 [t2 [e6 [-> [I2 H]]]]]].
  eapply step_inv in H; [|apply reads_slice1|reflexivity]. destruct H as [lA [p4 [r4 [e7 [_ H]]]]].
  eapply step_inv in H; [|apply reads_slice1|reflexivity]. destruct H as [lB [p5 [r5 [e8 [_ H]]]]].
  eapply nstep in H; [|reflexivity]. destruct H as [lz [b3 [t3 [e9 [-> [I3 [N3 H]]]]]]].
  eapply nstep in H; [|reflexivity]. destruct H as [lk [b4 [t4 [e10 [-> [I4 [N4 H]]]]]]].
  apply bind_ok_inv in H as [lB2 [s6 [e11 [e12 [_ [H _]]]]]]. apply ret_inv in H as [H _]. injection H as <- <-.
  exists p, b1, b2, b3, b4, t4. cbn [q_delta q_delta2 q_Z q_K p_d1 p_d2 p_Z p_K]. split; [|auto 10].
  intros s G0. apply RH. exact G0.
Qed.
(* what it returns *)
Lemma read_pk_opens F h q v : opens2 false F h q -> smalls v -> exists s',
  ev (read_pk (E := E)) (opened F, opened (evals_bytes v)) (Ok (h, pk_of q v)) s' none.
Proof.
  intros [p [b1 [b2 [b3 [b4 [junk [RH [I1 [I2 [A3 [A4 [W SK]]]]]]]]]]]] [S1 [S2 [S3 [S4 S5]]]].
  pose proof (is1_c (v_alpha v)) as Ia. pose proof (is1_c (v_beta1 v)) as Ib. pose proof (is2_c (v_beta2 v)) as Ib2.
  remember (evals_bytes v) as G eqn:EG. eexists. unfold read_pk. eapply newrd_opened; [reflexivity|]. eapply newrd_opened; [reflexivity|].
  cbn [setr fst snd]. rewrite EG at 2. clear EG. unfold evals_bytes.
  eapply evb; [apply RH; reflexivity|]. cbn [getr setr fst snd]. cbn beta.
  do 2 rd (@ev_decode1 E). rd (@ev_decode1 E). rd (@ev_decode2 E). rd (@ev_decode2 E).
  do 2 rd (@ev_read_slice1 E).
  eapply evb; [eapply ev_read_n; [exact W|exact A3|cbn [getr setr fst snd]; rewrite <- ?app_assoc; reflexivity]|]. cbn [getr setr fst snd]. cbn beta.
  eapply evb; [eapply ev_read_n; [exact SK|exact A4|cbn [getr setr fst snd]; rewrite <- ?app_assoc; reflexivity]|]. cbn [getr setr fst snd]. cbn beta.
  rd (@ev_read_slice2 E). apply ev_ret.
Qed.
Lemma read_vk_opens wr F h q v w : opens2 false F h q -> smalls v -> same_wires w v -> h_wires h = Z.of_nat w ->
  pos_of wr (Z.of_nat w) = vkk_off (Z.of_nat w) -> exists s',
  ev (read_vk (E := E) wr) (opened F, opened (evals_bytes v)) (Ok (vk_of q v)) s' none.
Proof.
  intros [p [b1 [b2 [b3 [b4 [junk [RH [I1 [I2 [A3 [A4 [W SK]]]]]]]]]]]] [S1 [S2 [S3 [S4 S5]]]] SW HW HP.
  pose proof (is1_c (v_alpha v)) as Ia. pose proof (is1_c (v_beta1 v)) as Ib. pose proof (is2_c (v_beta2 v)) as Ib2.
  pose proof (vkk_at v w SW) as VK.
  remember (evals_bytes v) as G eqn:EG. eexists. unfold read_vk. eapply newrd_opened; [reflexivity|]. eapply newrd_opened; [reflexivity|].
  cbn [setr fst snd]. rewrite EG at 2. clear EG. unfold evals_bytes.
  eapply evb; [apply RH; reflexivity|]. cbn [getr setr fst snd]. cbn beta.
  rewrite HW. change (wr (wr (128 * wr (Z.of_nat w + 1)) + 12)%Z) with (pos_of wr (Z.of_nat w)). rewrite HP.
  rd (@ev_decode1 E). rd (@ev_decode1 E). rd (@ev_decode2 E). rd (@ev_decode1 E). rd (@ev_decode2 E).
  eapply evb; [eapply ev_seek; [cbn [getr setr fst snd]; reflexivity|symmetry; apply Z2Nat.id; unfold vkk_off; lia]|].
  cbn [getr setr fst snd]. rewrite VK. cbn beta.
  eapply ev_newrd0; [cbn [getr setr fst snd]; reflexivity|]. cbn [getr setr fst snd].
  do 2 rd (@ev_read_slice1 E). apply ev_ret.
Qed.

(* what an accepting p2v checked *)
Lemma param_inv {Y} bs (rho : nat -> nat -> E) fa fb dl gg n e (l1 l2 : list E) b1 b2 pa pb ta tb s (f : unit -> io Y) y s' d :
  1 <= bs -> n = Z.of_nat (length l1) -> length l2 = length l1 -> are1 b1 l1 -> are1 b2 l2 ->
  getr false s = at_ fa defBuf pa (b1 ++ ta) -> getr true s = at_ fb defBuf pb (b2 ++ tb) ->
  ev (bind (verify_param bs rho dl gg n e) f) s (Ok y) s' d ->
  agg bs rho l1 * dl = agg bs rho l2 * gg /\
  exists d', ev (f tt) (setr true (at_ fb defBuf (pb + length b2) tb) (setr false (at_ fa defBuf (pa + length b1) ta) s)) (Ok y) s' d'.
Proof.
  intros B N L A1 A2 G1 G2 H. apply bind_ok_inv in H as [[] [s1 [d1 [d2 [H1 [H2 _]]]]]].
  pose proof (ev_aggregate bs rho fa fb defBuf defBuf l1 l2 b1 b2 pa pb ta tb s n B defBuf_big defBuf_big N L A1 A2 G1 G2) as Q.
  unfold verify_param in H1. apply bind_ok_inv in H1 as [o [s2 [d3 [d4 [H3 [H4 _]]]]]].
  destruct (ev_det _ _ _ _ _ _ _ _ (ev_try_ok _ _ _ _ _ Q) H3) as [Q1 [Q2 _]]. injection Q1 as <-. subst s2. cbn beta iota in H4.
  destruct (same_ratio (agg bs rho l1) (agg bs rho l2) dl gg) eqn:SR; cbn [require] in H4.
  - apply ret_inv in H4 as [_ ->]. split; [|eauto]. unfold same_ratio in SR. apply feqb_ok in SR. exact SR.
  - destruct H4 as [w [H4 _]]. discriminate H4.
Qed.
Lemma accepted_params bs (rho : nat -> nat -> nat -> E) F G h ho (q qo : par2 E) hs : 1 <= bs ->
  opens2 false F h q -> opens2 true G ho qo -> fst (exec (verify2 bs rho) F G) = Ok hs ->
  hdr_eqb h ho = true /\ p_d1 qo * p_d2 q = p_d1 q * p_d2 qo /\
  length (p_Z qo) = length (p_Z q) /\ length (p_K qo) = length (p_K q) /\
  agg bs (rho 0%nat) (p_Z q) * p_d2 q = agg bs (rho 0%nat) (p_Z qo) * p_d2 qo /\
  agg bs (rho 1%nat) (p_K q) * p_d2 q = agg bs (rho 1%nat) (p_K qo) * p_d2 qo.
Proof.
  intros B [pa [a1 [a2 [a3 [a4 [ja [RA [I1 [I2 [I3 [I4 [WA SA]]]]]]]]]]]] [pb [c1 [c2 [c3 [c4 [jb [RB [J1 [J2 [J3 [J4 [WB SB]]]]]]]]]]]] H.
  destruct (exec (verify2 bs rho) F G) as [r dd] eqn:X. cbn [fst] in H. subst r.
  apply exec_ev in X as [s' [D [X _]]]. unfold verify2 in X.
  apply newrd_inv, newrd_inv in X. cbn [getr setr fst snd] in X. unfold opened in X. rewrite !rd_buf_at in X.
  apply bind_ok_inv in X as [cur [s1 [e1 [e2 [H1 [X _]]]]]].
  destruct (ev_det _ _ _ _ _ _ _ _ (RA (at_ F defBuf 0 F, at_ G defBuf 0 G) eq_refl) H1) as [Q1 [Q2 _]]. injection Q1 as <-. subst s1. clear H1.
  apply bind_ok_inv in X as [org [s1 [e3 [e4 [H1 [X _]]]]]].
  match type of H1 with ev _ ?st _ _ _ => destruct (ev_det _ _ _ _ _ _ _ _ (RB st eq_refl) H1) as [Q1 [Q2 _]] end. injection Q1 as <-. subst s1. clear H1.
  apply require_inv in X as [N0 X]. apply require_inv in X as [HE X].
  assert (F1 : forall {Y} c file p b t (x : E) (f : E -> io Y) s y s2 d, getr c s = at_ file defBuf p (b ++ t) -> is1 b x ->
     ev (bind (decode1 c) f) s (Ok y) s2 d -> exists d', ev (f x) (setr c (at_ file defBuf (p + length b) t) s) (Ok y) s2 d').
  { intros Y c file p b t x f s y s2 d G0 I0 H0. apply bind_ok_inv in H0 as [x' [s3 [d1 [d2 [H0 [H2 _]]]]]].
    destruct (ev_det _ _ _ _ _ _ _ _ (ev_decode1 c file defBuf p b x t s defBuf_big I0 G0) H0) as [Q1 [Q2 _]]. injection Q1 as <-. subst s3. eauto. }
  assert (F2 : forall {Y} c file p b t (x : E) (f : E -> io Y) s y s2 d, getr c s = at_ file defBuf p (b ++ t) -> is2 b x ->
     ev (bind (decode2 c) f) s (Ok y) s2 d -> exists d', ev (f x) (setr c (at_ file defBuf (p + length b) t) s) (Ok y) s2 d').
  { intros Y c file p b t x f s y s2 d G0 I0 H0. apply bind_ok_inv in H0 as [x' [s3 [d1 [d2 [H0 [H2 _]]]]]].
    destruct (ev_det _ _ _ _ _ _ _ _ (ev_decode2 c file defBuf p b x t s defBuf_big I0 G0) H0) as [Q1 [Q2 _]]. injection Q1 as <-. subst s3. eauto. }
  eapply F1 in X; [|reflexivity|exact J1]. destruct X as [e5 X].
  eapply F2 in X; [|reflexivity|exact J2]. destruct X as [e6 X].
  eapply F1 in X; [|reflexivity|exact I1]. destruct X as [e7 X].
  eapply F2 in X; [|reflexivity|exact I2]. destruct X as [e8 X].
  apply require_inv in X as [SR X]. unfold same_ratio in SR. apply feqb_ok in SR.
  pose proof (hdr_eqb_dom _ _ HE) as [HD HW].
  assert (L1 : length (p_Z qo) = length (p_Z q)) by (apply Nat2Z.inj; rewrite <- WA, <- WB; congruence).
  assert (L2 : length (p_K qo) = length (p_K q)) by (apply Nat2Z.inj; congruence).
  eapply param_inv in X; [|exact B|exact WA|exact L1|exact I3|exact J3|reflexivity|reflexivity]. destruct X as [Z1 [e9 X]].
  eapply param_inv in X; [|exact B|exact SA|exact L2|exact I4|exact J4|reflexivity|reflexivity]. destruct X as [K1 _].
  auto 10.
Qed.

(* two accepted choices of scalars that differ at one place *)
Lemma agg_unique bs (rho rho' : nat -> nat -> E) (L Lo : list E) (d e : E) k : 1 <= bs -> (k < length L)%nat -> length Lo = length L ->
  nth k L 0 * d <> nth k Lo 0 * e ->
  (forall b c, (b, c) <> ((length L - bs * (k / bs))%nat, (k mod bs)%nat) -> rho b c = rho' b c) ->
  agg bs rho L * d = agg bs rho Lo * e -> agg bs rho' L * d = agg bs rho' Lo * e ->
  rho (length L - bs * (k / bs))%nat (k mod bs)%nat = rho' (length L - bs * (k / bs))%nat (k mod bs)%nat.
Proof.
  intros B Hk Leq Bad Same Eq1 Eq2. set (n := length L) in *.
  assert (DF : forall X : list E, length X = n -> agg bs rho X - agg bs rho' X = nth k X 0 * (scal_of bs n rho k - scal_of bs n rho' k)).
  { intros X LX. unfold agg. rewrite LX. rewrite <- sumn_sub. rewrite (sumn_single _ n k _ Hk).
    - ring.
    - intros i Hi Ne. replace (scal_of bs n rho i) with (scal_of bs n rho' i); [ring|].
      unfold scal_of. symmetry. apply Same. intros Q. injection Q as Q1 Q2.
      apply Ne. rewrite (Nat.div_mod i bs), (Nat.div_mod k bs) by lia.
      assert (DB : forall j, (j < n)%nat -> (bs * (j / bs) <= j)%nat) by (intros; apply Nat.mul_div_le; lia).
      pose proof (DB i Hi). pose proof (DB k Hk). rewrite Q2. f_equal. lia. }
  assert (Fin : (nth k L 0 * d - nth k Lo 0 * e) * (scal_of bs n rho k - scal_of bs n rho' k) = 0).
  { pose proof (DF L eq_refl) as D1. pose proof (DF Lo Leq) as D2.
    transitivity ((nth k L 0 * (scal_of bs n rho k - scal_of bs n rho' k)) * d - (nth k Lo 0 * (scal_of bs n rho k - scal_of bs n rho' k)) * e); [ring|].
    rewrite <- D1, <- D2.
    transitivity ((agg bs rho L * d - agg bs rho Lo * e) - (agg bs rho' L * d - agg bs rho' Lo * e)); [ring|].
    rewrite Eq1, Eq2. ring. }
  apply fmul_0_iff in Fin as [Fin|Fin].
  - exfalso. apply Bad. transitivity (nth k L 0 * d - nth k Lo 0 * e + nth k Lo 0 * e); [ring|]. rewrite Fin. ring.
  - change (scal_of bs n rho k = scal_of bs n rho' k).
    transitivity (scal_of bs n rho k - scal_of bs n rho' k + scal_of bs n rho' k); [ring|]. rewrite Fin. ring.
Qed.

(* an accepting run of p2v in which one scalar had the only value that would do *)
Definition by_chance (bs : nat) (rho : nat -> nat -> nat -> E) (F G : bytes) : Prop :=
  exists sec b c, forall x hs, fst (exec (verify2 bs (put3 rho sec b c x)) F G) = Ok hs -> x = rho sec b c.
Lemma wrong_chance bs (rho : nat -> nat -> nat -> E) F G h ho (q qo : par2 E) sec k hs : 1 <= bs ->
  opens2 false F h q -> opens2 true G ho qo -> fst (exec (verify2 bs rho) F G) = Ok hs -> sec <= 1 ->
  (k < length (section2 sec q))%nat -> nth k (section2 sec q) 0 * p_d2 q <> nth k (section2 sec qo) 0 * p_d2 qo -> by_chance bs rho F G.
Proof.
  intros B OF OG A S Hk Bad. exists sec, (length (section2 sec q) - bs * (k / bs))%nat, (k mod bs)%nat. intros x hs' A'.
  destruct (accepted_params bs rho F G h ho q qo hs B OF OG A) as [_ [_ [L1 [L2 [Z1 K1]]]]].
  destruct (accepted_params bs _ F G h ho q qo hs' B OF OG A') as [_ [_ [_ [_ [Z2 K2]]]]].
  set (r' := put3 rho sec _ _ x) in *.
  pose proof (agg_unique bs (r' sec) (rho sec) (section2 sec q) (section2 sec qo) (p_d2 q) (p_d2 qo) k B Hk) as Q.
  assert (QQ : r' sec (length (section2 sec q) - bs * (k / bs))%nat (k mod bs)%nat = rho sec (length (section2 sec q) - bs * (k / bs))%nat (k mod bs)%nat).
  { apply Q; auto.
    - unfold section2. destruct (Nat.eqb sec 0); assumption.
    - intros b c N. unfold r', put3. rewrite Nat.eqb_refl. cbn [andb]. destruct (Nat.eqb_spec b (length (section2 sec q) - bs * (k / bs))); [|reflexivity].
      destruct (Nat.eqb_spec c (k mod bs)); [subst; contradiction N; reflexivity|reflexivity].
    - unfold section2. destruct sec as [|[|]]; [exact Z2|exact K2|lia].
    - unfold section2. destruct sec as [|[|]]; [exact Z1|exact K1|lia]. }
  unfold r' in QQ. now rewrite put3_eq in QQ.
Qed.
Lemma find_bad (L Lo : list E) (d e : E) : length Lo = length L ->
  (forall k, (k < length L)%nat -> nth k L 0 * d = nth k Lo 0 * e) \/ exists k, (k < length L)%nat /\ nth k L 0 * d <> nth k Lo 0 * e.
Proof.
  revert Lo. induction L as [|x L IH]; intros [|y Lo] H; try discriminate.
  - left. intros k K. cbn in K. lia.
  - destruct (feqb (x * d) (y * e)) eqn:Q.
    + apply feqb_ok in Q. destruct (IH Lo ltac:(cbn in H; lia)) as [A|[k [K N]]].
      * left. intros [|k] K; [exact Q|]. apply A. cbn in K. lia.
      * right. exists (S k). split; [cbn; lia|exact N].
    + right. exists 0%nat. split; [cbn; lia|]. cbn. intros X. rewrite X, feqb_refl in Q. discriminate.
Qed.
Lemma divided (L Lo : list E) (d : E) : d <> 0 -> length Lo = length L -> (forall k, (k < length L)%nat -> nth k L 0 * d = nth k Lo 0 * 1) ->
  L = map (fun x => x / d) Lo.
Proof.
  intros D. revert Lo. induction L as [|x L IH]; intros [|y Lo] H K; try discriminate; [reflexivity|]. cbn [map]. f_equal.
  - specialize (K 0%nat ltac:(cbn; lia)). cbn in K. transitivity (x * d / d); [field; exact D|]. rewrite K. field. exact D.
  - apply IH; [cbn in H; lia|]. intros k Hk. exact (K (S k) ltac:(cbn; lia)).
Qed.
(* the parameters of an accepted file are those of the origin, contributed to *)
Lemma accepted_scaled bs (rho : nat -> nat -> nat -> E) F G h ho (q qo : par2 E) hs : 1 <= bs ->
  opens2 false F h q -> opens2 true G ho qo -> fst (exec (verify2 bs rho) F G) = Ok hs ->
  p_d1 qo = 1 -> p_d2 qo = 1 -> (exists x, In x (p_Z qo ++ p_K qo) /\ x <> 0) ->
  (p_d1 q <> 0 /\ q = upd_par2 (p_d1 q) qo) \/ by_chance bs rho F G.
Proof.
  intros B OF OG A O1 O2 [x0 [I0 N0]].
  destruct (accepted_params bs rho F G h ho q qo hs B OF OG A) as [_ [DD [L1 [L2 _]]]].
  rewrite O1, O2 in DD. assert (D12 : p_d2 q = p_d1 q) by (transitivity (1 * p_d2 q); [ring|]; rewrite DD; ring).
  destruct (find_bad (p_Z q) (p_Z qo) (p_d2 q) (p_d2 qo) L1) as [ZG|[k [K N]]].
  2:{ right. exact (wrong_chance bs rho F G h ho q qo 0 k hs B OF OG A ltac:(lia) K N). }
  destruct (find_bad (p_K q) (p_K qo) (p_d2 q) (p_d2 qo) L2) as [KG|[k [K N]]].
  2:{ right. exact (wrong_chance bs rho F G h ho q qo 1 k hs B OF OG A ltac:(lia) K N). }
  left. rewrite O2, D12 in ZG, KG.
  assert (D : p_d1 q <> 0).
  { intros D0. apply N0. apply in_app_or in I0. destruct I0 as [I0|I0]; apply (In_nth _ _ 0) in I0 as [k [K EK]].
    - specialize (ZG k ltac:(lia)). rewrite EK, D0 in ZG. transitivity (x0 * 1); [ring|]. rewrite <- ZG. ring.
    - specialize (KG k ltac:(lia)). rewrite EK, D0 in KG. transitivity (x0 * 1); [ring|]. rewrite <- KG. ring. }
  split; [exact D|]. destruct q as [d1 d2 z kk]. cbn [p_d1 p_d2 p_Z p_K] in *. unfold upd_par2. rewrite O1, O2, D12. f_equal; try ring.
  - now apply divided.
  - now apply divided.
Qed.

(* C67 *)
Lemma accepted_keys p T A Bt (cs : r1cs E) f p1 r1 p2 k :
  init_input p (srs_of p T A Bt) cs f p1 r1 p2 -> no_cmt cs -> (N.of_nat (wires cs) < 4294967296)%N ->
  is_dom (length (r_cons cs)) k -> T ^ (2 ^ k) <> 1 ->
  exists fa F0 G, p2n (E := E) p1 r1 p2 f = (Ok tt, fa) /\ fa p2 = Some F0 /\ fa evals_path = Some G /\
  forall bs rho F hs g sg pz f1 f2, 1 <= bs -> fst (exec (verify2 bs rho) F F0) = Ok hs ->
    pz <> pk_path -> pz <> vk_path -> f1 pz = Some F -> f1 evals_path = Some G -> extract_keys wrap64 g sg pz f1 = (Ok tt, f2) ->
    by_chance bs rho F F0 \/
    exists D (q : pkey E) (v : vkey E), D <> 0 /\
      f2 pk_path = Some (pk_bytes k (N.of_nat (wires cs)) q) /\
      f2 vk_path = Some (vk_bytes (ped (e := E) g sg []) (empty_info (E := E)) v) /\
      is_keypair cs k (root k) A Bt D T q v.
Proof.
  intros HI Hnc HW KD TN.
  destruct (after_ceremony p T A Bt cs f p1 r1 p2 1 [] HI Hnc HW (le_n 1) ltac:(cbn; lia)) as
    [fa [k' [t [z [h [q0 [v [H1 [_ [H3 [H4 [H5 [H6 [H7 [H8 [H9 [H10 [H11 [H12 [H13 [H14 H15]]]]]]]]]]]]]]]]]]]]].
  assert (k' = k) by (destruct KD as [K1 [K2 K3]], H5 as [J1 [J2 J3]]; specialize (K3 k' J1 J2); specialize (J3 k K1 K2); lia). subst k'.
  exists fa, (file2 h q0 []), (evals_bytes v). split; [exact H1|]. split; [exact H3|]. split; [exact H4|].
  intros bs rho F hs g sg pz f1 f2 B V N1 N2 HF HG X.
  destruct (extract_keys_inv wrap64 g sg pz f1 f2 N1 N2 X) as [F' [G' [hh [qq [k2 [vv [s1 [s2 [EF [EG [RP [ND RV]]]]]]]]]]]].
  assert (F' = F) by congruence. assert (G' = evals_bytes v) by congruence. subst F' G'.
  pose proof (opens_pk _ _ _ _ _ RP) as OF. set (q := mkPar2 (q_delta qq) (q_delta2 qq) (q_Z qq) (q_K qq)) in *.
  assert (SZ : sized2 h q0).
  { rewrite H9, H10. split; unfold hdr_of; cbn [h_domain h_witness p_Z p_K].
    - rewrite (proj1 H8). pose proof (pow2_pos k). lia.
    - now rewrite map_length, seq_length. }
  assert (PH : ph2 (file2 h q0 []) h q0).
  { apply file2_ph2; [|exact SZ]. rewrite H9. destruct (init_dom _ _ _ _ _ _ _ HI) as [k' [KD' [K27 _]]].
    assert (k' = k) by (destruct KD as [K1 [K2 K3]], KD' as [J1 [J2 J3]]; specialize (K3 k' J1 J2); specialize (J3 k K1 K2); lia). subst k'.
    pose proof HI as [_ [_ [_ [_ [_ [_ [_ [L27 _]]]]]]]]. now apply hdr_of_ok. }
  pose proof (opens_file true _ _ _ PH) as OG.
  destruct (accepted_params bs rho F _ hh h q q0 hs B OF OG V) as [HE _].
  assert (Nz : exists x, In x (p_Z q0 ++ p_K q0) /\ x <> 0).
  { exists (T ^ (2 ^ k) - 1). split.
    - apply in_or_app. left. rewrite H10. cbn [p_Z]. destruct H8 as [_ H8]. apply nth_error_In with (n := 0%nat).
      rewrite (H8 0%nat 0%nat); [cbn [fpow]; f_equal; ring| |].
      + pose proof (Nat.pow_le_mono_r 2 1 k ltac:(lia) ltac:(lia)) as Q. change (2 ^ 1)%nat with 2%nat in Q. lia.
      + split; [pose proof (pow2_pos k); lia|]. intros i Hi. now rewrite !Nat.bits_0.
    - intros Q. apply TN. transitivity (T ^ (2 ^ k) - 1 + 1); [ring|]. rewrite Q. ring. }
  destruct (accepted_scaled bs rho F _ hh h q q0 hs B OF OG V ltac:(now rewrite H10) ltac:(now rewrite H10) Nz) as [[D Q]|C]; [right|left; exact C].
  destruct (read_pk_opens F hh q v OF H13) as [s3 RP'].
  destruct (hdr_eqb_dom _ _ HE) as [HD _].
  assert (HWZ : h_wires hh = Z.of_nat (wires cs)).
  { unfold hdr_eqb in HE. rewrite !andb_true_iff, !Z.eqb_eq in HE. destruct HE as [[[[[HE _] _] _] _] _]. rewrite HE, H9. reflexivity. }
  destruct (read_vk_opens wrap64 F hh q v (wires cs) OF H13 H14 HWZ) as [s4 RV']; [apply pos64; lia|].
  destruct (extract_keys_run wrap64 g sg pz f1 F (evals_bytes v) _ _ k _ s3 s4 N1 N2 HF HG RP' ltac:(now rewrite HD) RV') as [fb [B1 [B2 [B3 _]]]].
  rewrite X in B1. injection B1 as <-. exists (p_d1 q), (pk_of q v), (vk_of q v). split; [exact D|]. split; [|split].
  - rewrite B2, HWZ, u64_nat by lia. reflexivity.
  - rewrite B3. unfold vk_of. cbn [w_ck]. rewrite H11. cbn [v_ckk]. reflexivity.
  - rewrite H10 in Q. revert Q. generalize (p_d1 q). intros D' Q. rewrite Q, H11. now apply keypair_of.
Qed.
End Sound.
