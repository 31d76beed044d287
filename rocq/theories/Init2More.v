(* Init2More.v -- p2n and p2np as commands: results, trapdoor form, panics, agreement. *)
From Coq Require Import ZifyNat ZifyN Sorting.Sorted.
From Verif Require Import Base Fld Conc Parallel BitRev FFT Poly IO Ext Spec1 Phase1 Phase1Io Phase1Inv Phase1Trans Gob GobLemmas Circuit Spec2 Spec3 Fs Init2 Init2Pure Init2Io Interp Init2Claims Phase1Verify.
Local Open Scope fld_scope.

(* ---- commands only append to an existing file, unless they create it ---- *)
Definition cext {X} (q : string) (c : cmd X) : Prop :=
  forall f r f' b, c f = (r, f') -> f q = Some b -> exists x, f' q = Some (b ++ x).
Lemma wapply_ext outs q w : forall f b, f q = Some b -> exists x, wapply outs w f q = Some (b ++ x).
Proof.
  induction w as [|[o d] w IH]; intros f b H; [exists []; cbn; now rewrite app_nil_r|].
  change (exists x, wapply outs w (wstep outs f (o, d)) q = Some (b ++ x)).
  assert (X : exists y, wstep outs f (o, d) q = Some (b ++ y)).
  { unfold wstep. cbn [fst snd]. destruct (nth_error outs o) as [p|]; [|exists []; now rewrite app_nil_r].
    destruct (String.eqb_spec p q) as [->|N]; [rewrite fset_same; unfold contents; rewrite H; eauto|].
    rewrite fset_other by auto. exists []. now rewrite app_nil_r. }
  destruct X as [y Y]. destruct (IH _ _ Y) as [x Hx]. exists (y ++ x). now rewrite app_assoc.
Qed.
Lemma cext_stage {X} q (p : io X) a b outs : cext q (stage p a b outs).
Proof.
  intros f r f' c H F. unfold stage in H. destruct (run p _) as [[r0 s] w]. injection H as <- <-. now apply wapply_ext.
Qed.
Lemma cext_bind {X Y} q (c : cmd X) (k : X -> cmd Y) : cext q c -> (forall x, cext q (k x)) -> cext q (cbind c k).
Proof.
  intros H1 H2 f r f' b H F. unfold cbind in H. destruct (c f) as [[x|e|] f1] eqn:E.
  - destruct (H1 _ _ _ _ E F) as [y Hy]. destruct (H2 x _ _ _ _ H Hy) as [z Z]. exists (y ++ z). now rewrite app_assoc.
  - injection H as <- <-. eapply H1; eauto.
  - injection H as <- <-. eapply H1; eauto.
Qed.
Lemma cext_open q p : cext q (copen p).
Proof. intros f r f' b H F. injection H as <- <-. exists []. now rewrite app_nil_r. Qed.
Lemma cext_boom {X} q : cext q (@cboom X).
Proof. intros f r f' b H F. injection H as <- <-. exists []. now rewrite app_nil_r. Qed.
Lemma cext_create q p : p <> q -> cext q (ccreate p).
Proof. intros N f r f' b H F. injection H as <- <-. exists []. now rewrite fset_other, app_nil_r. Qed.
Lemma cbind_inv {X Y} (c : cmd X) (k : X -> cmd Y) f y f' : cbind c k f = (Ok y, f') ->
  exists x f1, c f = (Ok x, f1) /\ k x f1 = (Ok y, f').
Proof. unfold cbind. destruct (c f) as [[x|e|] f1]; intros H; try discriminate. eauto. Qed.
Lemma stage_inv {X} (p : io X) a b outs f x f' : stage p a b outs f = (Ok x, f') ->
  exists s' d, ev p (opened (contents f a), opened (contents f b)) (Ok x) s' d /\
    (NoDup outs -> forall o q, nth_error outs o = Some q -> f q <> None -> f' q = Some (contents f q ++ d o)).
Proof.
  intros H. destruct (ev_total p (opened (contents f a), opened (contents f b))) as [r [s' [d EV]]].
  destruct (stage_ev p a b outs f r s' d EV) as [g [S [_ W]]]. rewrite H in S. injection S as <- <-. eauto.
Qed.
Lemma stage_other {X} (p : io X) a b outs f r f' q : stage p a b outs f = (r, f') -> ~ In q outs -> f' q = f q.
Proof. unfold stage. destruct (run p _) as [[r0 s] w]. intros H N. injection H as <- <-. now apply wapply_other. Qed.

Section More.
Context {E : Ext2}.
Add Field Kfld : (f_th E).

Lemma cext_r1cs q p : cext q (read_r1cs (E := E) p).
Proof.
  apply cext_bind; [apply cext_open|]. intros _ f r f' b H F. exists []. rewrite app_nil_r.
  destruct (parse_r1cs _); injection H as <- <-; auto.
Qed.
Lemma cext_lag q p1 p2 pw h : lag_path <> q -> cext q (c_lagrange (E := E) p1 p2 pw h).
Proof.
  intros N. unfold c_lagrange. destruct (new_domain _); [|apply cext_boom].
  apply cext_bind; [now apply cext_create|intros ?; apply cext_stage].
Qed.
Lemma read_r1cs_inv p f (cs : r1cs E) f' : read_r1cs p f = (Ok cs, f') ->
  f' = f /\ exists rb, f p = Some rb /\ parse_r1cs rb = Some cs.
Proof.
  unfold read_r1cs, cbind, copen, contents. destruct (f p) as [rb|] eqn:Fp; [|discriminate].
  destruct (parse_r1cs rb) as [c|] eqn:P; intros H; [|discriminate]. injection H as <- <-. eauto.
Qed.

(* ---- the header of an accepted circuit ---- *)
Lemma process_header_inv (cs : r1cs E) nb st F pw h st' d : getr false st = opened F ->
  ev (process_header cs nb) st (Ok (pw, h)) st' d ->
  exists dom t, next_pow2 nb = Some dom /\ F = pw :: t /\ (nb <= pow2 pw)%Z /\ h = header2_of cs nb dom /\
    forall o, d o = on 0 (gob_hdr h) o.
Proof.
  intros G H. unfold process_header in H. destruct (next_pow2 nb) as [dom|]; cbn [orBoom] in H.
  2: { destruct H as [w [H _]]. discriminate. }
  apply bind_ok_inv in H. destruct H as [[pw' n] [s1 [d1 [d2 [H1 [H2 HD]]]]]].
  assert (D1 : forall o, d1 o = []).
  { destruct H1 as [w1 [R1 W1]]. intros o. rewrite <- W1. unfold read_header in R1. cbn [run] in R1.
    destruct (rd_read 1 (getr false st)) as [[[|x l]|] r]; cbn in R1; try (injection R1 as _ _ <-; reflexivity).
    destruct (rd_read 2 _) as [[c|] r']; cbn in R1; [|now injection R1 as _ _ <-].
    destruct (c ++ _) as [|c0 [|c1 ?]]; cbn in R1; injection R1; intros; subst; reflexivity. }
  destruct (read_header_inv _ _ _ _ _ _ _ G H1) as [t [_ [_ HF]]]. cbn beta iota in H2.
  destruct (Z.ltb_spec (pow2 pw') nb) as [L|L]; [destruct H2 as [w [H2 _]]; discriminate|].
  apply bind_ok_inv in H2. destruct H2 as [u [s2 [d3 [d4 [H3 [H4 HD2]]]]]].
  pose proof (ev_write_hdr 0 (header2_of cs nb dom) s1) as HW. destruct (ev_det _ _ _ _ _ _ _ _ HW H3) as [_ [_ D3]].
  destruct H4 as [w [H4 W4]]. cbn in H4. injection H4 as <- <- _ <-.
  assert (HF' : exists t', F = pw' :: t') by (destruct HF as [->|[-> _]]; eauto).
  destruct HF' as [t' HF']. exists dom, t'. split; [auto|]. split; [auto|]. split; [lia|]. split; [auto|].
  intros o. rewrite HD, D1, HD2, <- D3, <- W4. cbn. now rewrite app_nil_r.
Qed.

Lemma pow2_ge1 pw nb p : bN pw = N.of_nat p -> 1 <= p -> (0 <= nb <= pow2 pw)%Z -> (nb <= 2 ^ Z.of_nat p)%Z.
Proof.
  intros Hb Hp H. unfold pow2 in H. rewrite Hb in H. destruct (N.ltb_spec (N.of_nat p) 63).
  - now rewrite nat_N_Z in H.
  - unfold two63 in H. lia.
Qed.

Lemma p2n_header f p1 r1 p2 f' : p2n (E := E) p1 r1 p2 f = (Ok tt, f') ->
  p1 <> p2 -> r1 <> p2 -> p2 <> lag_path -> p2 <> evals_path ->
  exists pw rest rb (cs : r1cs E) k h tl,
    f p1 = Some (pw :: rest) /\ f r1 = Some rb /\ parse_r1cs rb = Some cs /\
    f' p2 = Some (gob_hdr h ++ tl) /\ is_dom (length (r_cons cs)) k /\ h_domain h = Z.of_nat (2 ^ k) /\
    ((1 <= bN pw)%N -> k <= N.to_nat (bN pw)) /\
    h = header2_of cs (Z.of_nat (length (r_cons cs))) (Z.of_nat (2 ^ k)).
Proof.
  intros H N1 N2 N3 N4. unfold p2n in H.
  apply cbind_inv in H. destruct H as [[] [f0 [H0 H]]].
  unfold copen in H0. destruct (f p1) as [F|] eqn:F1; [|discriminate]. injection H0 as <-.
  apply cbind_inv in H. destruct H as [[] [f1 [H1 H]]]. unfold ccreate in H1. injection H1 as <-.
  unfold init_steps in H.
  apply cbind_inv in H. destruct H as [cs [f2 [H2 H]]]. apply read_r1cs_inv in H2. destruct H2 as [-> [rb [R1 R2]]].
  rewrite fset_other in R1 by auto.
  apply cbind_inv in H. destruct H as [[pw h] [f3 [H3 H]]].
  destruct (stage_inv _ _ _ _ _ _ _ H3) as [s' [d [EV W]]].
  assert (C1 : contents (fset f p2 []) p1 = F) by (rewrite contents_other by auto; now apply contents_some).
  rewrite C1 in EV. destruct (process_header_inv _ _ (opened F, opened F) F _ _ _ _ eq_refl EV) as [dom [t [D1 [D2 [D3 [D4 D5]]]]]].
  assert (G3 : f3 p2 = Some (gob_hdr h)).
  { rewrite (W ltac:(constructor; [intros []|constructor]) 0%nat p2 eq_refl) by (rewrite fset_same; discriminate).
    rewrite contents_same, D5. reflexivity. }
  cbn beta iota in H. match type of H with ?c f3 = _ => assert (X : cext p2 c) end.
  { repeat first [apply cext_r1cs | apply cext_stage | apply cext_open | (apply cext_create; congruence) | (apply cext_lag; congruence)
                 | apply cext_bind; [|intros ?]]. }
  destruct (X _ _ _ _ H G3) as [tl T].
  assert (L27 : (Z.of_nat (length (r_cons cs)) <= 2 ^ 27)%Z).
  { destruct (Z.le_gt_cases (Z.of_nat (length (r_cons cs))) (2 ^ 27)) as [|G]; [auto|].
    apply (proj2 (next_pow2_spec _)) in G. congruence. }
  destruct (dom_ex _ L27) as [k [K27 [KD K]]]. rewrite K in D1. injection D1 as <-.
  exists pw, t, rb, cs, k, h, tl. rewrite D2 in *. repeat (split; [solve [auto]|]).
  split; [rewrite D4; unfold header2_of; now destruct (is_cmt _)|].
  split; [|auto]. intros Hb.
  apply KD; [lia|]. pose proof (pow2_ge1 pw (Z.of_nat (length (r_cons cs))) (N.to_nat (bN pw)) ltac:(lia) ltac:(lia) ltac:(lia)) as P.
  assert (PE : (2 ^ Z.of_nat (N.to_nat (bN pw)))%Z = Z.of_nat (2 ^ N.to_nat (bN pw))) by now rewrite Nat2Z.inj_pow.
  rewrite PE in P. lia.
Qed.

(* ---- results ---- *)
(* init_input with any file in which the fixed offsets show the parameters S0 *)
Definition init_at (p : nat) (S0 : srs E) (cs : r1cs E) (f : fs) (p1 r1 p2 : string) : Prop :=
  names_ok p1 r1 p2 /\ 1 <= p <= 54 /\ sized p S0 /\
  (exists F, f p1 = Some F /\ seen p S0 F) /\
  (exists rb, f r1 = Some rb /\ parse_r1cs rb = Some cs) /\
  circuit_ok cs /\ length (r_cons cs) <= 2 ^ p /\ (Z.of_nat (length (r_cons cs)) <= 2 ^ 27)%Z /\
  1 <= kmax E /\ length (r_cons cs) <= 2 ^ kmax E.
Lemma init_input_at p S0 (cs : r1cs E) f p1 r1 p2 : init_input p S0 cs f p1 r1 p2 -> init_at p S0 cs f p1 r1 p2.
Proof.
  intros [HN [Hp [HS [[c0 [c1 [tail F1]]] R]]]]. split; [exact HN|]. split; [exact Hp|]. split; [exact HS|]. split; [|exact R].
  eexists. split; [exact F1|]. now apply seen_file.
Qed.
Lemma init_dom_at p S0 (cs : r1cs E) f p1 r1 p2 : init_at p S0 cs f p1 r1 p2 ->
  exists k, is_dom (length (r_cons cs)) k /\ k <= 27 /\ k <= kmax E /\ k <= p /\
    next_pow2 (Z.of_nat (length (r_cons cs))) = Some (Z.of_nat (2 ^ k)).
Proof.
  intros [_ [Hp [_ [_ [_ [_ [L1 [L2 [K1 K2]]]]]]]]].
  destruct (dom_ex _ L2) as [k [K27 [KD K]]]. exists k. pose proof KD as [D1 [D2 D3]].
  split; [exact KD|]. split; [exact K27|]. split; [now apply D3|]. split; [apply D3; auto; lia|exact K].
Qed.
Lemma init_dom p S0 (cs : r1cs E) f p1 r1 p2 : init_input p S0 cs f p1 r1 p2 ->
  exists k, is_dom (length (r_cons cs)) k /\ k <= 27 /\ k <= kmax E /\ k <= p /\
    next_pow2 (Z.of_nat (length (r_cons cs))) = Some (Z.of_nat (2 ^ k)).
Proof. intros HI. exact (init_dom_at _ _ _ _ _ _ _ (init_input_at _ _ _ _ _ _ _ HI)). Qed.
Lemma p2n_start p1 r1 p2 f b : f p1 = Some b ->
  p2n (E := E) p1 r1 p2 f =
  init_steps (E := E) (read_r1cs r1) (fun cs => Some (r_cons cs)) (fun cs => Z.of_nat (length (r_cons cs))) p1 p2 (fset f p2 []).
Proof. intros F1. unfold p2n, cbind, copen, ccreate. now rewrite F1. Qed.
Lemma p2np_start (cs : r1cs E) p1 p2 nb f b : f p1 = Some b ->
  p2np cs p1 p2 nb f =
  init_steps (cret cs) (fun cs => parted_cons cs nb) (fun _ => nb) p1 p2 (fset f p2 []).
Proof. intros F1. unfold p2np, cbind, copen, ccreate. now rewrite F1. Qed.
Lemma read_r1cs_ok r1 (g : fs) rb (cs : r1cs E) : g r1 = Some rb -> parse_r1cs rb = Some cs -> read_r1cs r1 g = (Ok cs, g).
Proof. intros R P. unfold read_r1cs, cbind, copen, contents. now rewrite R, P. Qed.

Lemma p2n_split p S0 (cs : r1cs E) f p1 r1 p2 pkk vkk ckk k : init_at p S0 cs f p1 r1 p2 ->
  is_dom (length (r_cons cs)) k ->
  let h := header2_of cs (Z.of_nat (length (r_cons cs))) (Z.of_nat (2 ^ k)) in
  (forall t a b, filterL (Lsum cs t a b) h (r_cmt cs) = Some (pkk t a b, vkk t a b, ckk t a b)) ->
  exists f' t a b t2 z,
    p2n (E := E) p1 r1 p2 f = (Ok tt, f') /\ only3 p2 f f' /\
    lag_basis (2 ^ k) (root k) (firstn (2 ^ k) (tau1 S0)) t /\
    lag_basis (2 ^ k) (root k) (firstn (2 ^ k) (alpha1 S0)) a /\
    lag_basis (2 ^ k) (root k) (firstn (2 ^ k) (beta1 S0)) b /\
    lag_basis (2 ^ k) (root k) (firstn (2 ^ k) (tau2 S0)) t2 /\
    is_z k (tau1 S0) z /\
    f' lag_path = Some (lag_bytes t a b t2) /\
    f' evals_path = Some (evals_bytes (evals_of cs S0 t a b t2 (vkk t a b) (ckk t a b))) /\
    f' p2 = Some (file2 h (mkPar2 1 1 z (pkk t a b)) []).
Proof.
  intros HI KD h HF. destruct (init_dom_at _ _ _ _ _ _ _ HI) as [k' [KD' [K27 [KM [KP K]]]]].
  assert (k = k') by (destruct KD as [A1 [A2 A3]], KD' as [B1 [B2 B3]]; specialize (A3 k' B1 B2); specialize (B3 k A1 A2); lia).
  subst k'. clear KD'.
  destruct HI as [HN [Hp [HS [[F [F1 HV]] [[rb [R1 R2]] [Hok [L1 [L2 [K1 K2]]]]]]]]].
  rewrite (p2n_start _ _ _ _ _ F1). pose proof HN as [N1 [N2 _]].
  destruct (init_steps_gen p k F S0 cs (fset f p2 []) p1 r1 p2 (read_r1cs r1) (fun cs => Some (r_cons cs))
    (fun cs => Z.of_nat (length (r_cons cs))) HN (proj2 Hp) (sized_enough p k S0 HS KP) HV (eq_trans (fset_other _ _ _ _ (not_eq_sym N1)) F1) (fset_same _ _ _)) with (pkk := pkk) (vkk := vkk) (ckk := ckk)
    as [f' [t [a [b [t2 [z [S [O R]]]]]]]]; auto.
  - intros g Hg. apply read_r1cs_ok with (rb := rb); auto. destruct HN as [_ [_ [_ [_ [N5 [N6 _]]]]]].
    now rewrite (Hg r1), fset_other by auto.
  - exists f', t, a, b, t2, z. split; [auto|]. split; [|auto].
    intros q A1 A2 A3. rewrite (O q A1 A2 A3). now rewrite fset_other by auto.
Qed.
Lemma p2n_ok_at p S0 (cs : r1cs E) f p1 r1 p2 : init_at p S0 cs f p1 r1 p2 -> no_cmt cs ->
  exists f' k t a b t2 z,
    p2n (E := E) p1 r1 p2 f = (Ok tt, f') /\ only3 p2 f f' /\ is_dom (length (r_cons cs)) k /\ k <= p /\
    lag_basis (2 ^ k) (root k) (firstn (2 ^ k) (tau1 S0)) t /\
    lag_basis (2 ^ k) (root k) (firstn (2 ^ k) (alpha1 S0)) a /\
    lag_basis (2 ^ k) (root k) (firstn (2 ^ k) (beta1 S0)) b /\
    lag_basis (2 ^ k) (root k) (firstn (2 ^ k) (tau2 S0)) t2 /\
    is_z k (tau1 S0) z /\
    f' lag_path = Some (lag_bytes t a b t2) /\
    f' evals_path = Some (evals_bytes (mkEvals (nth 0 (alpha1 S0) 0) (nth 0 (beta1 S0) 0) (beta2 S0)
      (cols cs r_L t) (cols cs r_R t) (cols cs r_R t2) (firstn (nb_public cs) (Lsum cs t a b)) [] (cmt_bytes (e := E) (r_cmt cs)))) /\
    f' p2 = Some (file2 (hdr_of cs k) (mkPar2 1 1 z (skipn (nb_public cs) (Lsum cs t a b))) []).
Proof.
  intros HI Hnc. destruct (init_dom_at _ _ _ _ _ _ _ HI) as [k [KD [K27 [KM [KP K]]]]].
  destruct (p2n_split p S0 cs f p1 r1 p2 (fun t a b => skipn (nb_public cs) (Lsum cs t a b))
    (fun t a b => firstn (nb_public cs) (Lsum cs t a b)) (fun _ _ _ => []) k HI KD) as [f' [t [a [b [t2 [z [S [O R]]]]]]]].
  - intros t a b. apply filterL_nocmt; auto. unfold Lsum. now rewrite map_length, seq_length.
  - rewrite (header2_hdr cs k Hnc) in R. exists f', k, t, a, b, t2, z. repeat (split; [solve [auto]|]). exact R.
Qed.
Lemma p2n_ok p S0 (cs : r1cs E) f p1 r1 p2 : init_input p S0 cs f p1 r1 p2 -> no_cmt cs ->
  exists f' k t a b t2 z,
    p2n (E := E) p1 r1 p2 f = (Ok tt, f') /\ only3 p2 f f' /\ is_dom (length (r_cons cs)) k /\ k <= p /\
    lag_basis (2 ^ k) (root k) (firstn (2 ^ k) (tau1 S0)) t /\
    lag_basis (2 ^ k) (root k) (firstn (2 ^ k) (alpha1 S0)) a /\
    lag_basis (2 ^ k) (root k) (firstn (2 ^ k) (beta1 S0)) b /\
    lag_basis (2 ^ k) (root k) (firstn (2 ^ k) (tau2 S0)) t2 /\
    is_z k (tau1 S0) z /\
    f' lag_path = Some (lag_bytes t a b t2) /\
    f' evals_path = Some (evals_bytes (mkEvals (nth 0 (alpha1 S0) 0) (nth 0 (beta1 S0) 0) (beta2 S0)
      (cols cs r_L t) (cols cs r_R t) (cols cs r_R t2) (firstn (nb_public cs) (Lsum cs t a b)) [] (cmt_bytes (e := E) (r_cmt cs)))) /\
    f' p2 = Some (file2 (hdr_of cs k) (mkPar2 1 1 z (skipn (nb_public cs) (Lsum cs t a b))) []).
Proof. intros HI. exact (p2n_ok_at _ _ _ _ _ _ _ (init_input_at _ _ _ _ _ _ _ HI)). Qed.

(* ---- on a ceremony's parameters ---- *)
Lemma firstn_map_seq {X} (g : nat -> X) m n : m <= n -> firstn m (map g (seq 0 n)) = map g (seq 0 m).
Proof. intros H. now rewrite firstn_map, firstn_seq by auto. Qed.
Lemma root_conds k : 1 <= k <= kmax E -> root (e := E) k ^ (2 ^ (k - 1)) = - (1) /\ (fnat (2 ^ k) : E) <> 0.
Proof. intros H. split; [now apply root_ok|apply fnat_pow2, char_ok]. Qed.

Lemma col_scale (cs : r1cs E) sel x t w : (length (r_cons cs) <= length t)%nat -> col cs sel (map (fun y => x * y) t) w = x * col cs sel t w.
Proof.
  intros H. unfold col. rewrite <- sumn_scal. apply sumn_ext. intros i Hi.
  rewrite (nth_indep (map _ t) 0 (x * 0)) by (rewrite map_length; lia). rewrite (map_nth (fun y => x * y) t 0 i). ring.
Qed.
Lemma is_z_pows k p T z : k <= p -> is_z k (pows (2 * 2 ^ p - 1) T) z ->
  length z = (2 ^ k - 1)%nat /\ forall i r, i < 2 ^ k - 1 -> mirrors k i r -> nth_error z r = Some (T ^ (i + 2 ^ k)%nat - T ^ i : E).
Proof.
  intros HP [L H]. split; [auto|]. intros i r Hi Hr. rewrite (H i r Hi Hr). unfold z_at.
  pose proof (Nat.pow_le_mono_r 2 k p ltac:(lia) HP).
  now rewrite !nth_pows by lia.
Qed.

Lemma p2n_trapdoor p T A B (cs : r1cs E) f p1 r1 p2 : init_input p (srs_of p T A B) cs f p1 r1 p2 -> no_cmt cs ->
  exists f' k t z,
    p2n (E := E) p1 r1 p2 f = (Ok tt, f') /\ only3 p2 f f' /\ is_dom (length (r_cons cs)) k /\ k <= p /\
    lag_values (2 ^ k) (root k) T t /\
    (length z = (2 ^ k - 1)%nat /\ forall i r, i < 2 ^ k - 1 -> mirrors k i r -> nth_error z r = Some (T ^ (i + 2 ^ k)%nat - T ^ i)) /\
    f' lag_path = Some (lag_bytes t (map (fun x => A * x) t) (map (fun x => B * x) t) t) /\
    f' evals_path = Some (evals_bytes (mkEvals A B B (cols cs r_L t) (cols cs r_R t) (cols cs r_R t)
      (map (kat cs A B t) (seq 0 (nb_public cs))) [] (cmt_bytes (e := E) (r_cmt cs)))) /\
    f' p2 = Some (file2 (hdr_of cs k) (mkPar2 1 1 z (map (kat cs A B t) (seq (nb_public cs) (nb_secret cs + nb_internal cs)))) []).
Proof.
  intros HI Hnc. pose proof HI as [_ [Hp [_ [_ [_ [_ [_ [_ [KM1 KM2]]]]]]]]].
  destruct (p2n_ok _ _ _ _ _ _ _ HI Hnc) as [f' [k [t [a [b [t2 [z [S [O [KD [KP [Bt [Ba [Bb [Bt2 [Hz [G1 [G2 G3]]]]]]]]]]]]]]]]]].
  pose proof KD as [K1 [K2 K3]]. assert (KM : k <= kmax E) by auto.
  destruct (root_conds k (conj K1 KM)) as [Rt Ch].
  pose proof (Nat.pow_le_mono_r 2 k p ltac:(lia) KP) as HP. pose proof (pow2_pos k) as P1.
  cbn [srs_of tau1 alpha1 beta1 tau2 beta2] in *.
  rewrite firstn_map_seq in Bt, Ba, Bb, Bt2 by lia.
  change (map (fun i : nat => T ^ i) (seq 0 (2 ^ k))) with (pows (2 ^ k) T) in Bt, Bt2.
  change (map (fun i : nat => T ^ i) (seq 0 (2 * 2 ^ p - 1))) with (pows (2 * 2 ^ p - 1) T) in Hz.
  assert (t2 = t) by exact (lag_basis_unique k (root k) K1 Rt Ch _ _ _ Bt2 Bt). subst t2.
  assert (SC : forall x, lag_basis (2 ^ k) (root k) (map (fun i => x * T ^ i) (seq 0 (2 ^ k))) (map (fun y => x * y) t)).
  { intros x. replace (map (fun i => x * T ^ i) (seq 0 (2 ^ k))) with (map (fun y => x * y) (pows (2 ^ k) T)) by (unfold pows; now rewrite map_map).
    exact (lag_basis_scale k (root k) K1 x _ _ (pows_length _ _) Bt). }
  assert (a = map (fun y => A * y) t) by exact (lag_basis_unique k (root k) K1 Rt Ch _ _ _ Ba (SC A)).
  assert (b = map (fun y => B * y) t) by exact (lag_basis_unique k (root k) K1 Rt Ch _ _ _ Bb (SC B)). subst a b.
  assert (KA : forall w, Lat cs t (map (fun y => A * y) t) (map (fun y => B * y) t) w = kat cs A B t w).
  { intros w. unfold Lat, kat. pose proof (proj1 Bt). rewrite !col_scale by lia. ring. }
  exists f', k, t, z. repeat (split; [solve [auto]|]).
  split; [exact (lag_basis_values k (root k) T t Bt)|]. split; [now apply is_z_pows with (p := p)|]. split; [auto|].
  assert (LS : Lsum cs t (map (fun y => A * y) t) (map (fun y => B * y) t) = map (kat cs A B t) (seq 0 (wires cs))).
  { unfold Lsum. apply map_ext. auto. }
  rewrite LS in G2, G3. split.
  - rewrite G2. assert (H0 : forall x : E, nth 0 (map (fun i => x * T ^ i) (seq 0 (2 ^ p))) 0 = x).
    { intros x. rewrite nth_map_seq by apply pow2_pos. cbn. ring. }
    rewrite !H0. rewrite firstn_map_seq by (unfold wires; lia). reflexivity.
  - rewrite G3. rewrite skipn_map. f_equal. f_equal. f_equal. f_equal. f_equal. unfold wires.
    rewrite <- Nat.add_assoc, seq_app, skipn_app, skipn_all2, seq_length, Nat.sub_diag by (rewrite seq_length; lia). reflexivity.
Qed.

(* ---- commitments ---- *)
Lemma sorted_above l : forall lo i w, StronglySorted lt l -> Forall (fun x => lo <= x) l -> nth_error l i = Some w -> lo + i <= w.
Proof.
  induction l as [|x l IH]; intros lo i w HS HF N; [destruct i; discriminate|].
  apply StronglySorted_inv in HS. destruct HS as [HS HX]. inversion HF as [|? ? F1 F2]. subst.
  destruct i as [|i]; cbn in N; [injection N as <-; lia|].
  specialize (IH (S lo) i w HS). assert (Forall (fun y => S lo <= y) l).
  { eapply Forall_impl; [|exact HX]. cbn. intros. lia. }
  specialize (IH H N). lia.
Qed.
Lemma p2n_panics p S0 (cs : r1cs E) f p1 r1 p2 : init_input p S0 cs f p1 r1 p2 ->
  (forall k (L : list E), length L = wires cs ->
     filterL L (header2_of cs (Z.of_nat (length (r_cons cs))) (Z.of_nat (2 ^ k))) (r_cmt cs) = None) ->
  exists f', p2n (E := E) p1 r1 p2 f = (Panic, f').
Proof.
  intros HI HF. destruct (init_dom _ _ _ _ _ _ _ HI) as [k [KD [K27 [KM [KP K]]]]].
  destruct HI as [HN [Hp [HS [[c0 [c1 [tail F1]]] [[rb [R1 R2]] [Hok [L1 [L2 [K1 K2]]]]]]]]].
  rewrite (p2n_start _ _ _ _ _ F1). pose proof HN as [N1 [N2 _]].
  apply (init_steps_panic p k (phase1_file p c0 c1 S0 tail) S0 cs (fset f p2 []) p1 r1 p2 (read_r1cs r1) (fun cs => Some (r_cons cs))
    (fun cs => Z.of_nat (length (r_cons cs))) HN (proj2 Hp) (sized_enough p k _ HS KP) (seen_file p c0 c1 _ tail HS) (eq_trans (fset_other _ _ _ _ (not_eq_sym N1)) F1) (fset_same _ _ _)); auto.
  - intros g Hg. apply read_r1cs_ok with (rb := rb); auto. destruct HN as [_ [_ [_ [_ [N5 [N6 _]]]]]].
    now rewrite (Hg r1), fset_other by auto.
  - intros t a b. apply HF. unfold Lsum. now rewrite map_length, seq_length.
Qed.
Lemma p2n_private_cmt p S0 (cs : r1cs E) f p1 r1 p2 pubs privs : init_input p S0 cs f p1 r1 p2 ->
  cm_committed (r_cmt cs) = pubs ++ privs -> cm_nbpriv (r_cmt cs) = length privs -> privs <> [] ->
  StronglySorted lt privs -> Forall (fun w => nb_public cs <= w < wires cs) privs -> 1 <= nb_public cs ->
  exists f', p2n (E := E) p1 r1 p2 f = (Panic, f').
Proof.
  intros HI C1 C2 C3 HS HF HP. apply (p2n_panics _ _ _ _ _ _ _ HI). intros k L HL.
  eapply filterL_priv; eauto. intros i w N. split.
  - enough (1 + i <= w) by lia. eapply sorted_above; eauto. eapply Forall_impl; [|exact HF]. cbn. intros. lia.
  - rewrite Forall_forall in HF. apply HF. eapply nth_error_In; eauto.
Qed.
Lemma p2n_far_cmt p S0 (cs : r1cs E) f p1 r1 p2 : init_input p S0 cs f p1 r1 p2 ->
  cm_committed (r_cmt cs) <> [] -> cm_nbpriv (r_cmt cs) = 0%nat ->
  nb_public cs < cm_index (r_cmt cs) < wires cs ->
  exists f', p2n (E := E) p1 r1 p2 f = (Panic, f').
Proof. intros HI C1 C2 C3. apply (p2n_panics _ _ _ _ _ _ _ HI). intros k L HL. now apply filterL_far. Qed.
Lemma p2n_near_cmt p S0 (cs : r1cs E) f p1 r1 p2 : init_input p S0 cs f p1 r1 p2 ->
  cm_committed (r_cmt cs) <> [] -> cm_nbpriv (r_cmt cs) = 0%nat ->
  cm_index (r_cmt cs) = nb_public cs -> nb_public cs < wires cs ->
  exists f', p2n (E := E) p1 r1 p2 f = (Ok tt, f').
Proof.
  intros HI C1 C2 C3 C4. destruct (init_dom _ _ _ _ _ _ _ HI) as [k [KD _]].
  destruct (p2n_split p S0 cs f p1 r1 p2 (fun t a b => skipn (S (nb_public cs)) (Lsum cs t a b))
    (fun t a b => firstn (S (nb_public cs)) (Lsum cs t a b)) (fun _ _ _ => []) k (init_input_at _ _ _ _ _ _ _ HI) KD) as [f' [t [a [b [t2 [z [S [O R]]]]]]]].
  - intros t a b. apply filterL_pubcmt; auto. unfold Lsum. now rewrite map_length, seq_length.
  - eauto.
Qed.

(* ---- parted ---- *)
Lemma skipn_cons_nth {X} (l : list X) : forall i c, nth_error l i = Some c -> skipn i l = c :: skipn (S i) l.
Proof.
  induction l as [|x l IH]; intros [|i] c N; cbn in N; try discriminate; [now injection N as ->|].
  cbn [skipn]. now apply IH.
Qed.
Lemma get_all_ok l : forall n i, i + n <= length l -> get_all l i n = Some (firstn n (skipn i l)).
Proof.
  induction n as [|n IH]; intros i H; [reflexivity|]. cbn [get_all].
  destruct (nth_error l i) as [c|] eqn:N; [|apply nth_error_None in N; lia].
  rewrite IH by lia. f_equal. rewrite (skipn_cons_nth _ _ _ N). reflexivity.
Qed.
Lemma get_all_short l : forall n i, length l < i + n -> i <= length l -> get_all l i n = None.
Proof.
  induction n as [|n IH]; intros i H Hi; [lia|]. cbn [get_all].
  destruct (nth_error l i) as [c|] eqn:N; [|reflexivity].
  assert (i < length l) by (apply nth_error_Some; congruence). now rewrite IH by lia.
Qed.
Lemma cbind_ext {X Y} (c : cmd X) (k k' : X -> cmd Y) f :
  (forall x f1, c f = (Ok x, f1) -> k x f1 = k' x f1) -> cbind c k f = cbind c k' f.
Proof. intros H. unfold cbind. destruct (c f) as [[x|e|] f1] eqn:E0; auto. Qed.

Lemma p2np_trunc (cs : r1cs E) m p1 r1 p2 f rb : m <= length (r_cons cs) ->
  r1 <> p2 -> r1 <> lag_path -> r1 <> evals_path ->
  f r1 = Some rb -> parse_r1cs rb = Some (trunc m cs) ->
  p2np cs p1 p2 (Z.of_nat m) f = p2n (E := E) p1 r1 p2 f.
Proof.
  intros Hm N1 N2 N3 R P.
  assert (X : parted_cons cs (Z.of_nat m) = Some (r_cons (trunc m cs))).
  { unfold parted_cons. rewrite Nat2Z.id, get_all_ok by lia. reflexivity. }
  assert (LT : length (r_cons (trunc m cs)) = m) by (cbn; rewrite firstn_length; lia).
  destruct (f p1) as [F|] eqn:F1; [|unfold p2np, p2n, cbind, copen; now rewrite F1].
  rewrite (p2n_start _ _ _ _ _ F1), (p2np_start _ _ _ _ _ _ F1).
  set (g0 := fset f p2 []). assert (G0 : g0 r1 = Some rb) by (unfold g0; rewrite fset_other; auto).
  unfold init_steps. rewrite (cbind_ok (cret cs) _ g0 cs g0 eq_refl), (cbind_ok (read_r1cs r1) _ g0 _ g0 (read_r1cs_ok _ _ _ _ G0 P)).
  rewrite LT. change (process_header (trunc m cs) (Z.of_nat m)) with (process_header cs (Z.of_nat m)).
  apply cbind_ext. intros [pw h] g1 S1.
  assert (G1 : g1 r1 = Some rb) by (rewrite (stage_other _ _ _ _ _ _ _ _ S1); [auto|cbn; intros [Y|[]]; congruence]).
  apply cbind_ext. intros [] g2 S2.
  assert (G2 : g2 r1 = Some rb).
  { unfold c_lagrange in S2. destruct (new_domain _) as [k|]; [|discriminate]. unfold cbind, ccreate in S2.
    rewrite (stage_other _ _ _ _ _ _ _ _ S2); [|cbn; intros [Y|[Y|[]]]; congruence]. rewrite fset_other; auto. }
  apply cbind_ext. intros [] g3 S3. unfold copen in S3.
  assert (G3 : g3 r1 = Some rb) by (destruct (g2 lag_path); [injection S3 as <-; auto|discriminate]).
  apply cbind_ext. intros [] g4 S4. unfold ccreate in S4. injection S4 as <-.
  assert (G4 : fset g3 evals_path [] r1 = Some rb) by (rewrite fset_other; auto).
  assert (O3 : ~ In r1 [p2; lag_path; evals_path]) by (cbn; intros [Y|[Y|[Y|[]]]]; congruence).
  apply cbind_ext. intros [] g5 S5.
  assert (G5 : g5 r1 = Some rb) by (now rewrite (stage_other _ _ _ _ _ _ _ _ S5 O3)).
  rewrite (cbind_ok (cret cs) _ g5 cs g5 eq_refl), (cbind_ok (read_r1cs r1) _ g5 _ g5 (read_r1cs_ok _ _ _ _ G5 P)).
  rewrite X. change (process_eval_body (trunc m cs)) with (process_eval_body cs).
  apply cbind_ext. intros [] g6 S6.
  assert (G6 : g6 r1 = Some rb) by (now rewrite (stage_other _ _ _ _ _ _ _ _ S6 O3)).
  apply cbind_ext. intros [] g7 S7.
  assert (G7 : g7 r1 = Some rb) by (now rewrite (stage_other _ _ _ _ _ _ _ _ S7 O3)).
  apply cbind_ext. intros [] g8 S8. unfold copen in S8.
  assert (G8 : g8 r1 = Some rb) by (destruct (g7 lag_path); [injection S8 as <-; auto|discriminate]).
  rewrite (cbind_ok (cret cs) _ g8 cs g8 eq_refl), (cbind_ok (read_r1cs r1) _ g8 _ g8 (read_r1cs_ok _ _ _ _ G8 P)).
  rewrite X. reflexivity.
Qed.
Lemma trunc_all (cs : r1cs E) : trunc (length (r_cons cs)) cs = cs.
Proof. destruct cs. unfold trunc. cbn. now rewrite firstn_all. Qed.

Lemma p2np_too_many (cs : r1cs E) nb p1 p2 f f' : (Z.of_nat (length (r_cons cs)) < nb)%Z ->
  p2np cs p1 p2 nb f <> (Ok tt, f').
Proof.
  intros Hn H. assert (X : parted_cons cs nb = None) by (unfold parted_cons; apply get_all_short; lia).
  unfold p2np, init_steps in H.
  do 2 (apply cbind_inv in H; destruct H as [[] [? [_ H]]]).
  apply cbind_inv in H; destruct H as [cs1 [? [H1 H]]]. injection H1 as <- <-.
  apply cbind_inv in H; destruct H as [[pw h] [? [_ H]]]. cbn beta iota in H.
  do 4 (apply cbind_inv in H; destruct H as [[] [? [_ H]]]).
  apply cbind_inv in H; destruct H as [cs2 [? [H1 H]]]. injection H1 as <- <-. rewrite X in H.
  apply cbind_inv in H; destruct H as [[] [? [HB _]]].
  destruct (stage_inv _ _ _ _ _ _ _ HB) as [s' [d [EV _]]]. unfold process_eval_body in EV.
  apply bind_ok_inv in EV. destruct EV as [a [s1 [d1 [d2 [_ [[w [R _]] _]]]]]]. discriminate R.
Qed.

(* ---- the property forms ---- *)
Lemma header2_parts (cs : r1cs E) nb dom : let h := header2_of cs nb dom in
  h_wires h = Z.of_nat (wires cs) /\ h_wires h = (h_public h + h_witness h + h_privc h)%Z /\
  h_public h = (Z.of_nat (nb_public cs) + if (length (cm_committed (r_cmt cs)) =? 0)%nat then 0 else 1)%Z /\
  h_privc h = Z.of_nat (cm_nbpriv (r_cmt cs)) /\ h_cons h = nb /\ h_domain h = dom /\ h_contribs h = 0%Z.
Proof.
  unfold header2_of, is_cmt, wires. destruct (length (cm_committed (r_cmt cs)) =? 0)%nat; cbn; repeat split; lia.
Qed.
Lemma c28_stage (cs : r1cs E) nb F g pw h : fst (exec (process_header cs nb) F g) = Ok (pw, h) ->
  snd (exec (process_header cs nb) F g) = gob_hdr h /\
  h_wires h = Z.of_nat (wires cs) /\ h_wires h = (h_public h + h_witness h + h_privc h)%Z /\
  h_public h = (Z.of_nat (nb_public cs) + if (length (cm_committed (r_cmt cs)) =? 0)%nat then 0 else 1)%Z /\
  h_privc h = Z.of_nat (cm_nbpriv (r_cmt cs)) /\ h_cons h = nb.
Proof.
  intros H. destruct (ev_total (process_header cs nb) (opened F, opened g)) as [r [s' [d EV]]].
  pose proof EV as EV0. destruct EV as [w [R W]].
  unfold exec in *. rewrite R in *. cbn [fst snd] in *. subst r.
  destruct (process_header_inv cs nb (opened F, opened g) F pw h s' d eq_refl EV0) as [dom [t [D1 [D2 [D3 [D4 D5]]]]]].
  split; [rewrite W, D5; reflexivity|]. subst h. pose proof (header2_parts cs nb dom) as P. cbv zeta in P.
  destruct P as [P1 [P2 [P3 [P4 [P5 _]]]]]. auto.
Qed.
Lemma c27_zero (cs : r1cs E) c0 c1 t g : exists h,
  fst (exec (process_header cs 1) (b8 0 :: c0 :: c1 :: t) g) = Ok (b8 0, h) /\ h_domain h = 2%Z.
Proof.
  eexists. split; [reflexivity|]. apply header2_parts.
Qed.
Lemma c30_evals p T A B (cs : r1cs E) f p1 r1 p2 : init_input p (srs_of p T A B) cs f p1 r1 p2 ->
  exists r f' k t rest, p2n (E := E) p1 r1 p2 f = (r, f') /\ is_dom (length (r_cons cs)) k /\ lag_values (2 ^ k) (root k) T t /\
    f' evals_path = Some (g1c A ++ g1c B ++ g2c B ++ slice1 (cols cs r_L t) ++ slice1 (cols cs r_R t) ++ slice2 (cols cs r_R t) ++ rest).
Proof.
  intros HI. destruct (init_dom _ _ _ _ _ _ _ HI) as [k [KD [K27 [KM [KP K]]]]].
  destruct HI as [HN [Hp [HS [[c0 [c1 [tail F1]]] [[rb [R1 R2]] [Hok [L1 [L2 [K1 K2]]]]]]]]].
  rewrite (p2n_start _ _ _ _ _ F1). pose proof HN as [N1 [N2 _]].
  destruct (init_prefix p (phase1_file p c0 c1 (srs_of p T A B) tail) (srs_of p T A B) cs (fset f p2 []) p1 r1 p2 (read_r1cs r1) (fun cs => Some (r_cons cs))
    (fun cs => Z.of_nat (length (r_cons cs))) k HN (proj2 Hp) (sized_enough p k _ HS KP) (seen_file p c0 c1 _ tail HS) (eq_trans (fset_other _ _ _ _ (not_eq_sym N1)) F1) (fset_same _ _ _))
    as [f7 [t [a [b [t2 [z [S7 [Q7 [Bt [Ba [Bb [Bt2 [Hz [G7l [G7e G7]]]]]]]]]]]]]]]; auto.
  { intros g Hg. apply read_r1cs_ok with (rb := rb); auto. destruct HN as [_ [_ [_ [_ [N5 [N6 _]]]]]].
    now rewrite (Hg r1), fset_other by auto. }
  rewrite S7. destruct (stage _ p1 lag_path _ f7) as [r f'] eqn:SF.
  destruct (cext_stage evals_path _ _ _ _ _ _ _ _ SF G7e) as [rest G'].
  pose proof KD as [D1 [D2 D3]]. destruct (root_conds k (conj D1 KM)) as [Rt Ch].
  pose proof (Nat.pow_le_mono_r 2 k p ltac:(lia) KP) as HP. pose proof (pow2_pos k) as P1.
  cbn [srs_of tau1 alpha1 beta1 tau2 beta2] in *.
  rewrite firstn_map_seq in Bt, Bt2 by lia.
  change (map (fun i : nat => T ^ i) (seq 0 (2 ^ k))) with (pows (2 ^ k) T) in Bt, Bt2.
  assert (t2 = t) by exact (lag_basis_unique k (root k) D1 Rt Ch _ _ _ Bt2 Bt). subst t2.
  exists r, f', k, t, rest. split; [auto|]. split; [auto|]. split; [exact (lag_basis_values k (root k) T t Bt)|].
  rewrite G'. assert (H0 : forall x : E, nth 0 (map (fun i => x * T ^ i) (seq 0 (2 ^ p))) 0 = x).
  { intros x. rewrite nth_map_seq by apply pow2_pos. cbn. ring. }
  rewrite !H0, <- !app_assoc. reflexivity.
Qed.
Lemma c31_keys p T A B (cs : r1cs E) f p1 r1 p2 : init_input p (srs_of p T A B) cs f p1 r1 p2 -> no_cmt cs ->
  exists f' k t h q v, p2n (E := E) p1 r1 p2 f = (Ok tt, f') /\ is_dom (length (r_cons cs)) k /\ lag_values (2 ^ k) (root k) T t /\
    f' evals_path = Some (evals_bytes v) /\ f' p2 = Some (file2 h q []) /\
    v_vkk v = map (fun w => B * col cs r_L t w + A * col cs r_R t w + col cs r_O t w) (seq 0 (nb_public cs)) /\
    p_K q = map (fun w => B * col cs r_L t w + A * col cs r_R t w + col cs r_O t w) (seq (nb_public cs) (wires cs - nb_public cs)) /\
    v_ckk v = [] /\ h_public h = Z.of_nat (length (v_vkk v)) /\ h_witness h = Z.of_nat (length (p_K q)) /\ h_privc h = 0%Z.
Proof.
  intros HI Hnc. destruct (p2n_trapdoor _ _ _ _ _ _ _ _ _ HI Hnc) as [f' [k [t [z [H1 [H2 [H3 [H4 [H5 [H6 [H7 [H8 H9]]]]]]]]]]]].
  eexists f', k, t, _, _, _. split; [exact H1|]. split; [exact H3|]. split; [exact H5|]. split; [exact H8|]. split; [exact H9|].
  cbn [v_vkk v_ckk p_K h_public h_witness h_privc hdr_of]. split; [reflexivity|].
  replace (wires cs - nb_public cs)%nat with (nb_secret cs + nb_internal cs)%nat by (unfold wires; lia).
  split; [reflexivity|]. split; [reflexivity|]. rewrite !map_length, !seq_length. auto.
Qed.
Lemma c33_z p T A B (cs : r1cs E) f p1 r1 p2 : init_input p (srs_of p T A B) cs f p1 r1 p2 -> no_cmt cs ->
  exists f' k h q, p2n (E := E) p1 r1 p2 f = (Ok tt, f') /\ is_dom (length (r_cons cs)) k /\ f' p2 = Some (file2 h q []) /\
    h_domain h = Z.of_nat (2 ^ k) /\ p_d1 q = 1 /\ p_d2 q = 1 /\ length (p_Z q) = (2 ^ k - 1)%nat /\
    forall i r, i < 2 ^ k - 1 -> mirrors k i r -> nth_error (p_Z q) r = Some (T ^ i * (T ^ (2 ^ k) - 1)).
Proof.
  intros HI Hnc. destruct (p2n_trapdoor _ _ _ _ _ _ _ _ _ HI Hnc) as [f' [k [t [z [H1 [H2 [H3 [H4 [H5 [H6 [H7 [H8 H9]]]]]]]]]]]].
  eexists f', k, _, _. split; [exact H1|]. split; [exact H3|]. split; [exact H9|].
  cbn [h_domain hdr_of p_d1 p_d2 p_Z]. repeat (split; [reflexivity|]). split; [apply H6|].
  intros i r Hi Hr. rewrite (proj2 H6 i r Hi Hr). f_equal. rewrite fpow_add. ring.
Qed.
Lemma p2np_all (cs : r1cs E) p1 r1 p2 f rb :
  r1 <> p2 -> r1 <> lag_path -> r1 <> evals_path -> f r1 = Some rb -> parse_r1cs rb = Some cs ->
  p2np cs p1 p2 (Z.of_nat (length (r_cons cs))) f = p2n (E := E) p1 r1 p2 f.
Proof. intros N1 N2 N3 R P. eapply p2np_trunc; eauto. now rewrite trunc_all. Qed.
Lemma c27_fits f p1 r1 p2 f' : p2n (E := E) p1 r1 p2 f = (Ok tt, f') ->
  p1 <> p2 -> r1 <> p2 -> p2 <> lag_path -> p2 <> evals_path ->
  exists pw rest rb (cs : r1cs E) k h tl,
    f p1 = Some (pw :: rest) /\ f r1 = Some rb /\ parse_r1cs rb = Some cs /\
    f' p2 = Some (gob_hdr h ++ tl) /\ is_dom (length (r_cons cs)) k /\ h_domain h = Z.of_nat (2 ^ k) /\
    ((1 <= bN pw)%N -> k <= N.to_nat (bN pw)).
Proof.
  intros H N1 N2 N3 N4. destruct (p2n_header _ _ _ _ _ H N1 N2 N3 N4) as [pw [rest [rb [cs [k [h [tl [A1 [A2 [A3 [A4 [A5 [A6 [A7 _]]]]]]]]]]]]]].
  exists pw, rest, rb, cs, k, h, tl. auto 10.
Qed.
Lemma p2n_public_cmt p S0 (cs : r1cs E) f p1 r1 p2 : init_input p S0 cs f p1 r1 p2 ->
  cm_committed (r_cmt cs) <> [] -> cm_nbpriv (r_cmt cs) = 0%nat ->
  nb_public cs <= cm_index (r_cmt cs) < wires cs ->
  (nb_public cs < cm_index (r_cmt cs) -> exists f', p2n (E := E) p1 r1 p2 f = (Panic, f')) /\
  (cm_index (r_cmt cs) = nb_public cs -> exists f', p2n (E := E) p1 r1 p2 f = (Ok tt, f')).
Proof.
  intros HI C1 C2 C3. split; intros C4; [eapply p2n_far_cmt|eapply p2n_near_cmt]; eauto; lia.
Qed.
End More.
