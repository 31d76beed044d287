(* NewIff.v -- which phase-1 files p2n accepts, and what it writes. *)
From Coq Require Import String.
From Verif Require Import Base Fld IO Ext Spec1 Phase1 Phase1Io Phase1Verify Phase1Inv Gob GobLemmas Circuit Spec2 Phase2 Phase2Io Phase2Lemmas Spec3 Fs Init2 Init2Pure Init2Io Init2Claims Init2More Spec21 Vt KeysLemmas Safe Spec32.
Local Open Scope fld_scope.

Section N.
Context {E : Ext2}.
Lemma off_a p : (3 + 32 * (2 * 2 ^ p - 1))%nat = off_alpha p. Proof. reflexivity. Qed.
Lemma off_b p : (3 + 32 * (3 * 2 ^ p - 1))%nat = off_beta p.
Proof. unfold off_beta, off_alpha. pose proof (pow2_pos p). lia. Qed.
Lemma off_t p : (3 + 32 * (4 * 2 ^ p - 1))%nat = off_tau2 p.
Proof. unfold off_tau2, off_beta, off_alpha. pose proof (pow2_pos p). lia. Qed.
Lemma off_c p : (3 + 32 * (6 * 2 ^ p - 1))%nat = off_beta2 p.
Proof. unfold off_beta2, off_tau2, off_beta, off_alpha. pose proof (pow2_pos p). lia. Qed.

Lemma at2_one (F : bytes) n (x : E) : at2 F n [x] <-> exists b t, skipn n F = b ++ t /\ is2 b x.
Proof.
  split.
  - intros [b [t [S A]]]. inversion A as [|b1 ? b2 ? I R]; subst. inversion R; subst. exists b1, t. now rewrite app_nil_r in S.
  - intros [b [t [S A]]]. exists b, t. split; [exact S|]. rewrite <- (app_nil_r b). constructor; [exact A|constructor].
Qed.
Lemma at1_len (F : bytes) n (l : list E) : l <> [] -> at1 F n l -> n < length F.
Proof.
  intros N [b [t [S A]]]. destruct A as [|b1 x b2 l' I R]; [now elim N|].
  assert (L : 1 <= length b1).
  { destruct I as [[L _]|[L _]]; rewrite L; lia. }
  assert (Q : length (skipn n F) = length ((b1 ++ b2) ++ t)) by now rewrite S. rewrite skipn_length, !app_length in Q. lia.
Qed.
Lemma uses_seen p k F (S0 : srs E) : (exists t, F = b8 (N.of_nat p) :: t) -> uses p k F S0 -> enough k S0 /\ seen p S0 F.
Proof.
  intros [t ->] [L1 [L2 [L3 [L4 [A1 [A2 [A3 [A4 A5]]]]]]]]. split; [unfold enough; lia|].
  rewrite off_a in A2. rewrite off_b in A3. rewrite off_t in A4. rewrite off_c in A5.
  assert (N : 3 < length (b8 (N.of_nat p) :: t)).
  { apply at1_len in A1; [exact A1|]. intros Q. rewrite Q in L1. cbn in L1. pose proof (pow2_pos k). lia. }
  split; [|repeat (split; [assumption|]); now apply at2_one].
  destruct t as [|c0 [|c1 t]]; cbn in N; try lia. eauto.
Qed.

(* ---- inversions ---- *)
Lemma lag1_only F pos k st cap p0 r0 s' d : ev (lagrangeG1 (E := E) pos k) st (Ok tt) s' d -> getr false st = at_ F cap p0 r0 ->
  (0 <= pos)%Z /\ (exists l : list E, length l = (2 ^ k)%nat /\ at1 F (Z.to_nat pos) l) /\
  exists cap' p' r', getr false s' = at_ F cap' p' r'.
Proof.
  intros H G. unfold lagrangeG1, lagrange_section in H.
  apply bind_ok_inv in H as [[] [s1 [d1 [d2 [H1 [H _]]]]]]. destruct (seek_inv _ _ _ _ _ _ _ _ _ G H1) as [Z ->]. split; [exact Z|].
  apply newrd_inv in H. apply newwr_inv, flush_inv in H. rewrite getr_setr, setr_setr, rd_buf_at in H.
  apply bind_ok_inv in H as [l [s2 [d3 [d4 [H2 [H _]]]]]].
  destruct (decodes1_inv false F defBuf defBuf_big _ _ _ _ _ _ _ (getr_setr _ _ _) H2) as [b [t [R [A [L ->]]]]].
  split; [exists l; split; [exact L|]; exists b, t; split; [exact R|exact A]|].
  destruct (FFT.convert _ _ l) as [c|]; cbn [orBoom] in H; [|destruct H as [w [H _]]; discriminate].
  destruct (ev_det _ _ _ _ _ _ _ _ H (ev_write_slice1 1 c _)) as [_ [-> _]]. rewrite getr_setr. eauto.
Qed.
Lemma lag2_only F pos k st cap p0 r0 s' d : ev (lagrangeG2 (E := E) pos k) st (Ok tt) s' d -> getr false st = at_ F cap p0 r0 ->
  (0 <= pos)%Z /\ (exists l : list E, length l = (2 ^ k)%nat /\ at2 F (Z.to_nat pos) l).
Proof.
  intros H G. unfold lagrangeG2, lagrange_section in H.
  apply bind_ok_inv in H as [[] [s1 [d1 [d2 [H1 [H _]]]]]]. destruct (seek_inv _ _ _ _ _ _ _ _ _ G H1) as [Z ->]. split; [exact Z|].
  apply newrd_inv in H. apply newwr_inv, flush_inv in H. rewrite getr_setr, setr_setr, rd_buf_at in H.
  apply bind_ok_inv in H as [l [s2 [d3 [d4 [H2 [H _]]]]]].
  destruct (decodes2_inv false F defBuf defBuf_big _ _ _ _ _ _ _ (getr_setr _ _ _) H2) as [b [t [R [A [L ->]]]]].
  exists l. split; [exact L|]. exists b, t. split; [exact R|exact A].
Qed.
Definition pos1 (pw : byte) : Z := wrap64 (3 + wrap64 (32 * wrap64 (2 * pow2 pw - 1))).
Definition pos2 (pw : byte) : Z := wrap64 (pos1 pw + wrap64 (32 * pow2 pw)).
Definition pos3 (pw : byte) : Z := wrap64 (pos2 pw + wrap64 (32 * pow2 pw)).
Definition pos4 (pw : byte) : Z := wrap64 (pos2 pw + wrap64 (96 * pow2 pw)).
Lemma lagrange_only F pw k st s' d : ev (process_lagrange (E := E) pw k) st (Ok tt) s' d -> getr false st = opened F ->
  (0 <= pos1 pw)%Z /\ exists a b t2 : list E, length a = (2 ^ k)%nat /\ length b = (2 ^ k)%nat /\ length t2 = (2 ^ k)%nat /\
    at1 F (Z.to_nat (pos1 pw)) a /\ at1 F (Z.to_nat (pos2 pw)) b /\ at2 F (Z.to_nat (pos3 pw)) t2.
Proof.
  intros H G. unfold process_lagrange in H. cbv zeta in H.
  apply bind_ok_inv in H as [[] [s1 [d1 [d2 [H1 [H _]]]]]]. destruct (lag1_only _ _ _ _ _ _ _ _ _ H1 G) as [_ [_ [? [? [? G1]]]]].
  apply bind_ok_inv in H as [[] [s2 [d3 [d4 [H2 [H _]]]]]]. destruct (lag1_only _ _ _ _ _ _ _ _ _ H2 G1) as [P1 [[a [La A]] [? [? [? G2]]]]].
  apply bind_ok_inv in H as [[] [s3 [d5 [d6 [H3 [H _]]]]]]. destruct (lag1_only _ _ _ _ _ _ _ _ _ H3 G2) as [_ [[b [Lb B]] [? [? [? G3]]]]].
  destruct (lag2_only _ _ _ _ _ _ _ _ _ H G3) as [_ [t2 [Lt T]]].
  split; [exact P1|]. exists a, b, t2. repeat (split; [assumption|]). exact T.
Qed.
Lemma head_only F pw st s' d : ev (process_eval_head (E := E) pw) st (Ok tt) s' d -> getr false st = opened F ->
  exists x : E, at2 F (Z.to_nat (pos4 pw)) [x].
Proof.
  intros H G. assert (B0 : bigcap 0) by now left. unfold process_eval_head, read_phase1 in H. cbv zeta in H.
  apply bind_ok_inv in H as [[[al b1] b2] [s0 [d0 [d0' [H [_ _]]]]]].
  apply bind_ok_inv in H as [[] [s1 [d1 [d2 [H1 [H _]]]]]]. destruct (seek_inv _ _ _ _ _ _ _ _ _ G H1) as [_ ->].
  apply bind_ok_inv in H as [x [s2 [d3 [d4 [H2 [H _]]]]]].
  destruct (decode1_ok_inv _ _ _ _ _ _ _ _ _ B0 (getr_setr _ _ _) H2) as [? [? [_ [_ ->]]]].
  apply bind_ok_inv in H as [[] [s3 [d5 [d6 [H3 [H _]]]]]]. destruct (seek_inv _ _ _ _ _ _ _ _ _ (getr_setr _ _ _) H3) as [_ ->].
  apply bind_ok_inv in H as [y [s4 [d7 [d8 [H4 [H _]]]]]].
  destruct (decode1_ok_inv _ _ _ _ _ _ _ _ _ B0 (getr_setr _ _ _) H4) as [? [? [_ [_ ->]]]].
  apply bind_ok_inv in H as [[] [s5 [d9 [d10 [H5 [H _]]]]]]. destruct (seek_inv _ _ _ _ _ _ _ _ _ (getr_setr _ _ _) H5) as [_ ->].
  apply bind_ok_inv in H as [z [s6 [d11 [d12 [H6 [H _]]]]]].
  destruct (decode2_ok_inv _ _ _ _ _ _ _ _ _ B0 (getr_setr _ _ _) H6) as [b [t [R [I _]]]].
  exists z. apply at2_one. eauto.
Qed.
Lemma delta_only F h k st s' d : ev (process_delta_z (E := E) h) st (Ok tt) s' d -> getr false st = opened F -> h_domain h = Z.of_nat (2 ^ k) ->
  exists l : list E, length l = (2 * 2 ^ k - 1)%nat /\ at1 F 3 l.
Proof.
  intros H G D. unfold process_delta_z in H. apply newwr_inv, flush_inv in H. rewrite D, Nat2Z.id in H.
  apply bind_ok_inv in H as [[] [s1 [d1 [d2 [H1 [H _]]]]]]. destruct (ev_det _ _ _ _ _ _ _ _ H1 (ev_write _ _ _)) as [_ [-> _]].
  apply bind_ok_inv in H as [[] [s2 [d3 [d4 [H2 [H _]]]]]]. destruct (ev_det _ _ _ _ _ _ _ _ H2 (ev_write _ _ _)) as [_ [-> _]].
  apply bind_ok_inv in H as [[] [s3 [d5 [d6 [H3 [H _]]]]]]. destruct (seek_inv _ _ _ _ _ _ _ _ _ G H3) as [_ ->].
  apply newrd_inv in H. rewrite getr_setr, setr_setr, rd_buf_at in H. cbv zeta in H.
  apply bind_ok_inv in H as [l [s4 [d7 [d8 [H4 [H _]]]]]].
  destruct (decodes1_inv false F defBuf defBuf_big _ _ _ _ _ _ _ (getr_setr _ _ _) H4) as [b [t [R [A [L _]]]]].
  exists l. split; [exact L|]. exists b, t. split; [exact R|exact A].
Qed.

Lemma stage_only {X} (p : io X) a b outs f x f' : stage p a b outs f = (Ok x, f') ->
  exists s' d, ev p (opened (contents f a), opened (contents f b)) (Ok x) s' d /\ forall q, ~ In q outs -> f' q = f q.
Proof.
  intros H. destruct (ev_total p (opened (contents f a), opened (contents f b))) as [r [s' [d EV]]].
  destruct (stage_ev p a b outs f r s' d EV) as [g [S [O _]]]. rewrite H in S. injection S as <- <-. eauto.
Qed.
Lemma copen_inv p f f' : copen p f = (Ok tt, f') -> f' = f.
Proof. unfold copen. destruct (f p); intros H; [now injection H|discriminate]. Qed.
Lemma domain_inv (m : nat) k : new_domain (E := E) (Z.of_nat (2 ^ m)) = Some k -> k = m /\ k <= kmax E.
Proof.
  unfold new_domain. destruct (Z.ltb_spec (Z.of_nat (2 ^ m)) 0); [discriminate|]. rewrite log2_up_pow.
  destruct (Nat.ltb_spec (kmax E) m); intros Q; [discriminate|]. injection Q as <-. auto.
Qed.

(* what p2n has found when it returns without error *)
Lemma p2n_found f p1 r1 p2 f' : p2n (E := E) p1 r1 p2 f = (Ok tt, f') -> names_ok p1 r1 p2 ->
  exists pw rest rb (cs : r1cs E) k, let F := pw :: rest in
    f p1 = Some F /\ f r1 = Some rb /\ parse_r1cs rb = Some cs /\ is_dom (length (r_cons cs)) k /\ k <= kmax E /\ k <= 27 /\
    (Z.of_nat (length (r_cons cs)) <= pow2 pw)%Z /\ (0 <= pos1 pw)%Z /\
    exists (t a b t2 : list E) (x : E), length t = (2 * 2 ^ k - 1)%nat /\ length a = (2 ^ k)%nat /\ length b = (2 ^ k)%nat /\ length t2 = (2 ^ k)%nat /\
      at1 F 3 t /\ at1 F (Z.to_nat (pos1 pw)) a /\ at1 F (Z.to_nat (pos2 pw)) b /\ at2 F (Z.to_nat (pos3 pw)) t2 /\ at2 F (Z.to_nat (pos4 pw)) [x].
Proof.
  intros H [N1 [N2 [N3 [N4 [N5 [N6 [N7 N8]]]]]]]. unfold p2n in H.
  apply cbind_inv in H as [[] [f0 [H0 H]]].
  unfold copen in H0. destruct (f p1) as [F|] eqn:F1; [|discriminate]. injection H0 as <-.
  apply cbind_inv in H as [[] [f1 [H1 H]]]. unfold ccreate in H1. injection H1 as <-.
  assert (C1 : fset f p2 [] p1 = Some F) by (rewrite fset_other; auto).
  unfold init_steps in H.
  apply cbind_inv in H as [cs [f2 [H2 H]]]. apply read_r1cs_inv in H2 as [-> [rb [R1 R2]]]. rewrite fset_other in R1 by auto.
  apply cbind_inv in H as [[pw h] [f3 [H3 H]]].
  destruct (stage_only _ _ _ _ _ _ _ H3) as [s' [d [EV O3]]]. rewrite (contents_some _ _ _ C1) in EV.
  destruct (process_header_inv _ _ (opened F, opened F) F _ _ _ _ eq_refl EV) as [dom [t [D1 [D2 [D3 [D4 _]]]]]].
  assert (C3 : f3 p1 = Some F) by (rewrite O3; [auto|cbn; intros [X|[]]; congruence]).
  assert (L27 : (Z.of_nat (length (r_cons cs)) <= 2 ^ 27)%Z).
  { destruct (Z.le_gt_cases (Z.of_nat (length (r_cons cs))) (2 ^ 27)) as [|G]; [auto|].
    apply (proj2 (next_pow2_spec _)) in G. congruence. }
  destruct (dom_ex _ L27) as [k [K27 [KD K]]]. rewrite K in D1. injection D1 as <-.
  assert (Hd : h_domain h = Z.of_nat (2 ^ k)) by (rewrite D4; unfold header2_of; now destruct (is_cmt _)).
  cbn beta iota in H. apply cbind_inv in H as [[] [f4 [H4 H]]].
  unfold c_lagrange in H4. rewrite Hd in H4. destruct (new_domain _) as [k'|] eqn:ND; [|discriminate].
  apply domain_inv in ND as [-> KM].
  apply cbind_inv in H4 as [[] [f5 [H5 H4]]]. unfold ccreate in H5. injection H5 as <-.
  assert (C5 : fset f3 lag_path [] p1 = Some F) by (rewrite fset_other; auto).
  destruct (stage_only _ _ _ _ _ _ _ H4) as [s4 [e4 [EV4 O4]]]. rewrite (contents_some _ _ _ C5) in EV4.
  destruct (lagrange_only F pw k _ _ _ EV4 eq_refl) as [P1 [a [b [t2 [La [Lb [Lt [A1 [A2 A3]]]]]]]]].
  assert (C4 : f4 p1 = Some F) by (rewrite O4; [auto|cbn; intros [X|[X|[]]]; congruence]).
  apply cbind_inv in H as [[] [f6 [H6 H]]]. apply copen_inv in H6 as ->.
  apply cbind_inv in H as [[] [f7 [H7 H]]]. unfold ccreate in H7. injection H7 as <-.
  assert (C7 : fset f4 evals_path [] p1 = Some F) by (rewrite fset_other; auto).
  apply cbind_inv in H as [[] [f8 [H8 H]]].
  destruct (stage_only _ _ _ _ _ _ _ H8) as [s8 [e8 [EV8 O8]]]. rewrite (contents_some _ _ _ C7) in EV8.
  destruct (head_only F pw _ _ _ EV8 eq_refl) as [x X].
  assert (C8 : f8 p1 = Some F) by (rewrite O8; [auto|cbn; intros [Y|[Y|[Y|[]]]]; congruence]).
  apply cbind_inv in H as [cs2 [f9 [H9 H]]]. apply read_r1cs_inv in H9 as [-> _].
  apply cbind_inv in H as [[] [f10 [H10 H]]]. destruct (stage_only _ _ _ _ _ _ _ H10) as [_ [_ [_ O10]]].
  assert (C10 : f10 p1 = Some F) by (rewrite O10; [auto|cbn; intros [Y|[Y|[Y|[]]]]; congruence]).
  apply cbind_inv in H as [[] [f11 [H11 H]]]. destruct (stage_only _ _ _ _ _ _ _ H11) as [s11 [e11 [EV11 _]]].
  rewrite (contents_some _ _ _ C10) in EV11. destruct (delta_only F h k _ _ _ EV11 eq_refl Hd) as [l [Ll L]].
  exists pw, t, rb, cs, k. cbv zeta. rewrite <- D2.
  split; [reflexivity|]. repeat (split; [assumption|]). exists l, a, b, t2, x. repeat (split; [assumption|]). exact X.
Qed.

Lemma pos_small p : p <= 54 -> pos1 (b8 (N.of_nat p)) = Z.of_nat (off_alpha p) /\ pos2 (b8 (N.of_nat p)) = Z.of_nat (off_beta p) /\
  pos3 (b8 (N.of_nat p)) = Z.of_nat (off_tau2 p) /\ pos4 (b8 (N.of_nat p)) = Z.of_nat (off_beta2 p).
Proof.
  intros H. destruct (Init2Io.offsets p H) as [O1 [O2 [O3 O4]]]. cbv zeta in O1, O2, O3, O4. unfold pos4, pos3, pos2, pos1.
  rewrite O1 in *. rewrite O2 in *. auto.
Qed.
Lemma p2n_only p f p1 r1 p2 f' rest : p2n (E := E) p1 r1 p2 f = (Ok tt, f') -> names_ok p1 r1 p2 -> p <= 54 ->
  f p1 = Some (b8 (N.of_nat p) :: rest) ->
  exists rb (cs : r1cs E) k (S0 : srs E), f r1 = Some rb /\ parse_r1cs rb = Some cs /\ is_dom (length (r_cons cs)) k /\ k <= kmax E /\ k <= 27 /\
    length (r_cons cs) <= 2 ^ p /\ uses p k (b8 (N.of_nat p) :: rest) S0.
Proof.
  intros H HN Hp F1. destruct (p2n_found _ _ _ _ _ H HN) as [pw [rest' [rb [cs [k Q]]]]]. cbv zeta in Q.
  destruct Q as (F1' & R1 & R2 & KD & KM & K27 & L & _ & t & a & b & t2 & x & Lt & La & Lb & Lt2 & A1 & A2 & A3 & A4 & A5).
  rewrite F1 in F1'. injection F1' as <- <-. destruct (pos_small p Hp) as [O1 [O2 [O3 O4]]].
  rewrite O1, O2, O3, O4, !Nat2Z.id in *. rewrite pow2_small in L by lia.
  exists rb, cs, k, (mkSrs t a b t2 x). repeat (split; [assumption|]). split; [lia|].
  unfold uses. cbn [tau1 alpha1 beta1 tau2 beta2]. rewrite off_a, off_b, off_t, off_c. repeat (split; [assumption|]). exact A5.
Qed.
Lemma pos1_big p : 55 <= p <= 62 -> (pos1 (b8 (N.of_nat p)) < 0 \/ 2 ^ 60 <= pos1 (b8 (N.of_nat p)))%Z.
Proof.
  intros H. assert (Q : In p [55;56;57;58;59;60;61;62]) by (cbn; lia).
  repeat (destruct Q as [<- | Q]; [vm_compute; first [left; reflexivity | right; discriminate]|]). destruct Q.
Qed.
Lemma p2n_power p f p1 r1 p2 f' rest : p2n (E := E) p1 r1 p2 f = (Ok tt, f') -> names_ok p1 r1 p2 -> 55 <= p <= 255 ->
  f p1 = Some (b8 (N.of_nat p) :: rest) -> (2 ^ 60 < Z.of_nat (length (b8 (N.of_nat p) :: rest)))%Z.
Proof.
  intros H HN Hp F1. destruct (p2n_found _ _ _ _ _ H HN) as [pw [rest' [rb [cs [k Q]]]]]. cbv zeta in Q.
  destruct Q as (F1' & R1 & R2 & KD & KM & K27 & L & P1 & t & a & b & t2 & x & Lt & La & Lb & Lt2 & A1 & A2 & _).
  rewrite F1 in F1'. injection F1' as <- <-.
  assert (HP : p <= 62).
  { destruct (Nat.le_gt_cases p 62) as [|G]; [auto|]. exfalso. revert L. unfold pow2.
    rewrite bN_b8, N.mod_small by lia. destruct (N.ltb_spec (N.of_nat p) 63); [lia|]. unfold two63. lia. }
  apply at1_len in A2; [|intros Q; rewrite Q in La; cbn in La; pose proof (pow2_pos k); lia].
  destruct (pos1_big p ltac:(lia)); lia.
Qed.

Lemma p2n_if p k (S0 : srs E) (cs : r1cs E) f p1 r1 p2 rest rb : names_ok p1 r1 p2 -> p <= 54 ->
  f p1 = Some (b8 (N.of_nat p) :: rest) -> f r1 = Some rb -> parse_r1cs rb = Some cs -> circuit_ok cs -> no_cmt cs ->
  length (r_cons cs) <= 2 ^ p -> is_dom (length (r_cons cs)) k -> k <= kmax E -> k <= 27 -> uses p k (b8 (N.of_nat p) :: rest) S0 ->
  exists f' t a b t2 z,
    p2n (E := E) p1 r1 p2 f = (Ok tt, f') /\ only3 p2 f f' /\
    lag_basis (2 ^ k) (root k) (firstn (2 ^ k) (tau1 S0)) t /\ lag_basis (2 ^ k) (root k) (alpha1 S0) a /\
    lag_basis (2 ^ k) (root k) (beta1 S0) b /\ lag_basis (2 ^ k) (root k) (tau2 S0) t2 /\ is_z k (tau1 S0) z /\
    f' lag_path = Some (lag_bytes t a b t2) /\
    f' evals_path = Some (evals_bytes (mkEvals (nth 0 (alpha1 S0) 0) (nth 0 (beta1 S0) 0) (beta2 S0)
      (cols cs r_L t) (cols cs r_R t) (cols cs r_R t2) (firstn (nb_public cs) (Lsum cs t a b)) [] (cmt_bytes (e := E) (r_cmt cs)))) /\
    f' p2 = Some (file2 (hdr_of cs k) (mkPar2 1 1 z (skipn (nb_public cs) (Lsum cs t a b))) []).
Proof.
  intros HN Hp F1 R1 R2 Hok Hnc L1 KD KM K27 HU. destruct (uses_seen p k _ S0 ltac:(eauto) HU) as [HE HV].
  destruct HU as [_ [La [Lb [Lt2 _]]]].
  rewrite (p2n_start _ _ _ _ _ F1). pose proof HN as [N1 [N2 _]].
  assert (K : next_pow2 (Z.of_nat (length (r_cons cs))) = Some (Z.of_nat (2 ^ k))).
  { assert (L2 : (Z.of_nat (length (r_cons cs)) <= 2 ^ 27)%Z).
    { destruct KD as [_ [D2 _]]. pose proof (pow2_le k 27 K27). change (2 ^ Z.of_nat 27)%Z with (2 ^ 27)%Z in *. lia. }
    destruct (dom_ex _ L2) as [k' [_ [KD' K]]].
    assert (k = k') by (destruct KD as [A1 [A2 A3]], KD' as [B1 [B2 B3]]; specialize (A3 k' B1 B2); specialize (B3 k A1 A2); lia).
    now subst. }
  destruct (init_steps_ok p k (b8 (N.of_nat p) :: rest) S0 cs (fset f p2 []) p1 r1 p2 (read_r1cs r1) (fun cs => Some (r_cons cs))
    (fun cs => Z.of_nat (length (r_cons cs))) HN Hp HE HV (eq_trans (fset_other _ _ _ _ (not_eq_sym N1)) F1) (fset_same _ _ _))
    as [f' [t [a [b [t2 [z [S [O [B1 [B2 [B3 [B4 R]]]]]]]]]]]]; auto.
  - intros g Hg. apply read_r1cs_ok with (rb := rb); auto. destruct HN as [_ [_ [_ [_ [N5 [N6 _]]]]]].
    now rewrite (Hg r1), fset_other by auto.
  - exists f', t, a, b, t2, z. rewrite (firstn_all2 (n := 2 ^ k) (alpha1 S0)) in B2 by lia.
    rewrite (firstn_all2 (n := 2 ^ k) (beta1 S0)) in B3 by lia. rewrite (firstn_all2 (n := 2 ^ k) (tau2 S0)) in B4 by lia.
    split; [auto|]. split; [|auto].
    intros q A1 A2 A3. rewrite (O q A1 A2 A3). now rewrite fset_other by auto.
Qed.
Lemma p2n_iff p k rest rb (cs : r1cs E) f p1 r1 p2 : names_ok p1 r1 p2 -> p <= 54 ->
  f p1 = Some (b8 (N.of_nat p) :: rest) -> f r1 = Some rb -> parse_r1cs rb = Some cs -> circuit_ok cs -> no_cmt cs ->
  is_dom (length (r_cons cs)) k ->
  ((exists f', p2n (E := E) p1 r1 p2 f = (Ok tt, f')) <->
   length (r_cons cs) <= 2 ^ p /\ k <= kmax E /\ k <= 27 /\ exists S0 : srs E, uses p k (b8 (N.of_nat p) :: rest) S0).
Proof.
  intros HN Hp F1 R1 R2 Hok Hnc KD. split.
  - intros [f' H]. destruct (p2n_only p _ _ _ _ _ _ H HN Hp F1) as [rb' [cs' [k' [S0 [R1' [R2' [KD' [KM [K27 [L U]]]]]]]]]].
    rewrite R1 in R1'. injection R1' as <-. rewrite R2 in R2'. injection R2' as <-.
    assert (k = k') by (destruct KD as [A1 [A2 A3]], KD' as [B1 [B2 B3]]; specialize (A3 k' B1 B2); specialize (B3 k A1 A2); lia).
    subst k'. eauto 6.
  - intros [L [KM [K27 [S0 U]]]].
    destruct (p2n_if p k S0 cs f p1 r1 p2 rest rb HN Hp F1 R1 R2 Hok Hnc L KD KM K27 U) as [f' [t [a [b [t2 [z [H _]]]]]]]. eauto.
Qed.
End N.
