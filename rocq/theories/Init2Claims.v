(* Init2Claims.v -- phase-2 initialisation as a whole. *)
From Coq Require Import ZifyNat ZifyN.
From Verif Require Import Base Fld Conc Parallel BitRev FFT Poly IO Ext Spec1 Phase1 Phase1Io Phase1Trans Gob GobLemmas Circuit Spec2 Spec3 Fs Init2 Init2Pure Init2Io.
Local Open Scope fld_scope.

Lemma cbind_ok {X Y} (c : cmd X) (k : X -> cmd Y) f x f1 : c f = (Ok x, f1) -> cbind c k f = k x f1.
Proof. intros H. unfold cbind. now rewrite H. Qed.
Lemma cbind_panic {X Y} (c : cmd X) (k : X -> cmd Y) f f1 : c f = (Panic, f1) -> cbind c k f = (Panic, f1).
Proof. intros H. unfold cbind. now rewrite H. Qed.
Lemma copen_ok p f b : f p = Some b -> copen p f = (Ok tt, f).
Proof. intros H. unfold copen. now rewrite H. Qed.
Lemma contents_some f p b : f p = Some b -> contents f p = b.
Proof. intros H. unfold contents. now rewrite H. Qed.

Lemma lag_evals : lag_path <> evals_path. Proof. discriminate. Qed.
Lemma nodup3 p2 : p2 <> lag_path -> p2 <> evals_path -> NoDup [p2; lag_path; evals_path].
Proof.
  intros H1 H2. constructor; [|constructor; [|constructor; [|constructor]]]; cbn; intros X.
  - destruct X as [X|[X|[]]]; congruence.
  - destruct X as [X|[]]. now apply lag_evals.
  - exact X.
Qed.

(* stages with the three outputs *)
Lemma stage3 {X} (p : io X) a b p2 f r s' d c0 c1 c2 : p2 <> lag_path -> p2 <> evals_path ->
  f p2 = Some c0 -> f lag_path = Some c1 -> f evals_path = Some c2 ->
  ev p (opened (contents f a), opened (contents f b)) r s' d ->
  exists f', stage p a b [p2; lag_path; evals_path] f = (r, f') /\ only3 p2 f f' /\
    f' p2 = Some (c0 ++ d 0%nat) /\ f' lag_path = Some (c1 ++ d 1%nat) /\ f' evals_path = Some (c2 ++ d 2%nat).
Proof.
  intros N1 N2 F0 F1 F2 H. destruct (stage_ev p a b [p2; lag_path; evals_path] f r s' d H) as [f' [H1 [H2 H3]]].
  specialize (H3 (nodup3 _ N1 N2)). exists f'. split; [auto|]. split.
  - intros q Q1 Q2 Q3. apply H2. cbn. intros [Y|[Y|[Y|[]]]]; congruence.
  - rewrite (H3 0%nat p2), (H3 1%nat lag_path), (H3 2%nat evals_path) by (auto; congruence).
    rewrite (contents_some _ _ _ F0), (contents_some _ _ _ F1), (contents_some _ _ _ F2). auto.
Qed.

Section Init.
Context {E : Ext2}.
Add Field Kfld : (f_th E).

Lemma dom_ex (m : nat) : (Z.of_nat m <= 2 ^ 27)%Z -> exists k, k <= 27 /\ is_dom m k /\
  next_pow2 (Z.of_nat m) = Some (Z.of_nat (2 ^ k)).
Proof.
  intros H. destruct (proj1 (next_pow2_spec (Z.of_nat m)) H) as [k [K1 [K2 [K3 K4]]]].
  exists (Z.to_nat k). split; [lia|].
  assert (P : Z.of_nat (2 ^ Z.to_nat k) = (2 ^ k)%Z) by (rewrite Nat2Z.inj_pow, Z2Nat.id by lia; reflexivity).
  split; [|now rewrite P].
  split; [lia|]. split; [lia|]. intros j J1 J2.
  assert (Z.of_nat m <= 2 ^ Z.of_nat j)%Z.
  { replace (2 ^ Z.of_nat j)%Z with (Z.of_nat (2 ^ j)); [lia|]. now rewrite Nat2Z.inj_pow. }
  specialize (K4 (Z.of_nat j) ltac:(lia) H0). lia.
Qed.

(* the header, the parameters and the evaluations for a circuit without commitment *)
Definition evals_of (cs : r1cs E) (S0 : srs E) (t a b t2 vkk ckk : list E) : evals E :=
  mkEvals (nth 0 (alpha1 S0) 0) (nth 0 (beta1 S0) 0) (beta2 S0) (cols cs r_L t) (cols cs r_R t) (cols cs r_R t2)
    vkk ckk (cmt_bytes (e := E) (r_cmt cs)).

Lemma Lsum_padd (cs : r1cs E) t a b :
  padd (padd (cols cs r_O t) (cols cs r_R a)) (cols cs r_L b) = Lsum cs t a b.
Proof.
  apply (nth_list_ext _ _ (wires cs)).
  - now rewrite !padd_length, cols_length.
  - unfold Lsum. now rewrite map_length, seq_length.
  - intros w Hw. rewrite !nth_padd by (rewrite ?padd_length, cols_length; auto). rewrite !nth_cols by auto.
    unfold Lsum. now rewrite nth_map_seq.
Qed.
Lemma header2_hdr (cs : r1cs E) k : no_cmt cs ->
  header2_of cs (Z.of_nat (length (r_cons cs))) (Z.of_nat (2 ^ k)) = hdr_of cs k.
Proof.
  intros [C1 C2]. unfold header2_of, hdr_of, is_cmt, wires. rewrite C1, C2. cbn [length Nat.eqb negb].
  f_equal; lia.
Qed.

Lemma init_prefix p F (S0 : srs E) (cs : r1cs E) f p1 r1 p2 circuit cons nb k :
  names_ok p1 r1 p2 -> p <= 54 -> enough k S0 -> seen p S0 F ->
  f p1 = Some F -> f p2 = Some [] ->
  (forall g, only3 p2 f g -> circuit g = (Ok cs, g)) ->
  cons cs = Some (r_cons cs) -> nb cs = Z.of_nat (length (r_cons cs)) ->
  circuit_ok cs -> length (r_cons cs) <= 2 ^ p ->
  k <= 27 -> is_dom (length (r_cons cs)) k -> next_pow2 (Z.of_nat (length (r_cons cs))) = Some (Z.of_nat (2 ^ k)) ->
  k <= kmax E ->
  let h := header2_of cs (Z.of_nat (length (r_cons cs))) (Z.of_nat (2 ^ k)) in
  exists f7 t a b t2 z,
    init_steps circuit cons nb p1 p2 f =
      stage (process_pvckk cs (Some (r_cons cs)) h) p1 lag_path [p2; lag_path; evals_path] f7 /\
    only3 p2 f f7 /\
    lag_basis (2 ^ k) (root k) (firstn (2 ^ k) (tau1 S0)) t /\
    lag_basis (2 ^ k) (root k) (firstn (2 ^ k) (alpha1 S0)) a /\
    lag_basis (2 ^ k) (root k) (firstn (2 ^ k) (beta1 S0)) b /\
    lag_basis (2 ^ k) (root k) (firstn (2 ^ k) (tau2 S0)) t2 /\
    is_z k (tau1 S0) z /\
    f7 lag_path = Some (lag_bytes t a b t2) /\
    f7 evals_path = Some (g1c (nth 0 (alpha1 S0) 0) ++ g1c (nth 0 (beta1 S0) 0) ++ g2c (beta2 S0) ++
      slice1 (cols cs r_L t) ++ slice1 (cols cs r_R t) ++ slice2 (cols cs r_R t2)) /\
    f7 p2 = Some (gob_hdr h ++ g1c (1 : E) ++ g2c (1 : E) ++ enc1 z).
Proof.
  intros [N1 [N2 [N3 [N4 [N5 [N6 [N7 N8]]]]]]] Hp HS HV F1 F2 Hcirc Hcons Hnb Hok Hm H27 Hdom Hnp Hkm h.
  pose proof Hdom as [K1 [K2 K3]]. pose proof (pow2_pos k) as P1.
  assert (H32 : (N.of_nat (2 ^ k) < 4294967296)%N).
  { pose proof (pow2_le k 27 H27). change (2 ^ Z.of_nat 27)%Z with 134217728%Z in *. lia. }
  pose proof HS as [Z1 [Z2 [Z3 Z4]]].
  destruct (conv_ex k (tau1 S0)) as [t Ct]; [lia|lia|]. destruct (conv_ex k (alpha1 S0)) as [a Ca]; [lia|lia|].
  destruct (conv_ex k (beta1 S0)) as [b Cb]; [lia|lia|]. destruct (conv_ex k (tau2 S0)) as [t2 Ct2]; [lia|lia|].
  pose proof Ct as [_ [_ [Lt Bt]]]. pose proof Ca as [_ [_ [La Ba]]]. pose proof Cb as [_ [_ [Lb Bb]]].
  pose proof Ct2 as [_ [_ [Lt2 Bt2]]].
  assert (Hd : h_domain h = Z.of_nat (2 ^ k)) by (unfold h, header2_of; now destruct (is_cmt _)).
  assert (C1 : contents f p1 = F) by now apply contents_some.
  unfold init_steps.
  (* circuit, header *)
  rewrite (cbind_ok _ _ _ _ _ (Hcirc f (fun _ _ _ _ => eq_refl))). rewrite Hnb.
  assert (E1 : exists s1, ev (process_header cs (Z.of_nat (length (r_cons cs)))) (opened F, opened F) (Ok (b8 (N.of_nat p), h)) s1 (on 0 (gob_hdr h))).
  { pose proof HV as [[c0 [c1 [F0 ->]]] _].
    exact (ev_process_header cs (Z.of_nat (length (r_cons cs))) p c0 c1 F0 (opened _, opened _) _ ltac:(lia) Hnp ltac:(lia) eq_refl). }
  destruct E1 as [s1 E1].
  rewrite <- C1 in E1. destruct (stage_ev _ p1 p1 [p2] f _ _ _ E1) as [f1 [S1 [O1 W1]]].
  rewrite (cbind_ok _ _ _ _ _ S1). cbn beta iota.
  assert (G1 : f1 p2 = Some (gob_hdr h)).
  { rewrite (W1 ltac:(constructor; [intros []|constructor]) 0%nat p2) by (auto; congruence).
    rewrite (contents_some _ _ _ F2). reflexivity. }
  assert (G1p : f1 p1 = Some F) by (rewrite O1; [auto|cbn; intros [X|[]]; congruence]).
  assert (Q1 : only3 p2 f f1) by (intros q A1 A2 A3; apply O1; cbn; intros [X|[]]; congruence).
  (* Lagrange *)
  set (f2 := fset f1 lag_path []).
  destruct (process_lagrange_ev p k F S0 t a b t2 (opened F, opened F) ltac:(lia) HV Ct Ca Cb Ct2 eq_refl) as [s2 E2].
  assert (G2p : f2 p1 = Some F) by (unfold f2; rewrite fset_other; auto).
  rewrite <- (contents_some _ _ _ G2p) in E2.
  destruct (stage_ev _ p1 p1 [p2; lag_path] f2 _ _ _ E2) as [f3 [S2 [O2 W2]]].
  assert (Lg : c_lagrange (E := E) p1 p2 (b8 (N.of_nat p)) h f1 = (Ok tt, f3)).
  { unfold c_lagrange. rewrite Hd, new_domain_pow by auto. unfold cbind, ccreate. exact S2. }
  rewrite (cbind_ok _ _ _ _ _ Lg).
  assert (ND : NoDup [p2; lag_path]).
  { constructor; [cbn; intros [X|[]]; congruence|]. constructor; [intros []|constructor]. }
  assert (G3 : f3 p2 = Some (gob_hdr h)).
  { assert (X : f2 p2 = Some (gob_hdr h)) by (unfold f2; rewrite fset_other; auto).
    rewrite (W2 ND 0%nat p2), (contents_some _ _ _ X) by (auto; congruence). cbn [on Nat.eqb]. now rewrite app_nil_r. }
  assert (G3l : f3 lag_path = Some (lag_bytes t a b t2)).
  { rewrite (W2 ND 1%nat lag_path) by (auto; unfold f2; rewrite fset_same; congruence).
    unfold f2. rewrite contents_same. reflexivity. }
  assert (Q3 : only3 p2 f f3).
  { intros q A1 A2 A3. rewrite O2; [|cbn; intros [X|[X|[]]]; congruence]. unfold f2. rewrite fset_other by auto. now apply Q1. }
  assert (G3p : f3 p1 = Some F) by (rewrite Q3; auto).
  (* evaluations *)
  rewrite (cbind_ok _ _ _ _ _ (copen_ok _ _ _ G3l)). rewrite (cbind_ok (ccreate evals_path) _ f3 tt _ eq_refl).
  set (f4 := fset f3 evals_path []).
  assert (Q4 : only3 p2 f f4) by (intros q A1 A2 A3; unfold f4; rewrite fset_other by auto; now apply Q3).
  assert (G4 : f4 p2 = Some (gob_hdr h)) by (unfold f4; rewrite fset_other; auto).
  assert (G4l : f4 lag_path = Some (lag_bytes t a b t2)) by (unfold f4; rewrite fset_other; [auto|intros X; now apply lag_evals]).
  assert (G4e : f4 evals_path = Some []) by (unfold f4; now rewrite fset_same).
  assert (G4p : f4 p1 = Some F) by (rewrite Q4; auto).
  destruct (process_eval_head_ev p k F S0 (opened F, opened (lag_bytes t a b t2)) ltac:(lia) HS HV eq_refl) as [s3 [_ E3]].
  rewrite <- (contents_some _ _ _ G4p), <- (contents_some _ _ _ G4l) in E3.
  destruct (stage3 _ p1 lag_path p2 f4 _ _ _ _ _ _ N7 N8 G4 G4l G4e E3) as [f5 [S3 [O5 [G5 [G5l G5e]]]]].
  rewrite (cbind_ok _ _ _ _ _ S3). cbn [on Nat.eqb] in G5, G5l, G5e. rewrite app_nil_r in G5, G5l. cbn [app] in G5e.
  assert (Q5 : only3 p2 f f5) by (intros q A1 A2 A3; rewrite O5 by auto; now apply Q4).
  rewrite (cbind_ok _ _ _ _ _ (Hcirc f5 Q5)). rewrite Hcons.
  destruct (process_eval_body_ev cs (Z.of_nat (length (r_cons cs))) (2 ^ k) (lag_bytes t a b t2) t a b t2
    (opened F, opened (lag_bytes t a b t2)) Hok Lt La Lb Lt2 H32 K2 eq_refl) as [s4 E4]. fold h in E4.
  assert (G5p : f5 p1 = Some F) by (rewrite Q5; auto).
  rewrite <- (contents_some _ _ _ G5p) in E4. rewrite <- (contents_some _ _ _ G5l) in E4 at 1.
  destruct (stage3 _ p1 lag_path p2 f5 _ _ _ _ _ _ N7 N8 G5 G5l G5e E4) as [f6 [S4 [O6 [G6 [G6l G6e]]]]].
  rewrite (cbind_ok _ _ _ _ _ S4). cbn [on Nat.eqb] in G6, G6l, G6e. rewrite app_nil_r in G6, G6l.
  assert (Q6 : only3 p2 f f6) by (intros q A1 A2 A3; rewrite O6 by auto; now apply Q5).
  (* delta and Z *)
  assert (G6p : f6 p1 = Some F) by (rewrite Q6; auto).
  destruct (process_delta_z_ev p k F S0 h (opened F, opened (lag_bytes t a b t2)) HS HV ltac:(pose proof (kmax_lt E); lia) Hd eq_refl)
    as [s5 [z [Hz E5]]].
  rewrite <- (contents_some _ _ _ G6p) in E5. rewrite <- (contents_some _ _ _ G6l) in E5 at 1.
  destruct (stage3 _ p1 lag_path p2 f6 _ _ _ _ _ _ N7 N8 G6 G6l G6e E5) as [f7 [S5 [O7 [G7 [G7l G7e]]]]].
  rewrite (cbind_ok _ _ _ _ _ S5). cbn [on Nat.eqb] in G7, G7l, G7e. rewrite app_nil_r in G7l, G7e.
  assert (Q7 : only3 p2 f f7) by (intros q A1 A2 A3; rewrite O7 by auto; now apply Q6).
  (* PVCKK *)
  rewrite (cbind_ok _ _ _ _ _ (copen_ok _ _ _ G7l)). rewrite (cbind_ok _ _ _ _ _ (Hcirc f7 Q7)). rewrite Hcons.
  exists f7, t, a, b, t2, z. split; [reflexivity|]. split; [assumption|].
  repeat (split; [assumption|]). split.
  - rewrite G7e. now rewrite <- ?app_assoc.
  - rewrite G7. now rewrite <- ?app_assoc.
Qed.

Section Consumers.
Variables (p k : nat) (F : bytes) (S0 : srs E) (cs : r1cs E) (f : fs) (p1 r1 p2 : string)
  (circuit : cmd (r1cs E)) (cons : r1cs E -> option (list r1c)) (nb : r1cs E -> Z).
Hypotheses (HN : names_ok p1 r1 p2) (Hp : p <= 54) (HS : enough k S0) (HV : seen p S0 F)
  (F1 : f p1 = Some F) (F2 : f p2 = Some [])
  (Hcirc : forall g, only3 p2 f g -> circuit g = (Ok cs, g))
  (Hcons : cons cs = Some (r_cons cs)) (Hnb : nb cs = Z.of_nat (length (r_cons cs)))
  (Hok : circuit_ok cs) (Hm : length (r_cons cs) <= 2 ^ p)
  (H27 : k <= 27) (Hdom : is_dom (length (r_cons cs)) k)
  (Hnp : next_pow2 (Z.of_nat (length (r_cons cs))) = Some (Z.of_nat (2 ^ k))) (Hkm : k <= kmax E).
Let h := header2_of cs (Z.of_nat (length (r_cons cs))) (Z.of_nat (2 ^ k)).

Lemma pow32 : (N.of_nat (2 ^ k) < 4294967296)%N.
Proof. pose proof (pow2_le k 27 H27). change (2 ^ Z.of_nat 27)%Z with 134217728%Z in *. lia. Qed.

Lemma init_steps_gen pkk vkk ckk : (forall t a b, filterL (Lsum cs t a b) h (r_cmt cs) = Some (pkk t a b, vkk t a b, ckk t a b)) ->
  exists f' t a b t2 z,
    init_steps circuit cons nb p1 p2 f = (Ok tt, f') /\ only3 p2 f f' /\
    lag_basis (2 ^ k) (root k) (firstn (2 ^ k) (tau1 S0)) t /\
    lag_basis (2 ^ k) (root k) (firstn (2 ^ k) (alpha1 S0)) a /\
    lag_basis (2 ^ k) (root k) (firstn (2 ^ k) (beta1 S0)) b /\
    lag_basis (2 ^ k) (root k) (firstn (2 ^ k) (tau2 S0)) t2 /\
    is_z k (tau1 S0) z /\
    f' lag_path = Some (lag_bytes t a b t2) /\
    f' evals_path = Some (evals_bytes (evals_of cs S0 t a b t2 (vkk t a b) (ckk t a b))) /\
    f' p2 = Some (file2 h (mkPar2 1 1 z (pkk t a b)) []).
Proof.
  intros HF.
  destruct (init_prefix p F S0 cs f p1 r1 p2 circuit cons nb k HN Hp HS HV F1 F2 Hcirc Hcons Hnb Hok Hm H27 Hdom Hnp Hkm)
    as [f7 [t [a [b [t2 [z [S7 [Q7 [Bt [Ba [Bb [Bt2 [Hz [G7l [G7e G7]]]]]]]]]]]]]]].
  fold h in S7, G7. destruct Hdom as [K1 [K2 K3]].
  destruct HN as [N1 [N2 [N3 [N4 [N5 [N6 [N7 N8]]]]]]].
  specialize (HF t a b). rewrite <- Lsum_padd in HF.
  destruct (process_pvckk_ev cs (Z.of_nat (length (r_cons cs))) (2 ^ k) (lag_bytes t a b t2) t a b t2
    (opened (contents f7 p1), opened (lag_bytes t a b t2)) Hok (proj1 Bt) (proj1 Ba) (proj1 Bb) pow32 K2 eq_refl _ _ _ HF) as [s6 E6].
  fold h in E6. rewrite <- (contents_some _ _ _ G7l) in E6 at 1.
  destruct (stage3 _ p1 lag_path p2 f7 _ _ _ _ _ _ N7 N8 G7 G7l G7e E6) as [f8 [S6 [O8 [G8 [G8l G8e]]]]].
  unfold cat, on in G8, G8l, G8e. cbn [Nat.eqb] in G8, G8l, G8e. cbn [app] in G8l, G8e. rewrite !app_nil_r in G8. rewrite app_nil_r in G8l.
  exists f8, t, a, b, t2, z. split; [now rewrite S7|].
  split; [intros q A1 A2 A3; rewrite O8 by auto; now apply Q7|].
  repeat (split; [assumption|]). split.
  - rewrite G8e. unfold evals_bytes, evals_of. cbn [v_alpha v_beta1 v_beta2 v_A v_B v_B2 v_vkk v_ckk v_cmt].
    now rewrite <- !app_assoc.
  - rewrite G8. unfold file2, head2, par2_bytes. cbn [p_d1 p_d2 p_Z p_K recs2_bytes flat_map].
    now rewrite <- !app_assoc, app_nil_r.
Qed.

(* without commitment *)
Lemma init_steps_ok : no_cmt cs ->
  exists f' t a b t2 z,
    init_steps circuit cons nb p1 p2 f = (Ok tt, f') /\ only3 p2 f f' /\
    lag_basis (2 ^ k) (root k) (firstn (2 ^ k) (tau1 S0)) t /\
    lag_basis (2 ^ k) (root k) (firstn (2 ^ k) (alpha1 S0)) a /\
    lag_basis (2 ^ k) (root k) (firstn (2 ^ k) (beta1 S0)) b /\
    lag_basis (2 ^ k) (root k) (firstn (2 ^ k) (tau2 S0)) t2 /\
    is_z k (tau1 S0) z /\
    f' lag_path = Some (lag_bytes t a b t2) /\
    f' evals_path = Some (evals_bytes (evals_of cs S0 t a b t2 (firstn (nb_public cs) (Lsum cs t a b)) [])) /\
    f' p2 = Some (file2 (hdr_of cs k) (mkPar2 1 1 z (skipn (nb_public cs) (Lsum cs t a b))) []).
Proof.
  intros Hnc. rewrite <- (header2_hdr cs k Hnc).
  apply (init_steps_gen (fun t a b => skipn (nb_public cs) (Lsum cs t a b)) (fun t a b => firstn (nb_public cs) (Lsum cs t a b)) (fun _ _ _ => [])).
  intros t a b. unfold h. apply filterL_nocmt; auto. unfold Lsum. now rewrite map_length, seq_length.
Qed.

(* when the split panics, so does the command *)
Lemma init_steps_panic : (forall t a b : list E, filterL (Lsum cs t a b) h (r_cmt cs) = None) ->
  exists f', init_steps circuit cons nb p1 p2 f = (Panic, f').
Proof.
  intros HF.
  destruct (init_prefix p F S0 cs f p1 r1 p2 circuit cons nb k HN Hp HS HV F1 F2 Hcirc Hcons Hnb Hok Hm H27 Hdom Hnp Hkm)
    as [f7 [t [a [b [t2 [z [S7 [Q7 [Bt [Ba [Bb [Bt2 [Hz [G7l [G7e G7]]]]]]]]]]]]]]].
  fold h in S7, G7. destruct Hdom as [K1 [K2 K3]]. specialize (HF t a b). rewrite <- Lsum_padd in HF.
  destruct (process_pvckk_panic cs (Z.of_nat (length (r_cons cs))) (2 ^ k) (lag_bytes t a b t2) t a b t2
    (opened (contents f7 p1), opened (lag_bytes t a b t2)) Hok (proj1 Bt) (proj1 Ba) (proj1 Bb) pow32 K2 eq_refl HF) as [s6 E6].
  fold h in E6. rewrite <- (contents_some _ _ _ G7l) in E6 at 1.
  destruct (stage_ev _ p1 lag_path [p2; lag_path; evals_path] f7 _ _ _ E6) as [f8 [S6 _]].
  exists f8. now rewrite S7.
Qed.
End Consumers.
End Init.
