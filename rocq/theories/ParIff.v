(* ParIff.v -- which input p2np accepts, whatever the number of constraints it is called with. *)
From Coq Require Import String Sorted.
From Verif Require Import Base Fld IO Ext Spec1 Phase1 Phase1Io Phase1Verify Phase1Inv Gob GobLemmas Circuit Spec2 Phase2 Phase2Io Phase2Lemmas Spec3 Fs Init2 Init2Pure Init2Io Init2Claims Init2More Spec4 Keys Spec14 Parted Negative Spec21 Spec32 NewIff Spec33 CircIff.
Local Open Scope fld_scope.

Section P.
Context {E : Ext2}.
Lemma np_low z : (z <= 0)%Z -> next_pow2 z = Some 2%Z.
Proof. intros H. unfold next_pow2. cbn [np2]. destruct (Z.leb_spec z 2); [reflexivity|lia]. Qed.
Lemma header_swap (cs : r1cs E) y z s pw h s' d : (y <= 0)%Z -> (z <= 0)%Z -> (0 <= pow2 pw)%Z -> ev (process_header cs y) s (Ok (pw, h)) s' d ->
  exists s2 d2, ev (process_header cs z) s (Ok (pw, header2_of cs z 2)) s2 d2.
Proof.
  intros Hy Hz HP H. unfold process_header in *. rewrite np_low in H by exact Hy. rewrite np_low by exact Hz. cbn [orBoom] in *.
  apply bind_ok_inv in H as [[pw' n] [s1 [d1 [d2 [H1 [H2 _]]]]]]. cbn beta iota in H2.
  destruct (Z.ltb_spec (pow2 pw') y) as [L|L]; [destruct H2 as [w [H2 _]]; discriminate|].
  assert (PW : pw' = pw).
  { apply bind_ok_inv in H2 as [u [s2 [d3 [d4 [_ [H4 _]]]]]]. destruct H4 as [w [H4 _]]. cbn in H4. now injection H4. }
  subst pw'. eexists _, _. eapply ev_bind; [exact H1|]. cbn beta iota. destruct (Z.ltb_spec (pow2 pw) z); [lia|].
  eapply ev_bind; [apply ev_write_hdr|]. eexists. split; reflexivity.
Qed.
Lemma low_same (cs : r1cs E) p1 p2 y z pw rest f : (y <= 0)%Z -> (z <= 0)%Z -> (0 <= pow2 pw)%Z ->
  p1 <> p2 -> p1 <> lag_path -> p1 <> evals_path -> p2 <> lag_path -> p2 <> evals_path -> f p1 = Some (pw :: rest) ->
  (exists fa, p2np (E := E) cs p1 p2 y f = (Ok tt, fa)) -> exists fa, p2np (E := E) cs p1 p2 z f = (Ok tt, fa).
Proof.
  intros Hy Hz HP N1 N2 N3 N4 N5 F1 [fa R]. rewrite (p2np_start _ _ _ _ _ _ F1) in R. rewrite (p2np_start _ _ _ _ _ _ F1).
  set (g := fset f p2 []) in *. assert (G1 : contents g p1 = pw :: rest) by (unfold contents, g; rewrite fset_other by congruence; now rewrite F1).
  assert (G2 : g p2 = Some []) by (unfold g; apply fset_same).
  unfold init_steps in *. rewrite (cbind_ok (cret cs) _ g cs g eq_refl) in R. rewrite (cbind_ok (cret cs) _ g cs g eq_refl).
  apply cbind_inv in R as [[pw' h0] [f1 [S1 R]]]. destruct (stage_only _ _ _ _ _ _ _ S1) as [s' [d [EV _]]]. rewrite G1 in EV.
  destruct (process_header_inv _ _ (opened (pw :: rest), opened (pw :: rest)) (pw :: rest) _ _ _ _ eq_refl EV) as [dom [t [D1 [D2 [_ [D4 D5]]]]]].
  injection D2 as <- <-. rewrite np_low in D1 by exact Hy. injection D1 as <-.
  set (h := header2_of cs y 2) in *. subst h0. assert (HH : header2_of cs z 2 = cons_at h z) by (unfold h, header2_of; now destruct (is_cmt (r_cmt cs))).
  destruct (header_swap cs y z _ _ _ _ _ Hy Hz HP EV) as [s2 [d2 EV2]]. rewrite HH in EV2.
  destruct (process_header_inv _ _ (opened (pw :: rest), opened (pw :: rest)) (pw :: rest) _ _ _ _ eq_refl EV2) as [_ [_ [_ [_ [_ [_ D5']]]]]].
  assert (ND : NoDup [p2]) by (constructor; [intros []|constructor]).
  rewrite <- G1 in EV, EV2. destruct (stage_ev _ p1 p1 [p2] g _ _ _ EV) as [f1a [S1a [O1 W1]]]. rewrite S1 in S1a. injection S1a as <-.
  destruct (stage_ev _ p1 p1 [p2] g _ _ _ EV2) as [f1' [S1' [O1' W1']]].
  specialize (W1 ND 0%nat p2 eq_refl ltac:(congruence)). specialize (W1' ND 0%nat p2 eq_refl ltac:(congruence)).
  rewrite D5, (contents_some _ _ _ G2) in W1. rewrite D5', (contents_some _ _ _ G2) in W1'. cbn [on Nat.eqb app] in W1, W1'.
  rewrite (cbind_ok _ _ _ _ _ S1'). cbn beta iota in *.
  assert (T1 : two p2 (gob_hdr h) (gob_hdr (cons_at h z)) f1 f1').
  { split; [exists []; now rewrite !app_nil_r|]. intros q Q. rewrite O1, O1'; auto; intros [X|[]]; congruence. }
  assert (PC : forall c : r1cs E, parted_cons c z = parted_cons c y) by (intros c; unfold parted_cons; f_equal; lia).
  assert (L : lag_path <> p2) by congruence. assert (L2 : evals_path <> p2) by congruence.
  match type of R with ?c f1 = _ => match goal with |- exists fa', ?c' f1' = _ => assert (AL : alike p2 (gob_hdr h) (gob_hdr (cons_at h z)) c c') end end.
  { apply alike_bind; [now apply lag_alike|intros []].
    apply alike_bind; [now apply alike_open|intros []]. apply alike_bind; [now apply alike_create|intros []].
    apply alike_bind; [now apply alike_stage|intros []]. apply alike_bind; [apply alike_ret|intros cs'; rewrite PC].
    apply alike_bind; [now apply (alike_stage p2 _ _ (process_eval_body cs' _ h))|intros []].
    apply alike_bind; [now apply (alike_stage p2 _ _ (process_delta_z h))|intros []].
    apply alike_bind; [now apply alike_open|intros []]. apply alike_bind; [apply alike_ret|intros cs2; rewrite PC].
    apply alike_stages; [assumption|assumption|]. intros s. apply pvckk_at. }
  destruct (AL f1 f1' T1) as [A1 _]. rewrite R in A1. cbn [fst snd] in A1.
  match goal with |- exists fa', ?c' f1' = _ => destruct (c' f1') as [r g'] end. cbn [fst] in A1. subst r. now exists g'.
Qed.

Lemma par_nat p k rest (cs : r1cs E) m f p1 p2 : names_ok p1 p1 p2 -> p <= 54 -> f p1 = Some (b8 (N.of_nat p) :: rest) -> cmt_written cs ->
  m <= length (r_cons cs) -> is_dom m k ->
  ((exists f', p2np (E := E) cs p1 p2 (Z.of_nat m) f = (Ok tt, f')) <->
   circuit_ok (trunc m cs) /\ servable cs /\ m <= 2 ^ p /\ k <= kmax E /\ k <= 27 /\ exists S0 : srs E, uses p k (b8 (N.of_nat p) :: rest) S0).
Proof.
  intros HN Hp F1 HC M KD. pose proof HN as [N1 [_ [N2 [N3 _]]]].
  pose proof (p2np_trunc (E := always (trunc m cs)) cs m p1 p1 p2 f _ M N1 N2 N3 F1 eq_refl) as P. rewrite p2np_always in P. rewrite P.
  assert (LM : length (r_cons (trunc m cs)) = m) by (cbn [trunc r_cons]; rewrite firstn_length; lia).
  assert (KD' : is_dom (length (r_cons (trunc m cs))) k) by (rewrite LM; exact KD).
  assert (M3 : m <= 2 ^ p <-> length (r_cons (trunc m cs)) <= 2 ^ p) by now rewrite LM.
  rewrite M3. exact (circ_iff (E := always (trunc m cs)) p k rest _ (trunc m cs) f p1 p1 p2 HN Hp F1 F1 eq_refl HC KD').
Qed.
Lemma par_iff0 p k rest (cs : r1cs E) nb f p1 p2 : names_ok p1 p1 p2 -> p <= 54 -> f p1 = Some (b8 (N.of_nat p) :: rest) -> cmt_written cs ->
  is_dom (Z.to_nat nb) k ->
  ((exists f', p2np (E := E) cs p1 p2 nb f = (Ok tt, f')) <->
   (nb <= Z.of_nat (length (r_cons cs)))%Z /\ circuit_ok (trunc (Z.to_nat nb) cs) /\ servable cs /\
   (nb <= 2 ^ Z.of_nat p)%Z /\ k <= kmax E /\ k <= 27 /\ exists S0 : srs E, uses p k (b8 (N.of_nat p) :: rest) S0).
Proof.
  intros HN Hp F1 HC KD. assert (P2 : (2 ^ Z.of_nat p)%Z = Z.of_nat (2 ^ p)) by (rewrite Nat2Z.inj_pow; reflexivity). rewrite P2.
  destruct (Z.lt_ge_cases (Z.of_nat (length (r_cons cs))) nb) as [G|G].
  { split; [intros [f' H]; contradiction (p2np_too_many _ _ _ _ _ _ G H)|intros [Q _]; lia]. }
  destruct (Z.le_gt_cases 0 nb) as [Z0|Z0].
  - pose proof (par_nat p k rest cs (Z.to_nat nb) f p1 p2 HN Hp F1 HC ltac:(lia) KD) as Q. rewrite Z2Nat.id in Q by lia. rewrite Q.
    split; [intros [R1 [R2 [R6 [R3 [R4 R5]]]]]|intros [_ [R1 [R2 [R6 [R3 [R4 R5]]]]]]].
    + split; [exact G|]. split; [exact R1|]. split; [exact R2|]. split; [lia|]. auto.
    + split; [exact R1|]. split; [exact R2|]. split; [lia|]. auto.
  - replace (Z.to_nat nb) with 0%nat in * by lia.
    pose proof (par_nat p k rest cs 0 f p1 p2 HN Hp F1 HC ltac:(lia) KD) as Q. cbn [Z.of_nat] in Q.
    destruct HN as [N1 [_ [N2 [N3 [_ [_ [N4 N5]]]]]]].
    assert (PW : (0 <= pow2 (b8 (N.of_nat p)))%Z) by (rewrite pow2_small by lia; lia).
    assert (S : (exists f', p2np (E := E) cs p1 p2 nb f = (Ok tt, f')) <-> (exists f', p2np (E := E) cs p1 p2 0 f = (Ok tt, f'))).
    { split; intros H; [exact (low_same cs p1 p2 nb 0 _ rest f ltac:(lia) ltac:(lia) PW N1 N2 N3 N4 N5 F1 H)|exact (low_same cs p1 p2 0 nb _ rest f ltac:(lia) ltac:(lia) PW N1 N2 N3 N4 N5 F1 H)]. }
    rewrite S, Q. pose proof (Nat.pow_nonzero 2 p ltac:(lia)). split; [intros [R1 [R2 [_ [R3 [R4 R5]]]]]|intros [_ [R1 [R2 [_ [R3 [R4 R5]]]]]]].
    + split; [lia|]. split; [exact R1|]. split; [exact R2|]. split; [lia|]. auto.
    + split; [exact R1|]. split; [exact R2|]. split; [lia|]. auto.
Qed.
Lemma par_writes0 p k (S0 : srs E) (cs : r1cs E) m f p1 p2 rest : names_ok p1 p1 p2 -> p <= 54 ->
  f p1 = Some (b8 (N.of_nat p) :: rest) -> m <= length (r_cons cs) -> circuit_ok (trunc m cs) -> no_cmt cs ->
  m <= 2 ^ p -> is_dom m k -> k <= kmax E -> k <= 27 -> uses p k (b8 (N.of_nat p) :: rest) S0 ->
  exists f' t a b t2 z, let c := trunc m cs in
    p2np (E := E) cs p1 p2 (Z.of_nat m) f = (Ok tt, f') /\ only3 p2 f f' /\
    lag_basis (2 ^ k) (root k) (firstn (2 ^ k) (tau1 S0)) t /\ lag_basis (2 ^ k) (root k) (alpha1 S0) a /\
    lag_basis (2 ^ k) (root k) (beta1 S0) b /\ lag_basis (2 ^ k) (root k) (tau2 S0) t2 /\ is_z k (tau1 S0) z /\
    f' lag_path = Some (lag_bytes t a b t2) /\
    f' evals_path = Some (evals_bytes (mkEvals (nth 0 (alpha1 S0) 0) (nth 0 (beta1 S0) 0) (beta2 S0)
      (cols c r_L t) (cols c r_R t) (cols c r_R t2) (firstn (nb_public c) (Lsum c t a b)) [] (cmt_bytes (e := E) (r_cmt c)))) /\
    f' p2 = Some (file2 (hdr_of c k) (mkPar2 1 1 z (skipn (nb_public c) (Lsum c t a b))) []).
Proof.
  intros HN Hp F1 M Hok HC M2 KD KM K27 HU. pose proof HN as [N1 [_ [N2 [N3 _]]]].
  pose proof (p2np_trunc (E := always (trunc m cs)) cs m p1 p1 p2 f _ M N1 N2 N3 F1 eq_refl) as P. rewrite p2np_always in P. rewrite P.
  assert (LM : length (r_cons (trunc m cs)) = m) by (cbn [trunc r_cons]; rewrite firstn_length; lia).
  assert (KD' : is_dom (length (r_cons (trunc m cs))) k) by (rewrite LM; exact KD).
  assert (M2' : length (r_cons (trunc m cs)) <= 2 ^ p) by (rewrite LM; exact M2).
  exact (p2n_if (E := always (trunc m cs)) p k S0 (trunc m cs) f p1 p1 p2 rest _ HN Hp F1 F1 eq_refl Hok HC M2' KD' KM K27 HU).
Qed.
Lemma par_iff p k rest (cs : r1cs E) nb f p1 p2 : p1 <> p2 -> p1 <> lag_path -> p1 <> evals_path -> p2 <> lag_path -> p2 <> evals_path -> p <= 54 -> f p1 = Some (b8 (N.of_nat p) :: rest) -> cmt_written cs ->
  is_dom (Z.to_nat nb) k ->
  ((exists f', p2np (E := E) cs p1 p2 nb f = (Ok tt, f')) <->
   (nb <= Z.of_nat (length (r_cons cs)))%Z /\ circuit_ok (trunc (Z.to_nat nb) cs) /\ servable cs /\
   (nb <= 2 ^ Z.of_nat p)%Z /\ k <= kmax E /\ k <= 27 /\ exists S0 : srs E, uses p k (b8 (N.of_nat p) :: rest) S0).
Proof. intros. apply par_iff0; auto. repeat split; auto. Qed.
Lemma par_writes p k (S0 : srs E) (cs : r1cs E) m f p1 p2 rest : p1 <> p2 -> p1 <> lag_path -> p1 <> evals_path -> p2 <> lag_path -> p2 <> evals_path -> p <= 54 ->
  f p1 = Some (b8 (N.of_nat p) :: rest) -> m <= length (r_cons cs) -> circuit_ok (trunc m cs) -> no_cmt cs ->
  m <= 2 ^ p -> is_dom m k -> k <= kmax E -> k <= 27 -> uses p k (b8 (N.of_nat p) :: rest) S0 ->
  exists f' t a b t2 z, let c := trunc m cs in
    p2np (E := E) cs p1 p2 (Z.of_nat m) f = (Ok tt, f') /\ only3 p2 f f' /\
    lag_basis (2 ^ k) (root k) (firstn (2 ^ k) (tau1 S0)) t /\ lag_basis (2 ^ k) (root k) (alpha1 S0) a /\
    lag_basis (2 ^ k) (root k) (beta1 S0) b /\ lag_basis (2 ^ k) (root k) (tau2 S0) t2 /\ is_z k (tau1 S0) z /\
    f' lag_path = Some (lag_bytes t a b t2) /\
    f' evals_path = Some (evals_bytes (mkEvals (nth 0 (alpha1 S0) 0) (nth 0 (beta1 S0) 0) (beta2 S0)
      (cols c r_L t) (cols c r_R t) (cols c r_R t2) (firstn (nb_public c) (Lsum c t a b)) [] (cmt_bytes (e := E) (r_cmt c)))) /\
    f' p2 = Some (file2 (hdr_of c k) (mkPar2 1 1 z (skipn (nb_public c) (Lsum c t a b))) []).
Proof. intros. apply (par_writes0 p k S0 cs m f p1 p2 rest); auto. repeat split; auto. Qed.
End P.
