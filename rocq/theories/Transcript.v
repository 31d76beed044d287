(* Transcript.v -- a prover who has every point a ceremony shows, not only those of the last files, still proves
   true statements only (Spec16.v). *)
From Coq Require Import Ring Field Permutation.
From Verif Require Import Base Fld Conc Parallel BitRev FFT Poly IO Ext Spec1 Gob GobLemmas Circuit Spec2 Phase1Facts Spec3 Interp Spec4 Groth Init2 Init2Claims Init2More Spec13 Generic Spec16.
Local Open Scope fld_scope.

Section Equation.
Context {K : Fld}.
Add Field Ktr : (f_th K).
(* as Generic.equation, with a multiple b4 of alpha in G2 *)
Lemma equation2 (A0 A1 A2 a3 La Ra Oa B0 b1 b2 b4 Xl Xr Xo C0 C1 C2 c3 Lc Rc Oc : K) :
  more 3 (fun d => d <> 0 /\ more 2 (fun b => more 2 (fun a =>
    (A0 + a * A1 + b * A2 + d * a3 + (b * La + a * Ra + Oa) / d) * (B0 + b * b1 + d * b2 + a * b4) =
    a * b + (b * Xl + a * Xr + Xo) + (C0 + a * C1 + b * C2 + d * c3 + (b * Lc + a * Rc + Oc) / d) * d))) ->
  (Xl + Lc) * (Xr + Rc) = Xo + Oc.
Proof.
  intros H.
  assert (H1 : more 3 (fun d => d <> 0 /\
    (Oa * B0 + (A0 * B0 + Oa * b2 - Xo - Oc) * d + (A0 * b2 + a3 * B0 - C0) * d * d + (a3 * b2 - c3) * d * d * d = 0 /\
     (La * B0 + Oa * b1) + (A0 * b1 + A2 * B0 + La * b2 - Xl - Lc) * d + (A2 * b2 + a3 * b1 - C2) * d * d + 0 * d * d * d = 0 /\
     La * b1 + A2 * b1 * d + 0 * d * d + 0 * d * d * d = 0) /\
    ((Ra * B0 + Oa * b4) + (A1 * B0 + Ra * b2 + A0 * b4 - Xr - Rc) * d + (A1 * b2 + a3 * b4 - C1) * d * d + 0 * d * d * d = 0 /\
     (Ra * b1 + La * b4) + (A1 * b1 + A2 * b4 - 1) * d + 0 * d * d + 0 * d * d * d = 0) /\
    Ra * b4 + A1 * b4 * d + 0 * d * d + 0 * d * d * d = 0)).
  { revert H. apply more_imp. intros d [D H]. split; [exact D|].
    assert (H2 : more 2 (fun b =>
      ((Oa * B0 + (A0 * B0 + Oa * b2 - Xo - Oc) * d + (A0 * b2 + a3 * B0 - C0) * d * d + (a3 * b2 - c3) * d * d * d) +
       ((La * B0 + Oa * b1) + (A0 * b1 + A2 * B0 + La * b2 - Xl - Lc) * d + (A2 * b2 + a3 * b1 - C2) * d * d + 0 * d * d * d) * b +
       (La * b1 + A2 * b1 * d + 0 * d * d + 0 * d * d * d) * b * b = 0) /\
      (((Ra * B0 + Oa * b4) + (A1 * B0 + Ra * b2 + A0 * b4 - Xr - Rc) * d + (A1 * b2 + a3 * b4 - C1) * d * d + 0 * d * d * d) +
       ((Ra * b1 + La * b4) + (A1 * b1 + A2 * b4 - 1) * d + 0 * d * d + 0 * d * d * d) * b + 0 * b * b = 0) /\
      (Ra * b4 + A1 * b4 * d + 0 * d * d + 0 * d * d * d) + 0 * b + 0 * b * b = 0)).
    { revert H. apply more_imp. intros b H. apply quad_zero. revert H. apply more_imp. intros a H.
      match type of H with ?l = ?r => transitivity ((l - r) * d) end; [field; exact D|]. rewrite H. ring. }
    assert (Q : forall u v z : K, u = 0 /\ v = 0 /\ z = 0 -> u = 0 /\ v = 0) by tauto.
    split; [|split].
    - apply quad_zero. revert H2. apply more_imp. tauto.
    - apply (Q _ _ 0), quad_zero. revert H2. apply more_imp. intros b [_ [H2 _]]. exact H2.
    - assert (X := quad_zero _ _ _ (more_imp _ _ _ (fun b Y => proj2 (proj2 Y)) H2)). tauto. }
  assert (G1 := cube_zero _ _ _ _ (more_imp _ _ _ (fun d X => proj1 (proj1 (proj2 X))) H1)).
  assert (G2 := cube_zero _ _ _ _ (more_imp _ _ _ (fun d X => proj1 (proj2 (proj1 (proj2 X)))) H1)).
  assert (G3 := cube_zero _ _ _ _ (more_imp _ _ _ (fun d X => proj2 (proj2 (proj1 (proj2 X)))) H1)).
  assert (G4 := cube_zero _ _ _ _ (more_imp _ _ _ (fun d X => proj1 (proj1 (proj2 (proj2 X)))) H1)).
  assert (G5 := cube_zero _ _ _ _ (more_imp _ _ _ (fun d X => proj2 (proj1 (proj2 (proj2 X)))) H1)).
  assert (G6 := cube_zero _ _ _ _ (more_imp _ _ _ (fun d X => proj2 (proj2 (proj2 X))) H1)).
  destruct G1 as [_ [P1 _]]. destruct G2 as [P2 [P3 _]]. destruct G3 as [P4 [P5 _]]. destruct G4 as [P9 [P6 _]]. destruct G5 as [P7 [P8 _]].
  destruct G6 as [PA [PB _]].
  assert (AB : A1 * b1 + A2 * b4 = 1) by (transitivity ((A1 * b1 + A2 * b4 - 1) + 1); [ring|rewrite P8; ring]).
  assert (E1 : Xl + Lc = A0 * b1 + A2 * B0 + La * b2) by (transitivity (A0 * b1 + A2 * B0 + La * b2 - (A0 * b1 + A2 * B0 + La * b2 - Xl - Lc)); [ring|rewrite P3; ring]).
  assert (E2 : Xr + Rc = A1 * B0 + Ra * b2 + A0 * b4) by (transitivity (A1 * B0 + Ra * b2 + A0 * b4 - (A1 * B0 + Ra * b2 + A0 * b4 - Xr - Rc)); [ring|rewrite P6; ring]).
  assert (E3 : Xo + Oc = A0 * B0 + Oa * b2) by (transitivity (A0 * B0 + Oa * b2 - (A0 * B0 + Oa * b2 - Xo - Oc)); [ring|rewrite P1; ring]).
  destruct (feq_dec K b1 0) as [Z|NB].
  - subst b1. assert (AB4 : A2 * b4 = 1) by (rewrite <- AB; ring).
    assert (N4 : b4 <> 0) by (intros Z; rewrite Z in AB4; apply (f1_neq_0 K); rewrite <- AB4; ring).
    assert (cancel : forall u : K, u * b4 = 0 -> u = 0) by (intros u Hu; apply fmul_0_iff in Hu; tauto).
    apply cancel in PA, PB. subst Ra A1.
    assert (LZ : La = 0) by (apply cancel; rewrite <- P7; ring). subst La.
    assert (OZ : Oa = 0) by (apply cancel; rewrite <- P9; ring). subst Oa.
    rewrite E1, E2, E3. transitivity (A0 * B0 * (A2 * b4)); [ring|rewrite AB4; ring].
  - assert (cancel : forall u : K, u * b1 = 0 -> u = 0) by (intros u Hu; apply fmul_0_iff in Hu; tauto).
    apply cancel in P4, P5. subst La A2. assert (AB1 : A1 * b1 = 1) by (rewrite <- AB; ring).
    assert (N1 : A1 <> 0) by (intros Z; rewrite Z in AB1; apply (f1_neq_0 K); rewrite <- AB1; ring).
    assert (b4 = 0) as -> by (apply fmul_0_iff in PB; tauto).
    assert (RZ : Ra = 0) by (apply cancel; rewrite <- P7; ring). subst Ra.
    assert (OZ : Oa = 0) by (apply cancel; rewrite <- P2; ring). subst Oa.
    rewrite E1, E2, E3. transitivity (A0 * B0 * (A1 * b1)); [ring|rewrite AB1; ring].
Qed.
End Equation.

Section Sound.
Context {E : Ext2}.
Add Field Etr : (f_th E).
Variables (p k : nat) (cs : r1cs E).
Let np := nb_public cs.
Let W := wires cs.
Let s1 := (2 * 2 ^ p - 1)%nat.
Let s2 := (s1 + 2 ^ p)%nat.
Let s3 := (s2 + 2 ^ p)%nat.
Let s4 := (s3 + 1)%nat.
Let s5 := (s4 + W)%nat.
Let s6 := (s5 + W)%nat.
Let s7 := (s6 + np)%nat.
Let s8 := (before_K p cs k + (W - np))%nat.
Let s9 := (s8 + (2 ^ k - 1))%nat.
Lemma published1_length alpha beta delta tau q v : is_keypair cs k (root k) alpha beta delta tau q v ->
  length (published1 (srs_of p tau alpha beta) q v) = s8.
Proof.
  intros [t' [Ht' [Q1 [Q2 [Q3 [Q4 [Q5 [QA [QB [QB2 [QK [LZ [QZ [W1 [W2 [W3 [W4 [W5 [WK WC]]]]]]]]]]]]]]]]]]].
  unfold published1, srs_of. cbn [tau1 alpha1 beta1]. rewrite !app_length, QA, QB, WK, QK, LZ, !map_length, !seq_length. cbn [length].
  unfold s8, before_K. unfold W, np. lia.
Qed.
Lemma published2_length alpha beta delta tau q v : is_keypair cs k (root k) alpha beta delta tau q v ->
  length (published2 (srs_of p tau alpha beta) q) = (2 ^ p + 2 + W)%nat.
Proof.
  intros [t' [Ht' [Q1 [Q2 [Q3 [Q4 [Q5 [QA [QB [QB2 _]]]]]]]]]].
  unfold published2, srs_of. cbn [tau2 beta2]. rewrite !app_length, QB2, QB, !map_length, !seq_length. cbn [length].
  unfold W. lia.
Qed.
Lemma basis_shape1 c alpha beta delta tau q v q1 v1 t : delta <> 0 -> lag_values (2 ^ k) (root k) tau t ->
  (lag_values (2 ^ k) (root k) tau t -> forall t', lag_values (2 ^ k) (root k) tau t' -> t' = t) ->
  is_keypair cs k (root k) alpha beta delta tau q v -> is_keypair cs k (root k) alpha beta 1 tau q1 v1 ->
  comb c (basis1 (srs_of p tau alpha beta) q v q1) =
    (tausum tau c 0 s1 + colsum cs t c s4 r_L 0 W + colsum cs t c s5 r_R 0 W + colsum cs t c s6 r_O 0 np + zsum k s8 c tau + colsum cs t c s9 r_O np (W - np)) +
    alpha * (tausum tau c s1 (2 ^ p) + colsum cs t c s6 r_R 0 np + colsum cs t c s9 r_R np (W - np)) +
    beta * (tausum tau c s2 (2 ^ p) + colsum cs t c s6 r_L 0 np + colsum cs t c s9 r_L np (W - np)) +
    delta * nth s3 c 0 +
    (beta * K_sum p k cs t c r_L + alpha * K_sum p k cs t c r_R + (K_sum p k cs t c r_O + zsum k s7 c tau)) / delta.
Proof.
  intros D Ht U KP KP1. unfold basis1. change (comb c) with (comb_at 0 c). rewrite !comb_app.
  change (comb_at 0 c) with (comb c). rewrite (shape1 p k cs c _ _ _ _ _ _ t D Ht U KP).
  rewrite (published1_length _ _ _ _ _ _ KP). cbn [Nat.add].
  destruct KP1 as [t' [Ht' [_ [_ [_ [_ [_ [_ [_ [_ [QK [LZ [QZ _]]]]]]]]]]]]]. apply (U Ht) in Ht'. subst t'.
  rewrite LZ. fold s9. rewrite (comb_Z k _ _ _ tau 1 (f1_neq_0 E) LZ QZ), QK, comb_map.
  rewrite (kat_sum_div cs t c s9 alpha beta 1 (nb_public cs) (wires cs - nb_public cs) (f1_neq_0 E)).
  fold np W s1. fold s2. fold s3. fold s4. fold s5. fold s6. fold s7. field. split; [exact D|exact (f1_neq_0 E)].
Qed.
Lemma basis_shape2 c alpha beta delta tau q v t : lag_values (2 ^ k) (root k) tau t ->
  (lag_values (2 ^ k) (root k) tau t -> forall t', lag_values (2 ^ k) (root k) tau t' -> t' = t) ->
  is_keypair cs k (root k) alpha beta delta tau q v ->
  comb c (basis2 (srs_of p tau alpha beta) q) =
    (tausum tau c 0 (2 ^ p) + colsum cs t c (2 ^ p + 2) r_R 0 W) + beta * nth (2 ^ p) c 0 + delta * nth (2 ^ p + 1) c 0 + alpha * nth (2 ^ p + 2 + W) c 0.
Proof.
  intros Ht U KP. unfold basis2. change (comb c) with (comb_at 0 c). rewrite !comb_app.
  change (comb_at 0 c) with (comb c). rewrite (shape2 p k cs c _ _ _ _ _ _ t Ht U KP).
  rewrite (published2_length _ _ _ _ _ _ KP). cbn [Nat.add]. rewrite comb_one. unfold srs_of. cbn [alpha1].
  rewrite nth_map_seq by (pose proof (Nat.pow_nonzero 2 p); lia). cbn [Nat.add fpow]. fold W. ring.
Qed.
Variables (x : nat -> E) (ca cb cc : list E).
Hypotheses (Hk : 1 <= k <= kmax E) (fits : (length (r_cons cs) <= 2 ^ k)%nat).
Let n := (2 ^ k)%nat.
Let x' := extracted p cs k x cc.
Let h := zpoly k s7 cc.
Lemma at_tau2 tau (a b c : list E) : values_poly cs x' r_L n (root k) a -> values_poly cs x' r_R n (root k) b -> values_poly cs x' r_O n (root k) c ->
  more 3 (fun delta => delta <> 0 /\ more 2 (fun beta => more 2 (fun alpha => convinces_more p cs k x ca cb cc alpha beta delta tau))) ->
  peval a tau * peval b tau = peval c tau + peval h tau * (tau ^ n - 1).
Proof.
  intros Va Vb Vc H. destruct (root_conds k Hk) as [R1 R2].
  destruct (lag_values_ex k Hk tau) as [t Ht]. fold n in Ht.
  assert (U : lag_values n (root k) tau t -> forall t', lag_values n (root k) tau t' -> t' = t).
  { intros _ t' Ht'. exact (lag_values_unique k (root k) (proj1 Hk) R1 R2 tau t' t Ht' Ht). }
  rewrite <- (wire_sum k (root k) (proj1 Hk) R1 R2 cs x' fits r_L t a tau eq_refl Ht Va).
  rewrite <- (wire_sum k (root k) (proj1 Hk) R1 R2 cs x' fits r_R t b tau eq_refl Ht Vb).
  rewrite <- (wire_sum k (root k) (proj1 Hk) R1 R2 cs x' fits r_O t c tau eq_refl Ht Vc).
  unfold x'. fold W. unfold W. rewrite <- !split_sum. unfold h. unfold n. rewrite <- zpoly_eval. fold np.
  transitivity (sumn np (fun i => x i * col cs r_O t i) + (K_sum p k cs t cc r_O + zsum k s7 cc tau)); [|ring].
  eapply equation2. eapply more_imp; [|exact H]. intros d [D H1]. split; [exact D|]. eapply more_imp; [|exact H1]. intros b0 H2. eapply more_imp; [|exact H2].
  intros a0 [q [v [q1 [v1 [KP [KP1 AC]]]]]]. cbv zeta in AC. unfold accepts in AC. rewrite (pub_sum k cs _ _ _ _ _ _ t x Ht U KP) in AC. fold np in AC.
  rewrite (basis_shape1 ca _ _ _ _ _ _ _ _ t D Ht U KP KP1), (basis_shape1 cc _ _ _ _ _ _ _ _ t D Ht U KP KP1), (basis_shape2 cb _ _ _ _ _ _ t Ht U KP) in AC.
  destruct KP as [t' [_ [_ [_ [_ [_ [_ [_ [_ [_ [_ [_ [_ [W1 [_ [W3 [_ [W5 _]]]]]]]]]]]]]]]]]]. rewrite W1, W3, W5 in AC.
  assert (M1 : forall y : E, y * 1 = y) by (intros; ring). rewrite M1 in AC. exact AC.
Qed.
Lemma sound2 : more (2 * 2 ^ k - 2) (fun tau => more 3 (fun delta => delta <> 0 /\ more 2 (fun beta => more 2 (fun alpha =>
    convinces_more p cs k x ca cb cc alpha beta delta tau)))) -> satisfies cs x'.
Proof.
  intros H. destruct (root_conds k Hk) as [R1 R2]. pose proof (n_pos k (proj1 Hk)) as NP. fold n in NP.
  destruct (values_poly_ex k (root k) (proj1 Hk) R1 R2 cs x' r_L) as [a Va].
  destruct (values_poly_ex k (root k) (proj1 Hk) R1 R2 cs x' r_R) as [b Vb].
  destruct (values_poly_ex k (root k) (proj1 Hk) R1 R2 cs x' r_O) as [c Vc].
  assert (Lh : length h = (n - 1)%nat) by (unfold h, zpoly; now rewrite map_length, seq_length).
  set (rem := remainder p k cs cc a b c).
  assert (RE : forall y, peval rem y = peval a y * peval b y - peval c y - peval h y * (y ^ n - 1)).
  { intros y. exact (remainder_eval p k cs x cc Hk fits a b c y (proj1 Va) (proj1 Vb) (proj1 Vc) Lh). }
  assert (Z : forall i, nth i rem 0 = 0).
  { apply (more_zero (2 * 2 ^ k - 2)); [unfold rem, remainder; rewrite map_length, seq_length; fold n; lia|]. revert H. apply more_imp. intros tau H.
    rewrite RE, (at_tau2 tau a b c Va Vb Vc H). ring. }
  apply (quotient_sat k (root k) (proj1 Hk) R1 R2 cs x' fits h). split; [exact Lh|]. exists a, b, c. repeat (split; [assumption|]).
  intros y. pose proof (RE y) as Q.
  assert (P0 : peval rem y = 0).
  { unfold peval. apply sumn_zero. intros i _. rewrite Z. ring. }
  rewrite P0 in Q. fold n. transitivity ((peval a y * peval b y - peval c y - peval h y * (y ^ n - 1)) + peval h y * (y ^ n - 1)); [ring|].
  rewrite <- Q. ring.
Qed.
End Sound.

(* ---- points that are combinations, with fixed coefficients, of those in a list ---- *)
Section Span.
Context {E : Ext2} {V : Type}.
Add Field Esp : (f_th E).
Variables (ok : V -> Prop) (basis : V -> list E) (N : nat).
Hypothesis len : forall v, ok v -> length (basis v) = N.
Definition lin (f : V -> E) : Prop := exists c, forall v, ok v -> f v = comb c (basis v).
Definition lins (L : V -> list E) : Prop := exists fs, Forall lin fs /\ forall v, ok v -> L v = map (fun f => f v) fs.
Lemma lin_ext f g : (forall v, ok v -> f v = g v) -> lin g -> lin f.
Proof. intros X [c H]. exists c. intros v Hv. now rewrite X, H. Qed.
Lemma lin_add f g : lin f -> lin g -> lin (fun v => f v + g v).
Proof.
  intros [c H] [d G]. exists (map (fun i => nth i c 0 + nth i d 0) (seq 0 N)). intros v Hv. rewrite (H v Hv), (G v Hv). unfold comb.
  rewrite (len v Hv), <- sumn_add. apply sumn_ext. intros i Hi. rewrite nth_map_seq by exact Hi. cbn [Nat.add]. ring.
Qed.
Lemma lin_scal y f : lin f -> lin (fun v => y * f v).
Proof.
  intros [c H]. exists (map (fun i => y * nth i c 0) (seq 0 N)). intros v Hv. rewrite (H v Hv). unfold comb.
  rewrite (len v Hv), <- sumn_scal. apply sumn_ext. intros i Hi. rewrite nth_map_seq by exact Hi. cbn [Nat.add]. ring.
Qed.
Lemma lin_zero_fun : lin (fun _ => 0).
Proof. exists []. intros v _. unfold comb. symmetry. apply sumn_zero. intros i _. destruct i; cbn [nth]; ring. Qed.
Lemma lin_at j : lin (fun v => nth j (basis v) 0).
Proof.
  exists (map (fun i => if (i =? j)%nat then 1 else 0) (seq 0 N)). intros v Hv. unfold comb. rewrite (len v Hv). destruct (Nat.lt_ge_cases j N) as [L|L].
  - rewrite (sumn_single _ N j).
    + rewrite nth_map_seq by exact L. cbn [Nat.add]. rewrite Nat.eqb_refl. ring.
    + exact L.
    + intros i Hi Ni. rewrite nth_map_seq by exact Hi. cbn [Nat.add]. destruct (Nat.eqb_spec i j); [contradiction|]. ring.
  - rewrite nth_overflow by (rewrite (len v Hv); exact L). symmetry. apply sumn_zero. intros i Hi. rewrite nth_map_seq by exact Hi. cbn [Nat.add].
    destruct (Nat.eqb_spec i j); [lia|]. ring.
Qed.
Lemma lins_ext L L' : (forall v, ok v -> L v = L' v) -> lins L' -> lins L.
Proof. intros X [fs [F H]]. exists fs. split; [exact F|]. intros v Hv. now rewrite X, H. Qed.
Lemma lins_nil : lins (fun _ => []).
Proof. exists []. split; [constructor|reflexivity]. Qed.
Lemma lins_cons f L : lin f -> lins L -> lins (fun v => f v :: L v).
Proof. intros Hf [fs [F H]]. exists (f :: fs). split; [now constructor|]. intros v Hv. cbn [map]. now rewrite H. Qed.
Lemma lins_app L L' : lins L -> lins L' -> lins (fun v => L v ++ L' v).
Proof.
  intros [fs [F H]] [gs [G H']]. exists (fs ++ gs). split; [apply Forall_app; now split|]. intros v Hv. now rewrite map_app, H, H'.
Qed.
Lemma lins_nth L j : lins L -> lin (fun v => nth j (L v) 0).
Proof.
  intros [fs [F H]]. destruct (Nat.lt_ge_cases j (length fs)) as [X|X].
  - apply (lin_ext _ (nth j fs (fun _ => 0))).
    + intros v Hv. rewrite (H v Hv). exact (map_nth (fun f => f v) fs (fun _ => 0) j).
    + rewrite Forall_forall in F. apply F. now apply nth_In.
  - apply (lin_ext _ (fun _ => 0)); [|exact lin_zero_fun]. intros v Hv. rewrite (H v Hv). apply nth_overflow. now rewrite map_length.
Qed.
Lemma lins_tab n (f : nat -> V -> E) : (forall i, (i < n)%nat -> lin (f i)) -> lins (fun v => map (fun i => f i v) (seq 0 n)).
Proof.
  intros H. exists (map f (seq 0 n)). split.
  - apply Forall_forall. intros g Hg. apply in_map_iff in Hg. destruct Hg as [i [<- Hi]]. apply in_seq in Hi. apply H. lia.
  - intros v _. now rewrite map_map.
Qed.
(* an index of L is what lins is about *)
Lemma lins_of L n : (forall v, ok v -> length (L v) = n) -> (forall i, (i < n)%nat -> lin (fun v => nth i (L v) 0)) -> lins L.
Proof.
  intros Ln H. apply (lins_ext _ (fun v => map (fun i => nth i (L v) 0) (seq 0 n))).
  - intros v Hv. apply (nth_ext _ _ 0 0); [rewrite map_length, seq_length; auto|]. intros i Hi. rewrite Ln in Hi by exact Hv. now rewrite nth_map_seq.
  - now apply lins_tab.
Qed.
Lemma lins_length L : lins L -> exists n, forall v, ok v -> length (L v) = n.
Proof. intros [fs [F H]]. exists (length fs). intros v Hv. rewrite (H v Hv). apply map_length. Qed.
Lemma lins_mapi L (g : nat -> E) : lins L -> lins (fun v => mapi (fun i y => g i * y) (L v)).
Proof.
  intros H. destruct (lins_length L H) as [n Ln]. apply (lins_of _ n).
  - intros v Hv. rewrite mapi_length. auto.
  - intros i _. apply (lin_ext _ (fun v => g i * nth i (L v) 0)); [|apply lin_scal; now apply lins_nth].
    intros v _. apply (nth_mapi0 (fun i y => g i * y)). ring.
Qed.
Lemma lins_map L (y : E) : lins L -> lins (fun v => map (fun z => y * z) (L v)).
Proof.
  intros H. destruct (lins_length L H) as [n Ln]. apply (lins_of _ n).
  - intros v Hv. rewrite map_length. auto.
  - intros i _. apply (lin_ext _ (fun v => y * nth i (L v) 0)); [|apply lin_scal; now apply lins_nth].
    intros v _. rewrite <- (map_nth (fun z => y * z)). f_equal. ring.
Qed.
Lemma lins_slice a L (X Y : V -> list E) : (forall v, ok v -> basis v = X v ++ L v ++ Y v) -> (forall v, ok v -> length (X v) = a) ->
  (exists n, forall v, ok v -> length (L v) = n) -> lins L.
Proof.
  intros H HX [n HL]. apply (lins_of _ n HL). intros i Hi. apply (lin_ext _ (fun v => nth (a + i) (basis v) 0)); [|apply lin_at].
  intros v Hv. rewrite (H v Hv), app_nth2 by (rewrite HX by exact Hv; lia). rewrite HX by exact Hv. replace (a + i - a)%nat with i by lia.
  rewrite app_nth1; [reflexivity|]. now rewrite HL.
Qed.
Lemma lins_comb L c : lins L -> lin (fun v => comb c (L v)).
Proof.
  intros [fs [F H]]. apply (lin_ext _ (fun v => comb_at 0 c (map (fun f => f v) fs))); [intros v Hv; now rewrite (H v Hv)|].
  clear H. generalize 0%nat. induction F as [|f fs Hf F IH]; intros o.
  - apply (lin_ext _ (fun _ => 0)); [|exact lin_zero_fun]. reflexivity.
  - apply (lin_ext _ (fun v => nth o c 0 * f v + comb_at (o + 1) c (map (fun f => f v) fs))).
    + intros v _. cbn [map]. change (f v :: map (fun f => f v) fs) with ([f v] ++ map (fun f => f v) fs). now rewrite comb_app, comb_one.
    + apply lin_add; [now apply lin_scal|apply IH].
Qed.
End Span.

(* ---- the points of the two phases, in any generating system that has the generator and the honest secrets ---- *)
Section Phases.
Context {E : Ext2} {V : Type}.
Add Field Eph : (f_th E).
Variables (ok : V -> Prop) (basis : V -> list E) (N : nat).
Hypothesis len : forall v, ok v -> length (basis v) = N.
Notation lin := (lin ok basis).
Notation lins := (lins ok basis).
Hypothesis one : lin (fun _ => 1).
Lemma lin_const (y : E) : lin (fun _ => y).
Proof. apply (lin_ext ok basis _ (fun _ => y * 1)); [intros; ring|]. now apply (lin_scal ok basis N len). Qed.
Lemma lin_mulr f (y : E) : lin f -> lin (fun v => f v * y).
Proof. intros H. apply (lin_ext ok basis _ (fun v => y * f v)); [intros; ring|]. now apply (lin_scal ok basis N len). Qed.
Lemma after1_snoc p l w : after1 p (l ++ [w]) = upd_srs (u_t w) (u_a w) (u_b w) (after1 (E := E) p l).
Proof. unfold after1. now rewrite fold_left_app. Qed.
Lemma upd_srs_comm (t a b t' a' b' : E) s : upd_srs t a b (upd_srs t' a' b' s) = upd_srs t' a' b' (upd_srs t a b s).
Proof.
  assert (M : forall (f g : nat -> E) l, mapi (fun i y => f i * y) (mapi (fun i y => g i * y) l) = mapi (fun i y => g i * y) (mapi (fun i y => f i * y) l)).
  { intros f g l. apply list_ext. intros i. rewrite !nth_error_mapi. destruct (nth_error l i); cbn; [|reflexivity]. f_equal. ring. }
  unfold upd_srs. cbn [tau1 alpha1 beta1 tau2 beta2]. f_equal; try apply (M (fun i => t ^ i)); try apply (M (fun i => a * t ^ i)); try apply (M (fun i => b * t ^ i)). ring.
Qed.
Variables (tau alpha beta delta : V -> E).
Section One.
Hypotheses (Ltau : lin tau) (Lalpha : lin alpha) (Lbeta : lin beta).
Definition st1 (S : V -> srs E) : Prop := lins (fun v => tau1 (S v)) /\ lins (fun v => alpha1 (S v)) /\ lins (fun v => beta1 (S v)).
Definition st2 (S : V -> srs E) : Prop := lins (fun v => tau2 (S v)) /\ lin (fun v => beta2 (S v)).
Lemma st1_upd S (t a b : E) : st1 S -> st1 (fun v => upd_srs t a b (S v)).
Proof.
  intros [X [Y Z]]. split; [|split]; cbn [upd_srs tau1 alpha1 beta1].
  - exact (lins_mapi ok basis N len _ (fun i => t ^ i) X).
  - exact (lins_mapi ok basis N len _ (fun i => a * t ^ i) Y).
  - exact (lins_mapi ok basis N len _ (fun i => b * t ^ i) Z).
Qed.
Lemma st2_upd S (t a b : E) : st2 S -> st2 (fun v => upd_srs t a b (S v)).
Proof.
  intros [X Y]. split; cbn [upd_srs tau2 beta2].
  - exact (lins_mapi ok basis N len _ (fun i => t ^ i) X).
  - exact (lin_scal ok basis N len _ _ Y).
Qed.
Lemma st1_ext S S' : (forall v, S v = S' v) -> st1 S' -> st1 S.
Proof. intros H [X [Y Z]]. split; [|split]; [eapply lins_ext; [|exact X]|eapply lins_ext; [|exact Y]|eapply lins_ext; [|exact Z]]; intros v _; cbn beta; now rewrite H. Qed.
Lemma st2_ext S S' : (forall v, S v = S' v) -> st2 S' -> st2 S.
Proof. intros H [X Y]. split; [eapply lins_ext; [|exact X]|eapply lin_ext; [|exact Y]]; intros v _; cbn beta; now rewrite H. Qed.
Lemma st1_srs S : st1 S -> lins (fun v => srs_1 (S v)).
Proof. intros [X [Y Z]]. unfold srs_1. repeat apply lins_app; assumption. Qed.
Lemma st2_srs S : st2 S -> lins (fun v => srs_2 (S v)).
Proof. intros [X Y]. unfold srs_2. apply lins_app; [assumption|]. apply lins_cons; [assumption|]. apply lins_nil. Qed.
Ltac each := repeat first [apply lins_nil | apply lins_cons].
Lemma st1_rec S (w : V -> who1 E) : st1 S -> lin (fun v => u_t (w v)) -> lin (fun v => u_a (w v)) -> lin (fun v => u_b (w v)) ->
  (exists w0, forall v, w v = with1 w0 (u_t (w v)) (u_a (w v)) (u_b (w v))) -> lins (fun v => rec1_1 (w v) (S v)).
Proof.
  intros [X [Y Z]] Ht Ha Hb [w0 H]. unfold rec1_1.
  apply (lins_ext ok basis _ (fun v => [nth 1 (tau1 (S v)) 0; nth 0 (alpha1 (S v)) 0; nth 0 (beta1 (S v)) 0;
   u_st w0; u_t (w v) * u_st w0; u_sa w0; u_a (w v) * u_sa w0; u_sb w0; u_b (w v) * u_sb w0])).
  - intros v _. rewrite H. reflexivity.
  - each; try apply lin_const; try (apply lin_mulr; assumption); now apply (lins_nth ok basis).
Qed.
Lemma st2_rec S (w : V -> who1 E) : st2 S -> lin (fun v => u_t (w v)) -> lin (fun v => u_a (w v)) -> lin (fun v => u_b (w v)) ->
  (exists w0, forall v, w v = with1 w0 (u_t (w v)) (u_a (w v)) (u_b (w v))) -> lins (fun v => rec1_2 (w v) (S v)).
Proof.
  intros [X Y] Ht Ha Hb [w0 H]. unfold rec1_2.
  apply (lins_ext ok basis _ (fun v => [nth 1 (tau2 (S v)) 0; beta2 (S v);
   u_rt w0; u_t (w v) * u_rt w0; u_ra w0; u_a (w v) * u_ra w0; u_rb w0; u_b (w v) * u_rb w0])).
  - intros v _. rewrite H. reflexivity.
  - each; try apply lin_const; try (apply lin_mulr; assumption); first [exact Y|now apply (lins_nth ok basis)].
Qed.
Lemma phase1_1_const p l : forall acc, st1 (fun v => after1 p (acc v)) -> lins (fun v => phase1_1 p (acc v) l).
Proof.
  induction l as [|w l IH]; intros acc H; cbn [phase1_1].
  - apply lins_app; [now apply st1_srs|apply lins_nil].
  - assert (H' : st1 (fun v => after1 p (acc v ++ [w]))).
    { apply (st1_ext _ (fun v => upd_srs (u_t w) (u_a w) (u_b w) (after1 p (acc v)))); [intros v; apply after1_snoc|]. now apply st1_upd. }
    apply lins_app; [now apply st1_srs|]. apply lins_app; [|now apply (IH (fun v => acc v ++ [w]))].
    apply (st1_rec _ (fun _ => w)); try apply lin_const; [exact H'|]. exists w. intros v. now destruct w.
Qed.
Lemma phase1_2_const p l : forall acc, st2 (fun v => after1 p (acc v)) -> lins (fun v => phase1_2 p (acc v) l).
Proof.
  induction l as [|w l IH]; intros acc H; cbn [phase1_2].
  - apply lins_app; [now apply st2_srs|apply lins_nil].
  - assert (H' : st2 (fun v => after1 p (acc v ++ [w]))).
    { apply (st2_ext _ (fun v => upd_srs (u_t w) (u_a w) (u_b w) (after1 p (acc v)))); [intros v; apply after1_snoc|]. now apply st2_upd. }
    apply lins_app; [now apply st2_srs|]. apply lins_app; [|now apply (IH (fun v => acc v ++ [w]))].
    apply (st2_rec _ (fun _ => w)); try apply lin_const; [exact H'|]. exists w. intros v. now destruct w.
Qed.
Variable w0 : who1 E.
Let h v := with1 w0 (tau v) (alpha v) (beta v).
Lemma phase1_1_all p post pre : forall acc, st1 (fun v => after1 p (acc v)) ->
  st1 (fun v => upd_srs (tau v) (alpha v) (beta v) (after1 p (acc v))) -> lins (fun v => phase1_1 p (acc v) (pre ++ h v :: post)).
Proof.
  induction pre as [|w l IH]; intros acc H G; cbn [phase1_1 app].
  - assert (H' : st1 (fun v => after1 p (acc v ++ [h v]))) by (eapply st1_ext; [intros v; apply after1_snoc|exact G]).
    apply lins_app; [now apply st1_srs|]. apply lins_app; [|now apply (phase1_1_const p post (fun v => acc v ++ [h v]))].
    apply (st1_rec _ h); try assumption. exists w0. reflexivity.
  - assert (H' : st1 (fun v => after1 p (acc v ++ [w]))) by (eapply st1_ext; [intros v; apply after1_snoc|now apply st1_upd]).
    apply lins_app; [now apply st1_srs|]. apply lins_app; [|apply (IH (fun v => acc v ++ [w])); [exact H'|]].
    + apply (st1_rec _ (fun _ => w)); try apply lin_const; [exact H'|]. exists w. intros v. now destruct w.
    + eapply st1_ext; [intros v; rewrite after1_snoc; apply upd_srs_comm|]. now apply st1_upd.
Qed.
Lemma phase1_2_all p post pre : forall acc, st2 (fun v => after1 p (acc v)) ->
  st2 (fun v => upd_srs (tau v) (alpha v) (beta v) (after1 p (acc v))) -> lins (fun v => phase1_2 p (acc v) (pre ++ h v :: post)).
Proof.
  induction pre as [|w l IH]; intros acc H G; cbn [phase1_2 app].
  - assert (H' : st2 (fun v => after1 p (acc v ++ [h v]))) by (eapply st2_ext; [intros v; apply after1_snoc|exact G]).
    apply lins_app; [now apply st2_srs|]. apply lins_app; [|now apply (phase1_2_const p post (fun v => acc v ++ [h v]))].
    apply (st2_rec _ h); try assumption. exists w0. reflexivity.
  - assert (H' : st2 (fun v => after1 p (acc v ++ [w]))) by (eapply st2_ext; [intros v; apply after1_snoc|now apply st2_upd]).
    apply lins_app; [now apply st2_srs|]. apply lins_app; [|apply (IH (fun v => acc v ++ [w])); [exact H'|]].
    + apply (st2_rec _ (fun _ => w)); try apply lin_const; [exact H'|]. exists w. intros v. now destruct w.
    + eapply st2_ext; [intros v; rewrite after1_snoc; apply upd_srs_comm|]. now apply st2_upd.
Qed.
End One.

Section Two.
Hypothesis Ldelta : lin delta.
Definition pst1 (q : V -> par2 E) : Prop := lin (fun v => p_d1 (q v)) /\ lins (fun v => p_Z (q v)) /\ lins (fun v => p_K (q v)).
Lemma lins_div L (y : E) : lins L -> lins (fun v => map (fun z => z / y) (L v)).
Proof.
  intros H. apply (lins_ext ok basis _ (fun v => map (fun z => 1 / y * z) (L v))); [|now apply (lins_map ok basis N len)].
  intros v _. apply map_ext. intros z. rewrite !(Fdiv_def (f_th E)). ring.
Qed.
Lemma pst1_upd q (d : E) : pst1 q -> pst1 (fun v => upd_par2 d (q v)).
Proof. intros [X [Y Z]]. split; [|split]; cbn [upd_par2 p_d1 p_Z p_K]; [now apply (lin_scal ok basis N len)| |]; now apply lins_div. Qed.
Lemma pst1_par q : pst1 q -> lins (fun v => par_1 (q v)).
Proof. intros [X [Y Z]]. unfold par_1. apply lins_app; [apply lins_cons; [exact X|apply lins_nil]|]. now apply lins_app. Qed.
Lemma upd_par2_comm (d d' : E) q : upd_par2 d (upd_par2 d' q) = upd_par2 d' (upd_par2 d q).
Proof.
  unfold upd_par2. cbn [p_d1 p_d2 p_Z p_K]. rewrite !map_map. f_equal; try ring; apply map_ext; intros z; rewrite !(Fdiv_def (f_th E)); ring.
Qed.
Lemma phase2_1_const l : forall q, pst1 q -> lins (fun v => phase2_1 (q v) l).
Proof.
  induction l as [|w l IH]; intros q H; cbn [phase2_1]; (apply lins_app; [now apply pst1_par|]); [apply lins_nil|].
  apply lins_app; [|apply (IH (fun v => upd_par2 (u_d w) (q v))); now apply pst1_upd].
  unfold rec2_1. repeat first [apply lins_nil | apply lins_cons]; try apply lin_const. exact (proj1 (pst1_upd q (u_d w) H)).
Qed.
Lemma phase2_1_all (w0 : who2 E) post pre : forall q, pst1 q -> pst1 (fun v => upd_par2 (delta v) (q v)) ->
  lins (fun v => phase2_1 (q v) (pre ++ with2 w0 (delta v) :: post)).
Proof.
  induction pre as [|w l IH]; intros q H G; cbn [phase2_1 app]; (apply lins_app; [now apply pst1_par|]).
  - cbn [with2 u_d]. apply lins_app; [|now apply (phase2_1_const post (fun v => upd_par2 (delta v) (q v)))].
    unfold rec2_1, with2. cbn [u_d u_s]. repeat first [apply lins_nil | apply lins_cons]; try apply lin_const; [exact (proj1 G)|]. now apply lin_mulr.
  - apply lins_app; [|apply (IH (fun v => upd_par2 (u_d w) (q v))); [now apply pst1_upd|]].
    + unfold rec2_1. repeat first [apply lins_nil | apply lins_cons]; try apply lin_const. exact (proj1 (pst1_upd q (u_d w) H)).
    + pose proof (pst1_upd _ (u_d w) G) as [X [Y Z]]. split; [|split]; [eapply lin_ext; [|exact X]|eapply lins_ext; [|exact Y]|eapply lins_ext; [|exact Z]];
        intros v _; cbn beta; now rewrite upd_par2_comm.
Qed.
Lemma phase2_2_const l : forall q, lin (fun v => p_d2 (q v)) -> lins (fun v => phase2_2 (q v) l).
Proof.
  induction l as [|w l IH]; intros q H; cbn [phase2_2]; (apply lins_cons; [exact H|]); [apply lins_nil|].
  repeat (apply lins_cons; [apply lin_const|]). apply (IH (fun v => upd_par2 (u_d w) (q v))). now apply (lin_scal ok basis N len).
Qed.
Lemma phase2_2_all (w0 : who2 E) post pre : forall q, lin (fun v => p_d2 (q v)) -> lin (fun v => delta v * p_d2 (q v)) ->
  lins (fun v => phase2_2 (q v) (pre ++ with2 w0 (delta v) :: post)).
Proof.
  induction pre as [|w l IH]; intros q H G; cbn [phase2_2 app]; (apply lins_cons; [exact H|]).
  - cbn [with2 u_d u_r app]. apply lins_cons; [apply lin_const|]. apply lins_cons; [now apply lin_mulr|].
    now apply (phase2_2_const post (fun v => upd_par2 (delta v) (q v))).
  - repeat (apply lins_cons; [apply lin_const|]). apply (IH (fun v => upd_par2 (u_d w) (q v))); cbn [upd_par2 p_d2]; [now apply (lin_scal ok basis N len)|].
    apply (lin_ext ok basis _ (fun v => u_d w * (delta v * p_d2 (q v)))); [intros v _; ring|]. now apply (lin_scal ok basis N len).
Qed.
End Two.
End Phases.

Section Ceremony.
Context {E : Ext2}.
Add Field Ece : (f_th E).
Lemma after1_of p (l : list (who1 E)) : after1 p l = srs_of p (ceremony_tau l) (ceremony_alpha l) (ceremony_beta l).
Proof.
  unfold ceremony_tau, ceremony_alpha, ceremony_beta.
  induction l as [|w l IH] using rev_ind; [reflexivity|]. rewrite after1_snoc, IH, upd_srs_of, !map_app, !prodl_app.
  cbn [map prodl fold_right]. f_equal; ring.
Qed.
Lemma prodl_mid {A} (f : A -> E) pre post w : prodl (map f (pre ++ w :: post)) = prodl (map f (pre ++ post)) * f w.
Proof. rewrite !map_app, !prodl_app. cbn [map prodl fold_right]. fold (prodl (map f post)). ring. Qed.
Lemma prodl_nz {A} (f : A -> E) l : Forall (fun w => f w <> 0) l -> prodl (map f l) <> 0.
Proof.
  induction 1 as [|w l Hw _ IH]; cbn [map prodl fold_right]; [exact (f1_neq_0 E)|]. fold (prodl (map f l)). intros X. apply fmul_0_iff in X. tauto.
Qed.
Variables (p k : nat) (cs : r1cs E) (pre1 post1 : list (who1 E)) (w1 : who1 E) (pre2 post2 : list (who2 E)) (w2 : who2 E).
Hypotheses (Hp : 1 <= p) (Hk : 1 <= k <= kmax E).
Hypotheses (nz1 : Forall nonzero1 (pre1 ++ post1)) (nz2 : Forall (fun w => u_d w <> 0) (pre2 ++ post2)).
Record env := mkEnv { e_tau : E; e_alpha : E; e_beta : E; e_delta : E; e_q : pkey E; e_v : vkey E; e_q1 : pkey E; e_v1 : vkey E }.
Definition l1of (e : env) : list (who1 E) := pre1 ++ with1 w1 (e_tau e) (e_alpha e) (e_beta e) :: post1.
Definition l2of (e : env) : list (who2 E) := pre2 ++ with2 w2 (e_delta e) :: post2.
Let T e := ceremony_tau (l1of e).
Let A e := ceremony_alpha (l1of e).
Let B e := ceremony_beta (l1of e).
Let D e := ceremony_delta (l2of e).
Let tt0 := prodl (map u_t (pre1 ++ post1)).
Let aa0 := prodl (map u_a (pre1 ++ post1)).
Let bb0 := prodl (map u_b (pre1 ++ post1)).
Let dd0 := prodl (map u_d (pre2 ++ post2)).
Definition ok_env (e : env) : Prop := e_delta e <> 0 /\
  is_keypair cs k (root k) (A e) (B e) (D e) (T e) (e_q e) (e_v e) /\ is_keypair cs k (root k) (A e) (B e) 1 (T e) (e_q1 e) (e_v1 e).
Lemma T_eq e : T e = tt0 * e_tau e. Proof. exact (prodl_mid u_t pre1 post1 (with1 w1 (e_tau e) (e_alpha e) (e_beta e))). Qed.
Lemma A_eq e : A e = aa0 * e_alpha e. Proof. exact (prodl_mid u_a pre1 post1 (with1 w1 (e_tau e) (e_alpha e) (e_beta e))). Qed.
Lemma B_eq e : B e = bb0 * e_beta e. Proof. exact (prodl_mid u_b pre1 post1 (with1 w1 (e_tau e) (e_alpha e) (e_beta e))). Qed.
Lemma D_eq e : D e = dd0 * e_delta e. Proof. exact (prodl_mid u_d pre2 post2 (with2 w2 (e_delta e))). Qed.
Lemma tt0_nz : tt0 <> 0. Proof. apply prodl_nz. eapply Forall_impl; [|exact nz1]. intros w H. apply H. Qed.
Lemma aa0_nz : aa0 <> 0. Proof. apply prodl_nz. eapply Forall_impl; [|exact nz1]. intros w H. apply H. Qed.
Lemma bb0_nz : bb0 <> 0. Proof. apply prodl_nz. eapply Forall_impl; [|exact nz1]. intros w H. apply H. Qed.
Lemma dd0_nz : dd0 <> 0. Proof. now apply prodl_nz. Qed.
Lemma p2two : (2 <= 2 ^ p)%nat. Proof. change 2%nat with (2 ^ 1)%nat at 1. apply Nat.pow_le_mono_r; lia. Qed.
Let S e := srs_of p (T e) (A e) (B e).
Let ba1 e := basis1 (S e) (e_q e) (e_v e) (e_q1 e).
Let ba2 e := basis2 (S e) (e_q e).
Let N1 := (before_K p cs k + (wires cs - nb_public cs) + (2 ^ k - 1) + (wires cs - nb_public cs))%nat.
Let N2 := (2 ^ p + 2 + wires cs + 1)%nat.
Lemma len1 e : ok_env e -> length (ba1 e) = N1.
Proof.
  intros [_ [KP KP1]]. unfold ba1, basis1. rewrite !app_length. unfold S. rewrite (published1_length p k cs _ _ _ _ _ _ KP).
  destruct KP1 as [t' [Ht' [_ [_ [_ [_ [_ [_ [_ [_ [QK [LZ _]]]]]]]]]]]]. rewrite LZ, QK, map_length, seq_length. unfold N1. lia.
Qed.
Lemma len2 e : ok_env e -> length (ba2 e) = N2.
Proof.
  intros [_ [KP _]]. unfold ba2, basis2. rewrite !app_length. unfold S. rewrite (published2_length p k cs _ _ _ _ _ _ KP). reflexivity.
Qed.
Notation lin_1 := (lin ok_env ba1). Notation lins_1 := (lins ok_env ba1).
Notation lin_2 := (lin ok_env ba2). Notation lins_2 := (lins ok_env ba2).
(* the sections of the generating systems *)
Lemma len_srs_1 e : length (tau1 (S e)) = (2 * 2 ^ p - 1)%nat. Proof. cbn. now rewrite map_length, seq_length. Qed.
Lemma len_srs_2 e : length (alpha1 (S e)) = (2 ^ p)%nat. Proof. cbn. now rewrite map_length, seq_length. Qed.
Lemma len_srs_3 e : length (beta1 (S e)) = (2 ^ p)%nat. Proof. cbn. now rewrite map_length, seq_length. Qed.
Lemma len_srs_4 e : length (tau2 (S e)) = (2 ^ p)%nat. Proof. cbn. now rewrite map_length, seq_length. Qed.
Lemma b1_pub : lins_1 (fun e => published1 (S e) (e_q e) (e_v e)).
Proof.
  apply (lins_slice ok_env ba1 _ len1 0 _ (fun _ => []) (fun e => q_Z (e_q1 e) ++ q_K (e_q1 e))); try reflexivity.
  eexists. intros e [_ [KP _]]. exact (published1_length p k cs _ _ _ _ _ _ KP).
Qed.
Lemma b2_pub : lins_2 (fun e => published2 (S e) (e_q e)).
Proof.
  apply (lins_slice ok_env ba2 _ len2 0 _ (fun _ => []) (fun e => [nth 0 (alpha1 (S e)) 0])); try reflexivity.
  eexists. intros e [_ [KP _]]. exact (published2_length p k cs _ _ _ _ _ _ KP).
Qed.
Lemma b1_Z1 : lins_1 (fun e => q_Z (e_q1 e)).
Proof.
  apply (lins_slice ok_env ba1 _ len1 (before_K p cs k + (wires cs - nb_public cs)) _ (fun e => published1 (S e) (e_q e) (e_v e)) (fun e => q_K (e_q1 e))); try reflexivity.
  - intros e [_ [KP _]]. exact (published1_length p k cs _ _ _ _ _ _ KP).
  - exists (2 ^ k - 1)%nat. intros e [_ [_ KP1]]. destruct KP1 as [t' [Ht' [_ [_ [_ [_ [_ [_ [_ [_ [QK [LZ _]]]]]]]]]]]]. exact LZ.
Qed.
Lemma b1_K1 : lins_1 (fun e => q_K (e_q1 e)).
Proof.
  apply (lins_slice ok_env ba1 _ len1 (before_K p cs k + (wires cs - nb_public cs) + (2 ^ k - 1)) _ (fun e => published1 (S e) (e_q e) (e_v e) ++ q_Z (e_q1 e)) (fun _ => [])).
  - intros e _. unfold ba1, basis1. now rewrite app_nil_r, <- app_assoc.
  - intros e [_ [KP KP1]]. rewrite app_length. unfold S. rewrite (published1_length p k cs _ _ _ _ _ _ KP).
    destruct KP1 as [t' [Ht' [_ [_ [_ [_ [_ [_ [_ [_ [QK [LZ _]]]]]]]]]]]]. now rewrite LZ.
  - exists (wires cs - nb_public cs)%nat. intros e [_ [_ KP1]]. destruct KP1 as [t' [Ht' [_ [_ [_ [_ [_ [_ [_ [_ [QK [LZ _]]]]]]]]]]]]. now rewrite QK, map_length, seq_length.
Qed.
Lemma pub_part {ok b} (X L Y F : env -> list E) n a : lins ok b F -> (forall e, ok e -> F e = X e ++ L e ++ Y e) -> (forall e, ok e -> length (X e) = a) ->
  (forall e, ok e -> length (L e) = n) -> lins ok b L.
Proof.
  intros HF H HX HL. apply (lins_of ok b _ n HL). intros i Hi. apply (lin_ext ok b _ (fun e => nth (a + i) (F e) 0)); [|now apply (lins_nth ok b)].
  intros e He. rewrite (H e He), app_nth2 by (rewrite HX by exact He; lia). rewrite HX by exact He. replace (a + i - a)%nat with i by lia.
  rewrite app_nth1; [reflexivity|]. now rewrite HL.
Qed.
Lemma b1_srs : st1 ok_env ba1 S.
Proof.
  split; [|split].
  - eapply (pub_part (fun _ => []) _ _ _ _ 0 b1_pub); [intros e _; reflexivity|reflexivity|intros e _; apply len_srs_1].
  - eapply (pub_part (fun e => tau1 (S e)) _ _ _ _ _ b1_pub); [intros e _; reflexivity|intros e _; apply len_srs_1|intros e _; apply len_srs_2].
  - eapply (pub_part (fun e => tau1 (S e) ++ alpha1 (S e)) (fun e => beta1 (S e))
      (fun e => [q_delta (e_q e)] ++ q_A (e_q e) ++ q_B (e_q e) ++ w_K (e_v e) ++ q_Z (e_q e) ++ q_K (e_q e)) _ _ _ b1_pub).
    + intros e _. unfold published1. rewrite <- !app_assoc. reflexivity.
    + intros e _. rewrite app_length, len_srs_1, len_srs_2. reflexivity.
    + intros e _. apply len_srs_3.
Qed.
Lemma b2_srs : st2 ok_env ba2 S.
Proof.
  assert (X : lins_2 (fun e => [beta2 (S e); q_delta2 (e_q e)])).
  { apply (pub_part (fun e => tau2 (S e)) _ (fun e => q_B2 (e_q e)) _ 2 (2 ^ p) b2_pub); [intros e _; reflexivity|intros e _; apply len_srs_4|reflexivity]. }
  split.
  - eapply (pub_part (fun _ => []) _ _ _ _ 0 b2_pub); [intros e _; reflexivity|reflexivity|intros e _; apply len_srs_4].
  - exact (lins_nth ok_env ba2 _ 0 X).
Qed.
Lemma b1_delta : lin_1 (fun e => q_delta (e_q e)).
Proof.
  assert (X : lins_1 (fun e => [q_delta (e_q e)])).
  { eapply (pub_part (fun e => tau1 (S e) ++ alpha1 (S e) ++ beta1 (S e)) (fun e => [q_delta (e_q e)])
      (fun e => q_A (e_q e) ++ q_B (e_q e) ++ w_K (e_v e) ++ q_Z (e_q e) ++ q_K (e_q e)) _ 1 _ b1_pub).
    - intros e _. unfold published1. rewrite <- !app_assoc. reflexivity.
    - intros e _. rewrite !app_length, len_srs_1, len_srs_2, len_srs_3. reflexivity.
    - reflexivity. }
  exact (lins_nth ok_env ba1 _ 0 X).
Qed.
Lemma b2_delta : lin_2 (fun e => q_delta2 (e_q e)).
Proof.
  assert (X : lins_2 (fun e => [beta2 (S e); q_delta2 (e_q e)])).
  { apply (pub_part (fun e => tau2 (S e)) _ (fun e => q_B2 (e_q e)) _ 2 (2 ^ p) b2_pub); [intros e _; reflexivity|intros e _; apply len_srs_4|reflexivity]. }
  exact (lins_nth ok_env ba2 _ 1 X).
Qed.
Lemma b2_alpha : lin_2 (fun e => nth 0 (alpha1 (S e)) 0).
Proof.
  assert (X : lins_2 (fun e => [nth 0 (alpha1 (S e)) 0])).
  { apply (lins_slice ok_env ba2 _ len2 (2 ^ p + 2 + wires cs) _ (fun e => published2 (S e) (e_q e)) (fun _ => [])).
    - reflexivity.
    - intros e [_ [KP _]]. exact (published2_length p k cs _ _ _ _ _ _ KP).
    - exists 1%nat. reflexivity. }
  exact (lins_nth ok_env ba2 _ 0 X).
Qed.
Lemma b1_Z : lins_1 (fun e => q_Z (e_q e)).
Proof.
  eapply (pub_part (fun e => tau1 (S e) ++ alpha1 (S e) ++ beta1 (S e) ++ [q_delta (e_q e)] ++ q_A (e_q e) ++ q_B (e_q e) ++ w_K (e_v e)) (fun e => q_Z (e_q e)) (fun e => q_K (e_q e)) _ (2 ^ k - 1)
    (2 * 2 ^ p - 1 + 2 ^ p + 2 ^ p + 1 + wires cs + wires cs + nb_public cs) b1_pub).
  - intros e _. unfold published1. rewrite <- !app_assoc. reflexivity.
  - intros e [_ [KP _]]. destruct KP as [t' [Ht' [Q1 [Q2 [Q3 [Q4 [Q5 [QA [QB [QB2 [QK [LZ [QZ [W1 [W2 [W3 [W4 [W5 [WK WC]]]]]]]]]]]]]]]]]]].
    rewrite !app_length, len_srs_1, len_srs_2, len_srs_3, QA, QB, WK, !map_length, !seq_length. cbn [length]. lia.
  - intros e [_ [KP _]]. destruct KP as [t' [Ht' [Q1 [Q2 [Q3 [Q4 [Q5 [QA [QB [QB2 [QK [LZ _]]]]]]]]]]]]. exact LZ.
Qed.
Lemma b1_K : lins_1 (fun e => q_K (e_q e)).
Proof.
  eapply (pub_part (fun e => tau1 (S e) ++ alpha1 (S e) ++ beta1 (S e) ++ [q_delta (e_q e)] ++ q_A (e_q e) ++ q_B (e_q e) ++ w_K (e_v e) ++ q_Z (e_q e)) (fun e => q_K (e_q e)) (fun _ => []) _ (wires cs - nb_public cs)
    (before_K p cs k) b1_pub).
  - intros e _. unfold published1. rewrite app_nil_r, <- !app_assoc. reflexivity.
  - intros e [_ [KP _]]. destruct KP as [t' [Ht' [Q1 [Q2 [Q3 [Q4 [Q5 [QA [QB [QB2 [QK [LZ [QZ [W1 [W2 [W3 [W4 [W5 [WK WC]]]]]]]]]]]]]]]]]]].
    rewrite !app_length, len_srs_1, len_srs_2, len_srs_3, QA, QB, WK, LZ, !map_length, !seq_length. cbn [length]. unfold before_K. lia.
  - intros e [_ [KP _]]. destruct KP as [t' [Ht' [Q1 [Q2 [Q3 [Q4 [Q5 [QA [QB [QB2 [QK _]]]]]]]]]]]. now rewrite QK, map_length, seq_length.
Qed.
(* the generators and the honest secrets *)
Lemma b1_one : lin_1 (fun _ => 1).
Proof.
  apply (lin_ext ok_env ba1 _ (fun e => nth 0 (tau1 (S e)) 0)); [|apply (lins_nth ok_env ba1), b1_srs].
  intros e _. unfold S, srs_of. cbn [tau1]. pose proof p2two. rewrite nth_map_seq by lia. reflexivity.
Qed.
Lemma b2_one : lin_2 (fun _ => 1).
Proof.
  apply (lin_ext ok_env ba2 _ (fun e => nth 0 (tau2 (S e)) 0)); [|apply (lins_nth ok_env ba2), b2_srs].
  intros e _. unfold S, srs_of. cbn [tau2]. pose proof p2two. rewrite nth_map_seq by lia. reflexivity.
Qed.
Lemma undo (c : E) (f g : env -> E) b N (len : forall e, ok_env e -> length (b e) = N) : c <> 0 -> (forall e, ok_env e -> g e = c * f e) -> lin ok_env b g -> lin ok_env b f.
Proof.
  intros C H G. apply (lin_ext ok_env b _ (fun e => 1 / c * g e)); [|now apply (lin_scal ok_env b N len)]. intros e He. rewrite (H e He). field. exact C.
Qed.
Lemma b1_tau : lin_1 e_tau.
Proof.
  apply (undo tt0 _ (fun e => nth 1 (tau1 (S e)) 0) _ _ len1 tt0_nz); [|apply (lins_nth ok_env ba1), b1_srs].
  intros e _. rewrite <- T_eq. unfold S, srs_of. cbn [tau1]. pose proof p2two. rewrite nth_map_seq by lia. cbn [Nat.add fpow]. ring.
Qed.
Lemma b2_tau : lin_2 e_tau.
Proof.
  apply (undo tt0 _ (fun e => nth 1 (tau2 (S e)) 0) _ _ len2 tt0_nz); [|apply (lins_nth ok_env ba2), b2_srs].
  intros e _. rewrite <- T_eq. unfold S, srs_of. cbn [tau2]. pose proof p2two. rewrite nth_map_seq by lia. cbn [Nat.add fpow]. ring.
Qed.
Lemma alpha_first e : nth 0 (alpha1 (S e)) 0 = aa0 * e_alpha e.
Proof. rewrite <- A_eq. unfold S, srs_of. cbn [alpha1]. pose proof p2two. rewrite nth_map_seq by lia. cbn [Nat.add fpow]. ring. Qed.
Lemma b1_alpha' : lin_1 e_alpha.
Proof. apply (undo aa0 _ (fun e => nth 0 (alpha1 (S e)) 0) _ _ len1 aa0_nz); [intros e _; apply alpha_first|apply (lins_nth ok_env ba1), b1_srs]. Qed.
Lemma b2_alpha' : lin_2 e_alpha.
Proof. apply (undo aa0 _ (fun e => nth 0 (alpha1 (S e)) 0) _ _ len2 aa0_nz); [intros e _; apply alpha_first|apply b2_alpha]. Qed.
Lemma b1_beta : lin_1 e_beta.
Proof.
  apply (undo bb0 _ (fun e => nth 0 (beta1 (S e)) 0) _ _ len1 bb0_nz); [|apply (lins_nth ok_env ba1), b1_srs].
  intros e _. rewrite <- B_eq. unfold S, srs_of. cbn [beta1]. pose proof p2two. rewrite nth_map_seq by lia. cbn [Nat.add fpow]. ring.
Qed.
Lemma b2_beta : lin_2 e_beta.
Proof. apply (undo bb0 _ (fun e => beta2 (S e)) _ _ len2 bb0_nz); [|apply b2_srs]. intros e _. rewrite <- B_eq. reflexivity. Qed.
Lemma b1_delta' : lin_1 e_delta.
Proof.
  apply (undo dd0 _ (fun e => q_delta (e_q e)) _ _ len1 dd0_nz); [|exact b1_delta]. intros e [_ [KP _]]. rewrite <- D_eq.
  destruct KP as [t' [Ht' [Q1 [Q2 [Q3 _]]]]]. exact Q3.
Qed.
Lemma b2_delta' : lin_2 e_delta.
Proof.
  apply (undo dd0 _ (fun e => q_delta2 (e_q e)) _ _ len2 dd0_nz); [|exact b2_delta]. intros e [_ [KP _]]. rewrite <- D_eq.
  destruct KP as [t' [Ht' [Q1 [Q2 [Q3 [Q4 [Q5 _]]]]]]]. exact Q5.
Qed.
(* parameters of phase 1 with known multiples of the honest secrets *)
Lemma start1 : st1 ok_env ba1 (fun e => srs_of p (e_tau e) (e_alpha e) (e_beta e)).
Proof.
  destruct b1_srs as [X [Y Z]]. pose proof tt0_nz as N1'. pose proof aa0_nz as N2'. pose proof bb0_nz as N3'.
  assert (M : forall i e, e_tau e ^ i = (1 / tt0) ^ i * T e ^ i).
  { intros i e. rewrite <- fpow_mul_base. f_equal. rewrite T_eq. field. exact N1'. }
  split; [|split]; cbn [srs_of tau1 alpha1 beta1].
  - apply (lins_tab ok_env ba1). intros i Hi. apply (lin_ext ok_env ba1 _ (fun e => (1 / tt0) ^ i * nth i (tau1 (S e)) 0)).
    + intros e _. unfold S, srs_of. cbn [tau1]. rewrite nth_map_seq by exact Hi. cbn [Nat.add]. apply M.
    + apply (lin_scal ok_env ba1 _ len1). now apply (lins_nth ok_env ba1).
  - apply (lins_tab ok_env ba1). intros i Hi. apply (lin_ext ok_env ba1 _ (fun e => (1 / aa0 * (1 / tt0) ^ i) * nth i (alpha1 (S e)) 0)).
    + intros e _. unfold S, srs_of. cbn [alpha1]. rewrite nth_map_seq by exact Hi. cbn [Nat.add]. rewrite M, A_eq. field. exact N2'.
    + apply (lin_scal ok_env ba1 _ len1). now apply (lins_nth ok_env ba1).
  - apply (lins_tab ok_env ba1). intros i Hi. apply (lin_ext ok_env ba1 _ (fun e => (1 / bb0 * (1 / tt0) ^ i) * nth i (beta1 (S e)) 0)).
    + intros e _. unfold S, srs_of. cbn [beta1]. rewrite nth_map_seq by exact Hi. cbn [Nat.add]. rewrite M, B_eq. field. exact N3'.
    + apply (lin_scal ok_env ba1 _ len1). now apply (lins_nth ok_env ba1).
Qed.
Lemma start2 : st2 ok_env ba2 (fun e => srs_of p (e_tau e) (e_alpha e) (e_beta e)).
Proof.
  destruct b2_srs as [X Y]. pose proof tt0_nz as N1'.
  assert (M : forall i e, e_tau e ^ i = (1 / tt0) ^ i * T e ^ i).
  { intros i e. rewrite <- fpow_mul_base. f_equal. rewrite T_eq. field. exact N1'. }
  split; cbn [srs_of tau2 beta2]; [|exact b2_beta].
  apply (lins_tab ok_env ba2). intros i Hi. apply (lin_ext ok_env ba2 _ (fun e => (1 / tt0) ^ i * nth i (tau2 (S e)) 0)).
  - intros e _. unfold S, srs_of. cbn [tau2]. rewrite nth_map_seq by exact Hi. cbn [Nat.add]. apply M.
  - apply (lin_scal ok_env ba2 _ len2). now apply (lins_nth ok_env ba2).
Qed.
Lemma consts1 : st1 ok_env ba1 (fun _ => srs_of p 1 1 1).
Proof. split; [|split]; cbn [srs_of tau1 alpha1 beta1]; apply (lins_tab ok_env ba1); intros i Hi; apply (lin_const ok_env ba1 _ len1 b1_one). Qed.
Lemma consts2 : st2 ok_env ba2 (fun _ => srs_of p 1 1 1).
Proof. split; cbn [srs_of tau2 beta2]; [apply (lins_tab ok_env ba2); intros i Hi|]; apply (lin_const ok_env ba2 _ len2 b2_one). Qed.
Lemma honest_first (e : env) : upd_srs (e_tau e) (e_alpha e) (e_beta e) (after1 p []) = srs_of p (e_tau e) (e_alpha e) (e_beta e).
Proof. unfold after1. cbn [fold_left]. rewrite upd_srs_of. f_equal; ring. Qed.
Lemma shown_phase1_1 : lins_1 (fun e => phase1_1 p [] (l1of e)).
Proof.
  apply (phase1_1_all ok_env ba1 _ len1 b1_one e_tau e_alpha e_beta b1_tau b1_alpha' b1_beta w1 p post1 pre1 (fun _ => [])); [exact consts1|].
  eapply st1_ext; [intros e; apply honest_first|exact start1].
Qed.
Lemma shown_phase1_2 : lins_2 (fun e => phase1_2 p [] (l1of e)).
Proof.
  apply (phase1_2_all ok_env ba2 _ len2 b2_one e_tau e_alpha e_beta b2_tau b2_alpha' b2_beta w1 p post1 pre1 (fun _ => [])); [exact consts2|].
  eapply st2_ext; [intros e; apply honest_first|exact start2].
Qed.
Lemma Z_ratio e : ok_env e -> map (fun z => z / e_delta e) (q_Z (e_q1 e)) = map (fun z => dd0 * z) (q_Z (e_q e)).
Proof.
  intros [De [KP KP1]]. pose proof dd0_nz as DN. pose proof (D_eq e) as DE. pose proof (f1_neq_0 E) as O.
  destruct KP as [t' [Ht' [Q1 [Q2 [Q3 [Q4 [Q5 [QA [QB [QB2 [QK [LZ [QZ _]]]]]]]]]]]]].
  destruct KP1 as [t1 [Ht1 [_ [_ [_ [_ [_ [_ [_ [_ [QK1 [LZ1 [QZ1 _]]]]]]]]]]]]].
  apply (nth_ext _ _ 0 0); rewrite !map_length; [congruence|]. intros r Hr. rewrite LZ1 in Hr.
  assert (M : mirrors k (brev k r) r).
  { replace r with (brev k (brev k r)) at 2 by (apply brev_invol; lia). apply mirrors_brev. pose proof (brev_small k r Hr). lia. }
  pose proof (QZ _ _ (brev_small k r Hr) M) as G. pose proof (QZ1 _ _ (brev_small k r Hr) M) as G1.
  assert (X : forall (f : E -> E) l z, nth_error l r = Some z -> nth r (map f l) 0 = f z).
  { intros f l z Hz. apply nth_error_nth. now rewrite nth_error_map, Hz. }
  rewrite (X _ _ _ G), (X _ _ _ G1). rewrite DE. field. auto.
Qed.
Lemma K_ratio e : ok_env e -> map (fun z => z / e_delta e) (q_K (e_q1 e)) = map (fun z => dd0 * z) (q_K (e_q e)).
Proof.
  intros [De [KP KP1]]. pose proof dd0_nz as DN. pose proof (D_eq e) as DE. pose proof (f1_neq_0 E) as O. destruct (root_conds k Hk) as [R1 R2].
  destruct KP as [t' [Ht' [Q1 [Q2 [Q3 [Q4 [Q5 [QA [QB [QB2 [QK [LZ [QZ _]]]]]]]]]]]]].
  destruct KP1 as [t1 [Ht1 [_ [_ [_ [_ [_ [_ [_ [_ [QK1 [LZ1 [QZ1 _]]]]]]]]]]]]].
  assert (t1 = t') as -> by exact (lag_values_unique k (root k) (proj1 Hk) R1 R2 (T e) t1 t' Ht1 Ht').
  rewrite QK, QK1, !map_map. apply map_ext. intros i. rewrite DE. field. auto.
Qed.
Let q0 e : par2 E := mkPar2 1 1 (q_Z (e_q1 e)) (q_K (e_q1 e)).
Lemma shown_phase2_1 : lins_1 (fun e => phase2_1 (q0 e) (l2of e)).
Proof.
  apply (phase2_1_all ok_env ba1 _ len1 b1_one e_delta b1_delta' w2 post2 pre2 q0).
  - split; [exact b1_one|]. split; [exact b1_Z1|exact b1_K1].
  - split; [|split]; cbn [upd_par2 q0 p_d1 p_Z p_K].
    + exact (lin_mulr ok_env ba1 _ len1 _ _ b1_delta').
    + apply (lins_ext ok_env ba1 _ (fun e => map (fun z => dd0 * z) (q_Z (e_q e)))); [exact Z_ratio|]. apply (lins_map ok_env ba1 _ len1), b1_Z.
    + apply (lins_ext ok_env ba1 _ (fun e => map (fun z => dd0 * z) (q_K (e_q e)))); [exact K_ratio|]. apply (lins_map ok_env ba1 _ len1), b1_K.
Qed.
Lemma shown_phase2_2 : lins_2 (fun e => phase2_2 (q0 e) (l2of e)).
Proof.
  apply (phase2_2_all ok_env ba2 _ len2 b2_one e_delta b2_delta' w2 post2 pre2 q0); cbn [q0 p_d2]; [exact b2_one|].
  exact (lin_mulr ok_env ba2 _ len2 _ _ b2_delta').
Qed.
Lemma all_shown1 c : exists c', forall e, ok_env e -> comb c (shown1 p (l1of e) (l2of e) (e_q e) (e_v e) (e_q1 e)) = comb c' (ba1 e).
Proof.
  apply (lins_comb ok_env ba1 _ len1). unfold shown1. apply lins_app; [exact shown_phase1_1|]. apply lins_app; [exact shown_phase2_1|].
  eapply lins_ext; [|exact b1_pub]. intros e _. cbn beta. now rewrite after1_of.
Qed.
Lemma all_shown2 c : exists c', forall e, ok_env e -> comb c (shown2 p (l1of e) (l2of e) (e_q e) (e_q1 e)) = comb c' (ba2 e).
Proof.
  apply (lins_comb ok_env ba2 _ len2). unfold shown2. apply lins_app; [exact shown_phase1_2|]. apply lins_app; [exact shown_phase2_2|].
  eapply lins_ext; [|exact b2_pub]. intros e _. cbn beta. now rewrite after1_of.
Qed.
Variables (x : nat -> E).
Hypothesis fits : (length (r_cons cs) <= 2 ^ k)%nat.
Lemma few_coeffs ca cb cc : exists ca' cb' cc', forall tau alpha beta delta, delta <> 0 ->
  ceremony_accepts p cs k x ca cb cc (pre1 ++ with1 w1 tau alpha beta :: post1) (pre2 ++ with2 w2 delta :: post2) ->
  convinces_more p cs k x ca' cb' cc' (aa0 * alpha) (bb0 * beta) (dd0 * delta) (tt0 * tau).
Proof.
  destruct (all_shown1 ca) as [ca' Ha]. destruct (all_shown2 cb) as [cb' Hb]. destruct (all_shown1 cc) as [cc' Hc]. exists ca', cb', cc'.
  intros tau alpha beta delta Hd [q [v [q1 [v1 [KP [KP1 AC]]]]]]. set (e := mkEnv tau alpha beta delta q v q1 v1).
  assert (OK : ok_env e) by (split; [exact Hd|split; [exact KP|exact KP1]]).
  pose proof (A_eq e) as XA. pose proof (B_eq e) as XB. pose proof (T_eq e) as XT. pose proof (D_eq e) as XD. cbn [e e_tau e_alpha e_beta e_delta] in XA, XB, XT, XD.
  rewrite <- XA, <- XB, <- XT, <- XD. exists q, v, q1, v1. split; [exact KP|]. split; [exact KP1|]. cbv zeta.
  specialize (Ha e OK). specialize (Hb e OK). specialize (Hc e OK). 
  change (shown1 p (l1of e) (l2of e) (e_q e) (e_v e) (e_q1 e)) with (shown1 p (pre1 ++ with1 w1 tau alpha beta :: post1) (pre2 ++ with2 w2 delta :: post2) q v q1) in Ha, Hc.
  change (shown2 p (l1of e) (l2of e) (e_q e) (e_q1 e)) with (shown2 p (pre1 ++ with1 w1 tau alpha beta :: post1) (pre2 ++ with2 w2 delta :: post2) q q1) in Hb.
  rewrite Ha, Hb, Hc in AC. exact AC.
Qed.
Lemma sound2_scaled ca cb cc (t0 a0 b0 d0 : E) : t0 <> 0 -> a0 <> 0 -> b0 <> 0 -> d0 <> 0 ->
  more (2 * 2 ^ k - 2) (fun tau => more 3 (fun delta => delta <> 0 /\ more 2 (fun beta => more 2 (fun alpha =>
    convinces_more p cs k x ca cb cc (a0 * alpha) (b0 * beta) (d0 * delta) (t0 * tau))))) -> satisfies cs (extracted p cs k x cc).
Proof.
  intros T0 A0 B0 D0 H. assert (I : forall z : E, z <> 0 -> forall a b, z * a = z * b -> a = b) by (intros z Hz a b X; now apply (fmul_cancel_l _ z)).
  apply (sound2 p k cs x ca cb cc Hk fits).
  apply (more_map _ _ (fun y => t0 * y) (I _ T0)). revert H. apply more_imp. intros tau H.
  apply (more_map _ _ (fun y => d0 * y) (I _ D0)). revert H. apply more_imp. intros d [Dn H]. split.
  { intros X. apply fmul_0_iff in X. tauto. }
  apply (more_map _ _ (fun y => b0 * y) (I _ B0)). revert H. apply more_imp. intros b H.
  apply (more_map _ _ (fun y => a0 * y) (I _ A0)). exact H.
Qed.
Lemma ceremony_sound ca cb cc :
  more (2 * 2 ^ k - 2) (fun tau => more 3 (fun delta => delta <> 0 /\ more 2 (fun beta => more 2 (fun alpha =>
    ceremony_accepts p cs k x ca cb cc (pre1 ++ with1 w1 tau alpha beta :: post1) (pre2 ++ with2 w2 delta :: post2))))) ->
  exists y, satisfies cs y /\ forall i, (i < nb_public cs)%nat -> y i = x i.
Proof.
  intros H. destruct (few_coeffs ca cb cc) as [ca' [cb' [cc' F]]]. exists (extracted p cs k x cc'). split.
  - apply (sound2_scaled ca' cb' cc' tt0 aa0 bb0 dd0 tt0_nz aa0_nz bb0_nz dd0_nz).
    revert H. apply more_imp. intros tau. apply more_imp. intros d [Dn H]. split; [exact Dn|]. revert H. apply more_imp. intros b. apply more_imp. intros a.
    now apply F.
  - intros i Hi. unfold extracted. destruct (Nat.ltb_spec i (nb_public cs)); [reflexivity|lia].
Qed.
End Ceremony.

(* ---- counting ---- *)
Local Close Scope fld_scope.
Section CeremonyCount.
Context {E : Ext2}.
Variable all : list E.
Hypotheses (nd : NoDup all) (full : forall y, In y all).
Lemma few_ceremonies p k (cs : r1cs E) pre1 post1 w1 pre2 post2 w2 x ca cb cc (l : list (E * (E * (E * E)))) :
  1 <= p -> 1 <= k <= kmax E -> Forall nonzero1 (pre1 ++ post1) -> Forall (fun w => u_d w <> 0%F) (pre2 ++ post2) -> (length (r_cons cs) <= 2 ^ k)%nat ->
  ~ (exists y, satisfies cs y /\ forall i, i < nb_public cs -> y i = x i) -> NoDup l ->
  (forall tau delta beta alpha, In (tau, (delta, (beta, alpha))) l -> delta <> 0%F /\
    ceremony_accepts p cs k x ca cb cc (pre1 ++ with1 w1 tau alpha beta :: post1) (pre2 ++ with2 w2 delta :: post2)) ->
  length l <= (2 * 2 ^ k + 5) * length all ^ 3.
Proof.
  intros Hp Hk N1 N2 fits NS ND H. destruct (Nat.le_gt_cases (length l) ((2 * 2 ^ k + 5) * length all ^ 3)) as [|M]; [assumption|]. exfalso. apply NS.
  assert (P : (2 <= 2 ^ k)%nat) by (change 2%nat with (2 ^ 1)%nat at 1; apply Nat.pow_le_mono_r; lia).
  apply (ceremony_sound p k cs pre1 post1 w1 pre2 post2 w2 Hp Hk N1 N2 x fits ca cb cc).
  replace (2 * 2 ^ k + 5)%nat with (2 * 2 ^ k - 2 + 3 + 2 + 2)%nat in M by lia. pose proof (pigeon4 all nd full 2 2 3 (2 * 2 ^ k - 2) l ND M) as Q.
  revert Q. apply more_imp. intros tau. apply more_imp. intros d Q. split.
  - destruct Q as [[|b lb] [_ [L Q]]]; [cbn in L; lia|]. destruct (Q b (or_introl eq_refl)) as [[|a la] [_ [L2 Q2]]]; [cbn in L2; lia|].
    apply (H tau d b a). apply Q2. now left.
  - revert Q. apply more_imp. intros b. apply more_imp. intros a Ha. now apply (H tau d b a).
Qed.
End CeremonyCount.

(* ---- with a witness ---- *)
Local Open Scope fld_scope.
Section CeremonyHonest.
Context {E : Ext2}.
Add Field Ech : (f_th E).
Lemma comb_skip (c l1 l2 : list E) : comb (repeat 0 (length l1) ++ c) (l1 ++ l2) = comb c l2.
Proof.
  change (comb_at 0 (repeat 0 (length l1) ++ c) (l1 ++ l2) = comb c l2). rewrite comb_app.
  assert (X : comb_at 0 (repeat 0 (length l1) ++ c) l1 = 0).
  { unfold comb_at. apply sumn_zero. intros i Hi. cbn [Nat.add]. rewrite app_nth1 by (now rewrite repeat_length). rewrite nth_repeat. ring. }
  rewrite X. transitivity (comb_at (0 + length l1) (repeat 0 (length l1) ++ c) l2); [ring|]. unfold comb_at, comb. apply sumn_ext. intros i _.
  rewrite app_nth2 by (rewrite repeat_length; lia). rewrite repeat_length. do 2 f_equal. lia.
Qed.
Lemma after1_len p (l : list (who1 E)) : length (tau1 (after1 p l)) = (2 * 2 ^ p - 1)%nat /\ length (alpha1 (after1 p l)) = (2 ^ p)%nat /\
  length (beta1 (after1 p l)) = (2 ^ p)%nat /\ length (tau2 (after1 p l)) = (2 ^ p)%nat.
Proof. rewrite after1_of. cbn [srs_of tau1 alpha1 beta1 tau2]. rewrite !map_length, !seq_length. auto. Qed.
Lemma phase1_1_len p (l l' : list (who1 E)) : forall acc acc', length l = length l' -> length (phase1_1 p acc l) = length (phase1_1 p acc' l').
Proof.
  revert l'. induction l as [|w l IH]; intros [|w' l'] acc acc' L; try discriminate L; cbn [phase1_1]; unfold srs_1; rewrite !app_length;
    destruct (after1_len p acc) as [X [Y [Z _]]]; destruct (after1_len p acc') as [X' [Y' [Z' _]]]; rewrite X, Y, Z, X', Y', Z'; [reflexivity|].
  cbn [rec1_1 length]. rewrite (IH l' (acc ++ [w]) (acc' ++ [w'])) by (cbn in L; lia). reflexivity.
Qed.
Lemma phase1_2_len p (l l' : list (who1 E)) : forall acc acc', length l = length l' -> length (phase1_2 p acc l) = length (phase1_2 p acc' l').
Proof.
  revert l'. induction l as [|w l IH]; intros [|w' l'] acc acc' L; try discriminate L; cbn [phase1_2]; unfold srs_2; rewrite !app_length;
    destruct (after1_len p acc) as [_ [_ [_ X]]]; destruct (after1_len p acc') as [_ [_ [_ X']]]; rewrite X, X'; [reflexivity|].
  cbn [rec1_2 length]. rewrite (IH l' (acc ++ [w]) (acc' ++ [w'])) by (cbn in L; lia). reflexivity.
Qed.
Lemma phase2_1_len (l l' : list (who2 E)) : forall q q', length (p_Z q) = length (p_Z q') -> length (p_K q) = length (p_K q') -> length l = length l' ->
  length (phase2_1 q l) = length (phase2_1 q' l').
Proof.
  revert l'. induction l as [|w l IH]; intros [|w' l'] q q' LZ LK L; try discriminate L; cbn [phase2_1]; unfold par_1; rewrite !app_length, LZ, LK; [reflexivity|].
  cbn [rec2_1 length]. rewrite (IH l' (upd_par2 (u_d w) q) (upd_par2 (u_d w') q')); [reflexivity| | |]; cbn [upd_par2 p_Z p_K]; try rewrite !map_length; try assumption.
  cbn in L; lia.
Qed.
Lemma phase2_2_len (l l' : list (who2 E)) : forall q q', length l = length l' -> length (phase2_2 q l) = length (phase2_2 q' l').
Proof.
  revert l'. induction l as [|w l IH]; intros [|w' l'] q q' L; try discriminate L; cbn [phase2_2]; [reflexivity|]. cbn [app length].
  rewrite (IH l' (upd_par2 (u_d w) q) (upd_par2 (u_d w') q')) by (cbn in L; lia). reflexivity.
Qed.
Lemma ceremony_honest p k (cs : r1cs E) x n1 n2 : 1 <= k <= kmax E -> (length (r_cons cs) <= 2 ^ k)%nat -> satisfies cs x ->
  exists ca cb cc, forall l1 l2, length l1 = n1 -> length l2 = n2 -> ceremony_delta l2 <> 0 -> ceremony_accepts p cs k x ca cb cc l1 l2.
Proof.
  intros Hk fits SAT. destruct (honest_convinces p k cs x Hk fits SAT) as [ca [cb [cc [_ H]]]].
  set (i1 := repeat (mkWho1 (E := E) 0 0 0 0 0 0 0 0 0) n1). set (i2 := repeat (mkWho2 (E := E) 0 0 0) n2).
  set (q' := mkPar2 (E := E) 1 1 (repeat 0 (2 ^ k - 1)) (repeat 0 (wires cs - nb_public cs))).
  set (m1 := (length (phase1_1 p [] i1) + length (phase2_1 q' i2))%nat). set (m2 := (length (phase1_2 p [] i1) + length (phase2_2 q' i2))%nat).
  exists (repeat 0 m1 ++ ca), (repeat 0 m2 ++ cb), (repeat 0 m1 ++ cc). intros l1 l2 L1 L2 D.
  destruct (H (ceremony_alpha l1) (ceremony_beta l1) (ceremony_delta l2) (ceremony_tau l1) D) as [q [v [KP AC]]].
  destruct (keypair_ex k cs Hk (ceremony_alpha l1) (ceremony_beta l1) 1 (ceremony_tau l1)) as [q1 [v1 KP1]].
  exists q, v, q1, v1. split; [exact KP|]. split; [exact KP1|]. cbv zeta in AC.
  destruct KP1 as [t' [Ht' [_ [_ [_ [_ [_ [_ [_ [_ [QK [LZ _]]]]]]]]]]]].
  assert (M1 : m1 = length (phase1_1 p [] l1 ++ phase2_1 (mkPar2 1 1 (q_Z q1) (q_K q1)) l2)).
  { rewrite app_length. unfold m1. f_equal; [apply phase1_1_len|apply phase2_1_len]; cbn [p_Z p_K q']; unfold i1, i2; rewrite ?repeat_length; try congruence.
    now rewrite QK, map_length, seq_length. }
  assert (M2 : m2 = length (phase1_2 p [] l1 ++ phase2_2 (mkPar2 1 1 (q_Z q1) (q_K q1)) l2)).
  { rewrite app_length. unfold m2. f_equal; [apply phase1_2_len|apply phase2_2_len]; unfold i1, i2; rewrite ?repeat_length; congruence. }
  unfold shown1, shown2. rewrite !app_assoc, M1, M2, !comb_skip, after1_of. exact AC.
Qed.
End CeremonyHonest.

(* ---- the records ---- *)
Section Records.
Context {E : Ext2}.
Lemma record_points (w : who1 E) (w' : who2 E) s d1 prev :
  u_rt w = chal (u_st w) (u_t w * u_st w) prev 1 -> u_ra w = chal (u_sa w) (u_a w * u_sa w) prev 2 -> u_rb w = chal (u_sb w) (u_b w * u_sb w) prev 3 ->
  u_r w' = chal (u_s w') (u_d w' * u_s w') prev 1 ->
  (forall y, In (inl y) (rec_vals (new_rec (u_t w) (u_a w) (u_b w) (u_st w) (u_sa w) (u_sb w) s prev)) -> In y (rec1_1 w s)) /\
  (forall y, In (inr y) (rec_vals (new_rec (u_t w) (u_a w) (u_b w) (u_st w) (u_sa w) (u_sb w) s prev)) -> In y (rec1_2 w s)) /\
  (forall y, In (inl y) (rec2_vals (new_rec2 (u_d w') (u_s w') d1 prev)) -> In y [d1; u_s w'; u_d w' * u_s w']) /\
  (forall y, In (inr y) (rec2_vals (new_rec2 (u_d w') (u_s w') d1 prev)) -> In y [u_r w'; u_d w' * u_r w']).
Proof.
  intros H1 H2 H3 H4. unfold rec1_1, rec1_2. rewrite H1, H2, H3, H4.
  unfold rec_vals, rec2_vals, key_vals, new_rec, signed_rec, new_rec2, mk_key. cbv zeta. cbn [app In kS kSX kSPX c_tau1 c_alpha1 c_beta1 c_tau2 c_beta2 c_kt c_ka c_kb d_delta d_key].
  repeat split; intros y H; repeat (destruct H as [H|H]; [first [discriminate H|injection H as <-; tauto]|]); destruct H.
Qed.
End Records.
