(* Generic.v -- a proof that is accepted for many trapdoors and is a fixed combination of the published points
   contains a witness (Spec13.v). *)
From Coq Require Import Ring Field Permutation.
From Verif Require Import Base Fld Conc Parallel BitRev FFT Poly IO Ext Spec1 Gob GobLemmas Circuit Spec2 Spec3 Interp Spec4 Groth Init2 Init2Claims Init2More Spec13.
Local Open Scope fld_scope.

Section Roots.
Context {K : Fld}.
Add Field Kgen : (f_th K).
Lemma peval_cons (a : K) c y : peval (a :: c) y = a + y * peval c y.
Proof.
  unfold peval. cbn [length]. change (S (length c)) with (1 + length c)%nat. rewrite sumn_split, sumn_S, sumn_0. cbn [Nat.add nth fpow].
  transitivity (a + sumn (length c) (fun i => y * (nth i c 0 * y ^ i))); [|now rewrite sumn_scal].
  assert (X : forall u v z : K, u = v -> 0 + a * 1 + u = a + v) by (intros u v z ->; ring). apply (X _ _ 0).
  apply sumn_ext. intros i _. cbn [fpow]. ring.
Qed.
(* values of the suffixes of c at y *)
Fixpoint quo (c : list K) (y : K) : list K :=
  match c with
  | [] => []
  | _ :: c' => match c' with [] => [] | _ => peval c' y :: quo c' y end
  end.
Lemma quo_length c y : length (quo c y) = (length c - 1)%nat.
Proof. induction c as [|a [|b c] IH]; [reflexivity|reflexivity|]. change (length (quo (a :: b :: c) y)) with (S (length (quo (b :: c) y))). rewrite IH. cbn. lia. Qed.
Lemma quo_eval c y z : peval c z = (z - y) * peval (quo c y) z + peval c y.
Proof.
  induction c as [|a [|b c] IH].
  - cbn [quo]. unfold peval. cbn [length]. rewrite !sumn_0. ring.
  - cbn [quo]. rewrite !peval_cons. unfold peval. cbn [length]. rewrite !sumn_0. ring.
  - change (quo (a :: b :: c) y) with (peval (b :: c) y :: quo (b :: c) y). set (d := b :: c) in *.
    rewrite (peval_cons a d z), (peval_cons a d y), (peval_cons (peval d y)), IH. ring.
Qed.
Lemma suffix_zero c y : peval c y = 0 -> (forall i, nth i (quo c y) 0 = 0) -> forall i, nth i c 0 = 0.
Proof.
  induction c as [|a [|b c] IH]; intros P Q i; [now destruct i| |].
  - rewrite peval_cons in P. unfold peval in P. cbn [length] in P. rewrite sumn_0 in P.
    destruct i as [|[|i]]; cbn; auto. rewrite <- P. ring.
  - change (quo (a :: b :: c) y) with (peval (b :: c) y :: quo (b :: c) y) in Q. rewrite peval_cons in P.
    pose proof (Q 0%nat) as Q0. cbn [nth] in Q0. rewrite Q0 in P.
    destruct i as [|i]; [cbn; rewrite <- P; ring|]. cbn [nth]. apply IH; [exact Q0|]. intros j. exact (Q (S j)).
Qed.
(* a polynomial with as many roots as coefficients *)
Lemma roots_zero : forall l (c : list K), NoDup l -> length c <= length l -> (forall y, In y l -> peval c y = 0) -> forall i, nth i c 0 = 0.
Proof.
  induction l as [|y l IH]; intros c ND L H i.
  - destruct c; [now destruct i|cbn in L; lia].
  - inversion ND as [|? ? N1 N2]; subst. apply (suffix_zero c y); [apply H; now left|]. apply IH; [exact N2|rewrite quo_length; cbn in L; lia|].
    intros z Hz. pose proof (quo_eval c y z) as Q. rewrite (H z (or_intror Hz)), (H y (or_introl eq_refl)) in Q.
    assert (M : (z - y) * peval (quo c y) z = 0) by (rewrite Q; ring). apply fmul_0_iff in M as [M|M]; [|exact M].
    exfalso. apply N1. replace y with z; [exact Hz|]. transitivity ((z - y) + y); [ring|rewrite M; ring].
Qed.
Lemma more_zero m (c : list K) : length c <= S m -> more m (fun y => peval c y = 0) -> forall i, nth i c 0 = 0.
Proof. intros L [l [ND [M H]]]. apply (roots_zero l); auto. lia. Qed.
Lemma more_imp {A} m (P Q : A -> Prop) : (forall y, P y -> Q y) -> more m P -> more m Q.
Proof. intros F [l [ND [M H]]]. exists l. auto. Qed.

(* linear, quadratic, cubic *)
Lemma lin_zero (a0 a1 : K) : more 1 (fun y => a0 + a1 * y = 0) -> a0 = 0 /\ a1 = 0.
Proof.
  intros H. assert (X : forall i, nth i [a0; a1] 0 = 0).
  { apply (more_zero 1); [cbn; lia|]. revert H. apply more_imp. intros y Hy. rewrite !peval_cons. unfold peval. cbn [length]. rewrite sumn_0.
    match type of Hy with ?l = _ => transitivity l; [ring|exact Hy] end. }
  split; [exact (X 0%nat)|exact (X 1%nat)].
Qed.
Lemma quad_zero (a0 a1 a2 : K) : more 2 (fun y => a0 + a1 * y + a2 * y * y = 0) -> a0 = 0 /\ a1 = 0 /\ a2 = 0.
Proof.
  intros H. assert (X : forall i, nth i [a0; a1; a2] 0 = 0).
  { apply (more_zero 2); [cbn; lia|]. revert H. apply more_imp. intros y Hy. rewrite !peval_cons. unfold peval. cbn [length]. rewrite sumn_0.
    match type of Hy with ?l = _ => transitivity l; [ring|exact Hy] end. }
  split; [exact (X 0%nat)|]. split; [exact (X 1%nat)|exact (X 2%nat)].
Qed.
Lemma cube_zero (a0 a1 a2 a3 : K) : more 3 (fun y => a0 + a1 * y + a2 * y * y + a3 * y * y * y = 0) -> a0 = 0 /\ a1 = 0 /\ a2 = 0 /\ a3 = 0.
Proof.
  intros H. assert (X : forall i, nth i [a0; a1; a2; a3] 0 = 0).
  { apply (more_zero 3); [cbn; lia|]. revert H. apply more_imp. intros y Hy. rewrite !peval_cons. unfold peval. cbn [length]. rewrite sumn_0.
    match type of Hy with ?l = _ => transitivity l; [ring|exact Hy] end. }
  split; [exact (X 0%nat)|]. split; [exact (X 1%nat)|]. split; [exact (X 2%nat)|exact (X 3%nat)].
Qed.

(* the verification equation at one tau; A0 .. P's parts: see published1 *)
Lemma equation (A0 A1 A2 a3 La Ra Oa B0 b1 b2 Xl Xr Xo C0 C1 C2 c3 Lc Rc Oc : K) :
  more 3 (fun d => d <> 0 /\ more 2 (fun b => more 1 (fun a =>
    (A0 + a * A1 + b * A2 + d * a3 + (b * La + a * Ra + Oa) / d) * (B0 + b * b1 + d * b2) =
    a * b + (b * Xl + a * Xr + Xo) + (C0 + a * C1 + b * C2 + d * c3 + (b * Lc + a * Rc + Oc) / d) * d))) ->
  (Xl + Lc) * (Xr + Rc) = Xo + Oc.
Proof.
  intros H.
  assert (H1 : more 3 (fun d => d <> 0 /\
    (Oa * B0 + (A0 * B0 + Oa * b2 - Xo - Oc) * d + (A0 * b2 + a3 * B0 - C0) * d * d + (a3 * b2 - c3) * d * d * d = 0 /\
     (La * B0 + Oa * b1) + (A0 * b1 + A2 * B0 + La * b2 - Xl - Lc) * d + (A2 * b2 + a3 * b1 - C2) * d * d + 0 * d * d * d = 0 /\
     La * b1 + A2 * b1 * d + 0 * d * d + 0 * d * d * d = 0) /\
    (Ra * B0 + (A1 * B0 + Ra * b2 - Xr - Rc) * d + (A1 * b2 - C1) * d * d + 0 * d * d * d = 0 /\
     Ra * b1 + (A1 * b1 - 1) * d + 0 * d * d + 0 * d * d * d = 0))).
  { revert H. apply more_imp. intros d [D H]. split; [exact D|].
    assert (H2 : more 2 (fun b =>
      ((Oa * B0 + (A0 * B0 + Oa * b2 - Xo - Oc) * d + (A0 * b2 + a3 * B0 - C0) * d * d + (a3 * b2 - c3) * d * d * d) +
       ((La * B0 + Oa * b1) + (A0 * b1 + A2 * B0 + La * b2 - Xl - Lc) * d + (A2 * b2 + a3 * b1 - C2) * d * d + 0 * d * d * d) * b +
       (La * b1 + A2 * b1 * d + 0 * d * d + 0 * d * d * d) * b * b = 0) /\
      ((Ra * B0 + (A1 * B0 + Ra * b2 - Xr - Rc) * d + (A1 * b2 - C1) * d * d + 0 * d * d * d) +
       (Ra * b1 + (A1 * b1 - 1) * d + 0 * d * d + 0 * d * d * d) * b + 0 * b * b = 0))).
    { revert H. apply more_imp. intros b H. apply lin_zero. revert H. apply more_imp. intros a H.
      match type of H with ?l = ?r => transitivity ((l - r) * d) end; [field; exact D|]. rewrite H. ring. }
    split.
    - apply quad_zero. revert H2. apply more_imp. tauto.
    - assert (Q : forall u v z : K, u = 0 /\ v = 0 /\ z = 0 -> u = 0 /\ v = 0) by tauto.
      apply (Q _ _ 0), quad_zero. revert H2. apply more_imp. intros b [_ H2]. exact H2. }
  assert (G1 := cube_zero _ _ _ _ (more_imp _ _ _ (fun d X => proj1 (proj1 (proj2 X))) H1)).
  assert (G2 := cube_zero _ _ _ _ (more_imp _ _ _ (fun d X => proj1 (proj2 (proj1 (proj2 X)))) H1)).
  assert (G3 := cube_zero _ _ _ _ (more_imp _ _ _ (fun d X => proj2 (proj2 (proj1 (proj2 X)))) H1)).
  assert (G4 := cube_zero _ _ _ _ (more_imp _ _ _ (fun d X => proj1 (proj2 (proj2 X))) H1)).
  assert (G5 := cube_zero _ _ _ _ (more_imp _ _ _ (fun d X => proj2 (proj2 (proj2 X))) H1)).
  destruct G1 as [_ [P1 _]]. destruct G2 as [P2 [P3 _]]. destruct G3 as [P4 [P5 _]]. destruct G4 as [_ [P6 _]]. destruct G5 as [P7 [P8 _]].
  assert (AB : A1 * b1 = 1) by (transitivity ((A1 * b1 - 1) + 1); [ring|rewrite P8; ring]).
  assert (NB : b1 <> 0) by (intros Z; rewrite Z in AB; apply (f1_neq_0 K); rewrite <- AB; ring).
  assert (cancel : forall u : K, u * b1 = 0 -> u = 0) by (intros u Hu; apply fmul_0_iff in Hu; tauto).
  apply cancel in P4, P5, P7. subst La A2 Ra.
  assert (OZ : Oa = 0) by (apply cancel; rewrite <- P2; ring). subst Oa.
  assert (E1 : Xl + Lc = A0 * b1) by (transitivity (A0 * b1 - (A0 * b1 + 0 * B0 + 0 * b2 - Xl - Lc)); [ring|rewrite P3; ring]).
  assert (E2 : Xr + Rc = A1 * B0) by (transitivity (A1 * B0 - (A1 * B0 + 0 * b2 - Xr - Rc)); [ring|rewrite P6; ring]).
  assert (E3 : Xo + Oc = A0 * B0) by (transitivity (A0 * B0 - (A0 * B0 + 0 * b2 - Xo - Oc)); [ring|rewrite P1; ring]).
  rewrite E1, E2, E3. transitivity (A0 * B0 * (A1 * b1)); [ring|rewrite AB; ring].
Qed.
End Roots.

Section Shape.
Context {E : Ext2}.
Add Field Egen : (f_th E).
(* the coefficients from number o on *)
Definition comb_at (o : nat) (c l : list E) : E := sumn (length l) (fun i => nth (o + i)%nat c 0 * nth i l 0).
Lemma comb_app o (c l1 l2 : list E) : comb_at o c (l1 ++ l2) = comb_at o c l1 + comb_at (o + length l1) c l2.
Proof.
  unfold comb_at. rewrite app_length, sumn_split. f_equal; apply sumn_ext; intros i Hi.
  - rewrite app_nth1 by exact Hi. reflexivity.
  - rewrite app_nth2 by lia. do 2 f_equal; [|f_equal]; lia.
Qed.
Lemma comb_map o (c : list E) (f : nat -> E) s n : comb_at o c (map f (seq s n)) = sumn n (fun i => nth (o + i)%nat c 0 * f (s + i)%nat).
Proof. unfold comb_at. rewrite map_length, seq_length. apply sumn_ext. intros i Hi. now rewrite nth_map_seq. Qed.
Lemma comb_one o (c : list E) y : comb_at o c [y] = nth o c 0 * y.
Proof. unfold comb_at. cbn [length]. rewrite sumn_S, sumn_0, Nat.add_0_r. cbn [nth]. ring. Qed.

(* what Z contributes, up to the division by delta *)
Definition zsum (k o : nat) (c : list E) (tau : E) : E :=
  sumn (2 ^ k - 1) (fun r => nth (o + r)%nat c 0 * (tau ^ (brev k r) * (tau ^ (2 ^ k) - 1))).
Lemma brev_small k r : r < 2 ^ k - 1 -> brev k r < 2 ^ k - 1.
Proof.
  intros H. pose proof (brev_lt k r) as L. assert (brev k r <> (2 ^ k - 1)%nat); [|lia]. intros X.
  assert (r = (2 ^ k - 1)%nat); [|lia]. apply (brev_inj k); [lia|lia|]. now rewrite brev_last.
Qed.
Lemma comb_Z k o (c z : list E) tau delta : delta <> 0 -> length z = (2 ^ k - 1)%nat ->
  (forall i r, i < 2 ^ k - 1 -> mirrors k i r -> nth_error z r = Some (tau ^ i * (tau ^ (2 ^ k) - 1) / delta)) ->
  comb_at o c z = zsum k o c tau / delta.
Proof.
  intros D L H. unfold comb_at, zsum. rewrite L.
  transitivity (1 / delta * sumn (2 ^ k - 1) (fun r => nth (o + r)%nat c 0 * (tau ^ brev k r * (tau ^ (2 ^ k) - 1)))); [|field; exact D].
  rewrite <- sumn_scal. apply sumn_ext. intros r Hr.
  assert (M : mirrors k (brev k r) r).
  { replace r with (brev k (brev k r)) at 2 by (apply brev_invol; lia). apply mirrors_brev. pose proof (brev_small k r Hr). lia. }
  rewrite (nth_error_nth _ _ 0 (H _ _ (brev_small k r Hr) M)). field. exact D.
Qed.
(* as a polynomial *)
Definition zpoly (k o : nat) (c : list E) : list E := map (fun i => nth (o + brev k i)%nat c 0) (seq 0 (2 ^ k - 1)).
Lemma fsum_perm (l l' : list E) : Permutation l l' -> fsum l = fsum l'.
Proof. intros P. unfold fsum. induction P; cbn; [reflexivity|now rewrite IHP|ring|congruence]. Qed.
Lemma sumn_perm n (g : nat -> nat) (f : nat -> E) : (forall i, i < n -> g i < n) -> (forall i, i < n -> g (g i) = i) ->
  sumn n (fun i => f (g i)) = sumn n f.
Proof.
  intros G1 G2. unfold sumn. rewrite <- (map_map g f).
  assert (P : Permutation (map g (seq 0 n)) (seq 0 n)).
  { apply NoDup_Permutation; [|apply seq_NoDup|].
    - apply (NoDup_map_inv g). rewrite map_map. rewrite (map_ext_in _ (fun i => i)); [rewrite map_id; apply seq_NoDup|].
      intros i Hi. apply in_seq in Hi. apply G2. lia.
    - intros i. rewrite in_map_iff, in_seq. split.
      + intros [j [<- Hj]]. apply in_seq in Hj. pose proof (G1 j). lia.
      + intros Hi. exists (g i). split; [apply G2; lia|]. apply in_seq. pose proof (G1 i). lia. }
  apply fsum_perm, Permutation_map, P.
Qed.
Lemma zpoly_eval k o c tau : zsum k o c tau = peval (zpoly k o c) tau * (tau ^ (2 ^ k) - 1).
Proof.
  unfold zsum, peval, zpoly. rewrite map_length, seq_length.
  transitivity ((tau ^ (2 ^ k) - 1) * sumn (2 ^ k - 1) (fun r => nth (o + r)%nat c 0 * tau ^ brev k r)).
  { rewrite <- sumn_scal. apply sumn_ext. intros r _. ring. }
  rewrite <- (sumn_perm (2 ^ k - 1) (brev k) (fun r => nth (o + r)%nat c 0 * tau ^ brev k r)).
  - transitivity ((tau ^ (2 ^ k) - 1) * sumn (2 ^ k - 1) (fun i => nth i (map (fun i0 => nth (o + brev k i0)%nat c 0) (seq 0 (2 ^ k - 1))) 0 * tau ^ i)); [|ring].
    f_equal. apply sumn_ext. intros i Hi. rewrite nth_map_seq by exact Hi. rewrite brev_invol by lia. reflexivity.
  - apply brev_small.
  - intros i Hi. apply brev_invol. lia.
Qed.

Variables (p k : nat) (cs : r1cs E).
Let np := nb_public cs.
Let W := wires cs.
Let s1 := (2 * 2 ^ p - 1)%nat.
Let s2 := (s1 + 2 ^ p)%nat.
Let s3 := (s2 + 2 ^ p)%nat.
Let s4 := (s3 + 1)%nat.
Let s5 := (s4 + W)%nat.
Let s6 := (s5 + W)%nat.
Let s7 := (s6 + np)%nat.
Definition colsum (t c : list E) (o : nat) (sel : r1c -> list term) (from n : nat) : E :=
  sumn n (fun i => nth (o + i)%nat c 0 * col cs sel t (from + i)%nat).
Definition tausum (tau : E) (c : list E) (o n : nat) : E := sumn n (fun i => nth (o + i)%nat c 0 * tau ^ i).
Definition K_sum (t c : list E) (sel : r1c -> list term) : E := colsum t c (before_K p cs k) sel np (W - np).
Lemma before_K_eq : before_K p cs k = (s7 + (2 ^ k - 1))%nat.
Proof. unfold before_K, s7, s6, s5, s4, s3, s2, s1, W, np. lia. Qed.
Lemma kat_sum t c o alpha beta from n : sumn n (fun i => nth (o + i)%nat c 0 * kat cs alpha beta t (from + i)%nat) =
  beta * colsum t c o r_L from n + alpha * colsum t c o r_R from n + colsum t c o r_O from n.
Proof. unfold colsum, kat. rewrite <- !sumn_scal, <- !sumn_add. apply sumn_ext. intros i _. ring. Qed.
Lemma kat_sum_div t c o alpha beta delta from n : delta <> 0 ->
  sumn n (fun i => nth (o + i)%nat c 0 * (kat cs alpha beta t (from + i)%nat / delta)) =
  (beta * colsum t c o r_L from n + alpha * colsum t c o r_R from n + colsum t c o r_O from n) / delta.
Proof.
  intros D. rewrite <- kat_sum. transitivity (1 / delta * sumn n (fun i => nth (o + i)%nat c 0 * kat cs alpha beta t (from + i)%nat)); [|field; exact D].
  rewrite <- sumn_scal. apply sumn_ext. intros i _. field. exact D.
Qed.
(* a combination of the published points of G1 *)
Lemma shape1 c alpha beta delta tau q v t : delta <> 0 -> lag_values (2 ^ k) (root k) tau t ->
  (lag_values (2 ^ k) (root k) tau t -> forall t', lag_values (2 ^ k) (root k) tau t' -> t' = t) ->
  is_keypair cs k (root k) alpha beta delta tau q v ->
  comb c (published1 (srs_of p tau alpha beta) q v) =
    (tausum tau c 0 s1 + colsum t c s4 r_L 0 W + colsum t c s5 r_R 0 W + colsum t c s6 r_O 0 np) +
    alpha * (tausum tau c s1 (2 ^ p) + colsum t c s6 r_R 0 np) +
    beta * (tausum tau c s2 (2 ^ p) + colsum t c s6 r_L 0 np) +
    delta * nth s3 c 0 +
    (beta * K_sum t c r_L + alpha * K_sum t c r_R + (K_sum t c r_O + zsum k s7 c tau)) / delta.
Proof.
  intros D Ht U [t' [Ht' [Q1 [Q2 [Q3 [Q4 [Q5 [QA [QB [QB2 [QK [LZ [QZ [W1 [W2 [W3 [W4 [W5 [WK WC]]]]]]]]]]]]]]]]]]].
  apply (U Ht) in Ht'. subst t'. unfold published1, srs_of. cbn [tau1 alpha1 beta1].
  change (comb c) with (comb_at 0 c). rewrite !comb_app.
  rewrite QA, QB, WK, QK, Q3. rewrite !map_length, !seq_length. cbn [length]. rewrite LZ.
  rewrite (comb_Z k _ _ _ tau delta D LZ QZ), !comb_map, comb_one. cbn [Nat.add].
  change (wires cs) with W. change (nb_public cs) with np. fold s1. fold s2. fold s3. fold s4. fold s5. fold s6. fold s7.
  change (fun i => nth (s6 + i)%nat c 0 * kat cs alpha beta t i) with (fun i => nth (s6 + i)%nat c 0 * kat cs alpha beta t (0 + i)%nat).
  rewrite kat_sum, kat_sum_div by exact D. rewrite <- before_K_eq. fold (K_sum t c r_L) (K_sum t c r_R) (K_sum t c r_O).
  fold (tausum tau c 0 s1). fold (colsum t c s4 r_L 0 W). fold (colsum t c s5 r_R 0 W).
  replace (sumn (2 ^ p) (fun i => nth (s1 + i)%nat c 0 * (alpha * tau ^ i))) with (alpha * tausum tau c s1 (2 ^ p)).
  2: { unfold tausum. rewrite <- sumn_scal. apply sumn_ext. intros i _. ring. }
  replace (sumn (2 ^ p) (fun i => nth (s2 + i)%nat c 0 * (beta * tau ^ i))) with (beta * tausum tau c s2 (2 ^ p)).
  2: { unfold tausum. rewrite <- sumn_scal. apply sumn_ext. intros i _. ring. }
  change (sumn s1 (fun i => nth i c 0 * tau ^ i)) with (tausum tau c 0 s1).
  change (sumn W (fun i => nth (s4 + i)%nat c 0 * col cs r_L t i)) with (colsum t c s4 r_L 0 W).
  change (sumn W (fun i => nth (s5 + i)%nat c 0 * col cs r_R t i)) with (colsum t c s5 r_R 0 W).
  field. exact D.
Qed.
(* and of G2 *)
Lemma shape2 c alpha beta delta tau q v t : lag_values (2 ^ k) (root k) tau t ->
  (lag_values (2 ^ k) (root k) tau t -> forall t', lag_values (2 ^ k) (root k) tau t' -> t' = t) ->
  is_keypair cs k (root k) alpha beta delta tau q v ->
  comb c (published2 (srs_of p tau alpha beta) q) =
    (tausum tau c 0 (2 ^ p) + colsum t c (2 ^ p + 2) r_R 0 W) + beta * nth (2 ^ p) c 0 + delta * nth (2 ^ p + 1) c 0.
Proof.
  intros Ht U [t' [Ht' [Q1 [Q2 [Q3 [Q4 [Q5 [QA [QB [QB2 _]]]]]]]]]].
  apply (U Ht) in Ht'. subst t'. unfold published2, srs_of. cbn [tau2 beta2].
  change (comb c) with (comb_at 0 c). change [beta; q_delta2 q] with ([beta] ++ [q_delta2 q]). rewrite <- !app_assoc, !comb_app.
  rewrite QB2, QB, Q5. rewrite !map_length, !seq_length. cbn [length]. rewrite !comb_map, !comb_one. cbn [Nat.add].
  rewrite <- !Nat.add_assoc. cbn [Nat.add].
  change (sumn (2 ^ p) (fun i => nth i c 0 * tau ^ i)) with (tausum tau c 0 (2 ^ p)).
  change (sumn W (fun i => nth (2 ^ p + 2 + i)%nat c 0 * col cs r_R t i)) with (colsum t c (2 ^ p + 2) r_R 0 W).
  unfold colsum. cbn [Nat.add]. fold W.
  ring.
Qed.
Lemma pub_sum alpha beta delta tau q v t x : lag_values (2 ^ k) (root k) tau t ->
  (lag_values (2 ^ k) (root k) tau t -> forall t', lag_values (2 ^ k) (root k) tau t' -> t' = t) ->
  is_keypair cs k (root k) alpha beta delta tau q v ->
  sumn np (fun i => x i * nth i (w_K v) 0) = beta * sumn np (fun i => x i * col cs r_L t i) + alpha * sumn np (fun i => x i * col cs r_R t i) +
    sumn np (fun i => x i * col cs r_O t i).
Proof.
  intros Ht U [t' [Ht' [_ [_ [_ [_ [_ [_ [_ [_ [_ [_ [_ [_ [_ [_ [_ [_ [WK _]]]]]]]]]]]]]]]]]]].
  apply (U Ht) in Ht'. subst t'. rewrite WK. rewrite <- !sumn_scal, <- !sumn_add. apply sumn_ext. intros i Hi. rewrite nth_map_seq by exact Hi.
  unfold kat. cbn [Nat.add]. ring.
Qed.
Lemma split_sum x cc t sel : sumn np (fun i => x i * col cs sel t i) + K_sum t cc sel =
  sumn W (fun i => extracted p cs k x cc i * col cs sel t i).
Proof.
  assert (L : (np <= W)%nat) by (unfold np, W, wires; lia).
  replace W with (np + (W - np))%nat at 1 by lia. rewrite sumn_split. f_equal.
  - apply sumn_ext. intros i Hi. unfold extracted. fold np. destruct (Nat.ltb_spec i np); [reflexivity|lia].
  - unfold K_sum, colsum. apply sumn_ext. intros i Hi. unfold extracted. fold np. destruct (Nat.ltb_spec (np + i) np); [lia|].
    do 3 f_equal. lia.
Qed.
Variables (x : nat -> E) (ca cb cc : list E).
Hypotheses (Hk : 1 <= k <= kmax E) (fits : (length (r_cons cs) <= 2 ^ k)%nat).
Let n := (2 ^ k)%nat.
Let x' := extracted p cs k x cc.
Let h := zpoly k s7 cc.
Lemma at_tau tau (a b c : list E) : values_poly cs x' r_L n (root k) a -> values_poly cs x' r_R n (root k) b -> values_poly cs x' r_O n (root k) c ->
  more 3 (fun delta => delta <> 0 /\ more 2 (fun beta => more 1 (fun alpha => convinces p cs k x ca cb cc alpha beta delta tau))) ->
  peval a tau * peval b tau = peval c tau + peval h tau * (tau ^ n - 1).
Proof.
  intros Va Vb Vc H. destruct (root_conds k Hk) as [R1 R2].
  assert (T : exists t, lag_values n (root k) tau t).
  { destruct H as [[|d l] [_ [L H]]]; [cbn in L; lia|]. destruct (H d (or_introl eq_refl)) as [_ [[|b0 lb] [_ [L2 H2]]]]; [cbn in L2; lia|].
    destruct (H2 b0 (or_introl eq_refl)) as [[|a0 la] [_ [L3 H3]]]; [cbn in L3; lia|]. destruct (H3 a0 (or_introl eq_refl)) as [q [v [[t [Ht _]] _]]]. eauto. }
  destruct T as [t Ht].
  assert (U : lag_values n (root k) tau t -> forall t', lag_values n (root k) tau t' -> t' = t).
  { intros _ t' Ht'. exact (lag_values_unique k (root k) (proj1 Hk) R1 R2 tau t' t Ht' Ht). }
  rewrite <- (wire_sum k (root k) (proj1 Hk) R1 R2 cs x' fits r_L t a tau eq_refl Ht Va).
  rewrite <- (wire_sum k (root k) (proj1 Hk) R1 R2 cs x' fits r_R t b tau eq_refl Ht Vb).
  rewrite <- (wire_sum k (root k) (proj1 Hk) R1 R2 cs x' fits r_O t c tau eq_refl Ht Vc).
  unfold x'. fold W. rewrite <- !split_sum. unfold h. unfold n. rewrite <- zpoly_eval.
  transitivity (sumn np (fun i => x i * col cs r_O t i) + (K_sum t cc r_O + zsum k s7 cc tau)); [|ring].
  eapply equation. eapply more_imp; [|exact H]. intros d [D H1]. split; [exact D|]. eapply more_imp; [|exact H1]. intros b0 H2. eapply more_imp; [|exact H2].
  intros a0 [q [v [KP AC]]]. cbv zeta in AC. unfold accepts in AC. fold np in AC.
  rewrite (shape1 ca _ _ _ _ _ _ t D Ht U KP), (shape1 cc _ _ _ _ _ _ t D Ht U KP), (shape2 cb _ _ _ _ _ _ t Ht U KP), (pub_sum _ _ _ _ _ _ t x Ht U KP) in AC.
  destruct KP as [t' [_ [_ [_ [_ [_ [_ [_ [_ [_ [_ [_ [_ [W1 [_ [W3 [_ [W5 _]]]]]]]]]]]]]]]]]]. rewrite W1, W3, W5 in AC.
  assert (M1 : forall y : E, y * 1 = y) by (intros; ring). rewrite M1 in AC. exact AC.
Qed.
(* the polynomial a b - c - h (X^n - 1), of degree below 2n - 1 *)
Definition remainder (a b c : list E) : list E :=
  map (fun m => conv k a b m - nth m c 0 - (if (n <=? m)%nat then nth (m - n) h 0 else 0) + nth m h 0) (seq 0 (n + (n - 1))).
Lemma remainder_eval a b c y : length a = n -> length b = n -> length c = n -> length h = (n - 1)%nat ->
  peval (remainder a b c) y = peval a y * peval b y - peval c y - peval h y * (y ^ n - 1).
Proof.
  intros La Lb Lc Lh. pose proof (n_pos k (proj1 Hk)) as NP. fold n in NP.
  unfold peval at 1. unfold remainder at 1. rewrite map_length, seq_length.
  rewrite (sumn_ext _ (n + (n - 1)) _ (fun m => conv k a b m * y ^ m - nth m c 0 * y ^ m - (if (n <=? m)%nat then nth (m - n) h 0 else 0) * y ^ m + nth m h 0 * y ^ m)).
  2: { intros m Hm. unfold remainder. rewrite nth_map_seq by exact Hm. cbn [Nat.add]. ring. }
  rewrite sumn_add, !sumn_sub.
  assert (C1 : sumn (n + (n - 1)) (fun m => conv k a b m * y ^ m) = peval a y * peval b y).
  { rewrite <- (conv_eval k (proj1 Hk) a b y La Lb). fold n. replace (n + n)%nat with (S (n + (n - 1))) by lia. rewrite sumn_S.
    unfold n. rewrite (conv_last k (proj1 Hk) a b Lb). ring. }
  assert (C2 : forall l N, (length l <= N)%nat -> sumn N (fun m => nth m l 0 * y ^ m) = peval l y).
  { intros l N L. replace N with (length l + (N - length l))%nat by lia. rewrite sumn_split, (sumn_zero _ (N - length l)).
    - unfold peval. ring.
    - intros i _. rewrite nth_overflow by lia. ring. }
  rewrite C1, !C2 by lia.
  assert (C3 : sumn (n + (n - 1)) (fun m => (if (n <=? m)%nat then nth (m - n) h 0 else 0) * y ^ m) = peval h y * y ^ n).
  { rewrite sumn_split, (sumn_zero _ n).
    - unfold peval. rewrite Lh. transitivity (y ^ n * sumn (n - 1) (fun i => nth i h 0 * y ^ i)); [|ring]. rewrite <- sumn_scal.
      transitivity (sumn (n - 1) (fun i => (if (n <=? n + i)%nat then nth (n + i - n) h 0 else 0) * y ^ (n + i))); [ring|].
      apply sumn_ext. intros i _. destruct (Nat.leb_spec n (n + i)); [|lia]. replace (n + i - n)%nat with i by lia. rewrite fpow_add. ring.
    - intros i Hi. destruct (Nat.leb_spec n i); [lia|]. ring. }
  rewrite C3. ring.
Qed.
Lemma sound : more (2 * 2 ^ k - 2) (fun tau => more 3 (fun delta => delta <> 0 /\ more 2 (fun beta => more 1 (fun alpha =>
    convinces p cs k x ca cb cc alpha beta delta tau)))) -> satisfies cs x'.
Proof.
  intros H. destruct (root_conds k Hk) as [R1 R2]. pose proof (n_pos k (proj1 Hk)) as NP. fold n in NP.
  destruct (values_poly_ex k (root k) (proj1 Hk) R1 R2 cs x' r_L) as [a Va].
  destruct (values_poly_ex k (root k) (proj1 Hk) R1 R2 cs x' r_R) as [b Vb].
  destruct (values_poly_ex k (root k) (proj1 Hk) R1 R2 cs x' r_O) as [c Vc].
  assert (Lh : length h = (n - 1)%nat) by (unfold h, zpoly; now rewrite map_length, seq_length).
  assert (Z : forall i, nth i (remainder a b c) 0 = 0).
  { apply (more_zero (2 * 2 ^ k - 2)); [unfold remainder; rewrite map_length, seq_length; fold n; lia|]. revert H. apply more_imp. intros tau H.
    rewrite remainder_eval by (try apply Va; try apply Vb; try apply Vc; exact Lh).
    rewrite (at_tau tau a b c Va Vb Vc H). ring. }
  apply (quotient_sat k (root k) (proj1 Hk) R1 R2 cs x' fits h). split; [exact Lh|]. exists a, b, c. repeat (split; [assumption|]).
  intros y. pose proof (remainder_eval a b c y (proj1 Va) (proj1 Vb) (proj1 Vc) Lh) as Q.
  assert (P0 : peval (remainder a b c) y = 0).
  { unfold peval. apply sumn_zero. intros i _. rewrite Z. ring. }
  rewrite P0 in Q. fold n. transitivity ((peval a y * peval b y - peval c y - peval h y * (y ^ n - 1)) + peval h y * (y ^ n - 1)); [ring|].
  rewrite <- Q. ring.
Qed.
End Shape.

Section KeyPair.
Context {E : Ext2}.
Variables (k : nat) (cs : r1cs E).
Hypothesis Hk : 1 <= k <= kmax E.
Lemma same_values (c c' : list E) : length c = (2 ^ k)%nat -> length c' = (2 ^ k)%nat ->
  (forall j, (j < 2 ^ k)%nat -> peval c (root k ^ j) = peval c' (root k ^ j)) -> c = c'.
Proof.
  intros L L' H. destruct (root_conds k Hk) as [R1 R2]. apply (nth_ext _ _ 0 0); [congruence|]. intros i Hi. rewrite L in Hi.
  apply (fmul_cancel_l _ (fnat (2 ^ k))); [exact R2|].
  rewrite <- (coeff_values k (root k) (proj1 Hk) R1 c i L Hi), <- (coeff_values k (root k) (proj1 Hk) R1 c' i L' Hi).
  apply sumn_ext. intros j Hj. now rewrite H.
Qed.
(* there is a key pair for every trapdoor *)
Lemma lag_values_ex tau : exists t, lag_values (2 ^ k) (root (e := E) k) tau t.
Proof.
  destruct (root_conds k Hk) as [R1 R2].
  set (f := fun j => peval (interp k (root k) (map (fun i => if (i =? j)%nat then 1 else 0) (seq 0 (2 ^ k)))) tau).
  exists (map f (seq 0 (2 ^ k))).
  split; [now rewrite map_length, seq_length|]. intros j c Hj [Lc Hc]. rewrite nth_map_seq by exact Hj. cbn [Nat.add]. unfold f. f_equal.
  apply same_values; [apply interp_length|exact Lc|]. intros i Hi.
  rewrite (interp_eval k (root k) (proj1 Hk) R1 R2), Hc by (auto; now rewrite map_length, seq_length). now rewrite nth_map_seq.
Qed.
Lemma keypair_ex alpha beta delta tau : exists q v, is_keypair cs k (root (e := E) k) alpha beta delta tau q v.
Proof.
  destruct (lag_values_ex tau) as [t Ht].
  exists (mkPk alpha beta delta (map (col cs r_L t) (seq 0 (wires cs))) (map (col cs r_R t) (seq 0 (wires cs)))
    (map (fun r => tau ^ brev k r * (tau ^ (2 ^ k) - 1) / delta) (seq 0 (2 ^ k - 1)))
    (map (fun x => kat cs alpha beta t x / delta) (seq (nb_public cs) (wires cs - nb_public cs))) beta delta (map (col cs r_R t) (seq 0 (wires cs)))),
    (mkVk alpha beta beta delta delta (map (kat cs alpha beta t) (seq 0 (nb_public cs))) []).
  exists t. split; [exact Ht|]. cbn. repeat split.
  - now rewrite map_length, seq_length.
  - intros i r Hi M. assert (r = brev k i) as -> by (apply mirrors_unique with (k := k) (1 := M), mirrors_brev; lia).
    pose proof (brev_small k i Hi). rewrite nth_error_map, nth_error_seq. destruct (Nat.ltb_spec (brev k i) (2 ^ k - 1)); [|lia]. cbn [option_map Nat.add].
    now rewrite brev_invol by lia.
Qed.
End KeyPair.

Section Honest.
Context {E : Ext2}.
Add Field Khon : (f_th E).
Variables (p k : nat) (cs : r1cs E) (x : nat -> E).
Hypotheses (Hk : 1 <= k <= kmax E) (fits : (length (r_cons cs) <= 2 ^ k)%nat).
Let np := nb_public cs.
Let W := wires cs.
(* the coefficients of an honest prover without randomness *)
Definition tab (N : nat) (f : nat -> E) : list E := map f (seq 0 N).
Lemma nth_tab N f i : (i < N)%nat -> nth i (tab N f) 0 = f i.
Proof. intros H. unfold tab. now rewrite nth_map_seq. Qed.
Lemma nth_tab_out N f i : (N <= i)%nat -> nth i (tab N f) 0 = 0.
Proof. intros H. apply nth_overflow. unfold tab. now rewrite map_length, seq_length. Qed.
Let s1 := (2 * 2 ^ p - 1)%nat.
Let s2 := (s1 + 2 ^ p)%nat.
Let s3 := (s2 + 2 ^ p)%nat.
Let s4 := (s3 + 1)%nat.
Let s5 := (s4 + W)%nat.
Let s6 := (s5 + W)%nat.
Let s7 := (s6 + np)%nat.
Definition hon_a : list E := tab s5 (fun i => if (i =? s1)%nat then 1 else if (s4 <=? i)%nat then x (i - s4) else 0).
Definition hon_b : list E := tab (2 ^ p + 2 + W) (fun i => if (i =? 2 ^ p)%nat then 1 else if (2 ^ p + 2 <=? i)%nat then x (i - (2 ^ p + 2)) else 0).
Definition hon_c (h : list E) : list E :=
  tab (before_K p cs k + (W - np)) (fun i => if (i <? s7)%nat then 0 else if (i <? before_K p cs k)%nat then nth (brev k (i - s7)) h 0
    else x (np + (i - before_K p cs k))).
Lemma bK : before_K p cs k = (s7 + (2 ^ k - 1))%nat.
Proof. unfold before_K, s7, s6, s5, s4, s3, s2, s1, np, W. lia. Qed.
Lemma hon_extracted h i : (i < W)%nat -> extracted p cs k x (hon_c h) i = x i.
Proof.
  intros Hi. unfold extracted. fold np. destruct (Nat.ltb_spec i np); [reflexivity|]. unfold hon_c. rewrite nth_tab by lia.
  pose proof bK. destruct (Nat.ltb_spec (before_K p cs k + (i - np)) s7); [lia|].
  destruct (Nat.ltb_spec (before_K p cs k + (i - np)) (before_K p cs k)); [lia|]. f_equal. lia.
Qed.
Lemma p2pos : (1 <= 2 ^ p)%nat. Proof. pose proof (Nat.pow_nonzero 2 p). lia. Qed.
Lemma hon_ca i : nth i hon_a 0 = if (i =? s1)%nat then 1 else if ((s4 <=? i) && (i <? s5))%nat then x (i - s4) else 0.
Proof.
  pose proof p2pos. unfold hon_a. destruct (Nat.lt_ge_cases i s5).
  - rewrite nth_tab by assumption. destruct (i =? s1)%nat; [reflexivity|]. destruct (Nat.ltb_spec i s5); [|lia]. now rewrite andb_true_r.
  - rewrite nth_tab_out by assumption. destruct (Nat.eqb_spec i s1); [unfold s5, s4, s3, s2 in *; lia|].
    destruct (Nat.ltb_spec i s5); [lia|]. now rewrite andb_false_r.
Qed.
Ltac cases := repeat match goal with
  | |- context [(?a =? ?b)%nat] => destruct (Nat.eqb_spec a b)
  | |- context [(?a <=? ?b)%nat] => destruct (Nat.leb_spec a b)
  | |- context [(?a <? ?b)%nat] => destruct (Nat.ltb_spec a b) end; cbn [andb].
Lemma hon_A alpha beta delta tau q v t : delta <> 0 -> lag_values (2 ^ k) (root k) tau t ->
  is_keypair cs k (root k) alpha beta delta tau q v ->
  comb hon_a (published1 (srs_of p tau alpha beta) q v) = alpha + sumn W (fun i => x i * col cs r_L t i).
Proof.
  intros D Ht KP. destruct (root_conds k Hk) as [R1 R2]. pose proof p2pos as P0.
  rewrite (shape1 p k cs hon_a alpha beta delta tau q v t D Ht
    (fun _ t' Ht' => lag_values_unique k (root k) (proj1 Hk) R1 R2 tau t' t Ht' Ht) KP).
  fold np W s1. fold s2. fold s3. fold s4. fold s5. fold s6. fold s7.
  assert (T0 : forall o N, (o + N <= s1 \/ s1 < o /\ o + N <= s4)%nat -> tausum tau hon_a o N = 0).
  { intros o N H. unfold tausum. apply sumn_zero. intros i Hi. rewrite hon_ca. cases; try (unfold s4, s3, s2 in *; lia); ring. }
  assert (C0 : forall o sel a N, (s5 <= o)%nat -> colsum cs t hon_a o sel a N = 0).
  { intros o sel a N H. unfold colsum. apply sumn_zero. intros i Hi. rewrite hon_ca. cases; try (unfold s5, s4, s3, s2 in *; lia); ring. }
  assert (K0 : forall sel, K_sum p k cs t hon_a sel = 0).
  { intros sel. unfold K_sum. apply C0. rewrite bK. unfold s7, s6. lia. }
  assert (Z0 : zsum k s7 hon_a tau = 0).
  { unfold zsum. apply sumn_zero. intros i Hi. rewrite hon_ca. cases; try (unfold s7, s6, s5, s4, s3, s2 in *; lia); ring. }
  rewrite !K0, Z0, (T0 0%nat s1), (T0 s2 (2 ^ p)%nat), (C0 s5), !(C0 s6) by (unfold s6, s4, s3, s2; lia).
  assert (T1 : tausum tau hon_a s1 (2 ^ p) = 1).
  { unfold tausum. rewrite (sumn_single _ (2 ^ p) 0%nat).
    - rewrite hon_ca. rewrite Nat.add_0_r, Nat.eqb_refl. cbn [fpow]. ring.
    - lia.
    - intros i Hi Ni. rewrite hon_ca. cases; try (unfold s4, s3, s2 in *; lia); ring. }
  assert (T3 : nth s3 hon_a 0 = 0).
  { rewrite hon_ca. cases; try (unfold s4, s3, s2 in *; lia); ring. }
  assert (C1 : colsum cs t hon_a s4 r_L 0 W = sumn W (fun i => x i * col cs r_L t i)).
  { unfold colsum. apply sumn_ext. intros i Hi. rewrite hon_ca. cases; try (unfold s5, s4, s3, s2 in *; lia). cbn [Nat.add].
    f_equal. f_equal. lia. }
  rewrite T1, T3, C1. field. exact D.
Qed.
Lemma hon_cb i : nth i hon_b 0 = if (i =? 2 ^ p)%nat then 1 else if ((2 ^ p + 2 <=? i) && (i <? 2 ^ p + 2 + W))%nat then x (i - (2 ^ p + 2)) else 0.
Proof.
  unfold hon_b. destruct (Nat.lt_ge_cases i (2 ^ p + 2 + W)).
  - rewrite nth_tab by assumption. cases; try lia; reflexivity.
  - rewrite nth_tab_out by assumption. cases; try lia; reflexivity.
Qed.
Lemma hon_B alpha beta delta tau q v t : lag_values (2 ^ k) (root k) tau t ->
  is_keypair cs k (root k) alpha beta delta tau q v ->
  comb hon_b (published2 (srs_of p tau alpha beta) q) = beta + sumn W (fun i => x i * col cs r_R t i).
Proof.
  intros Ht KP. destruct (root_conds k Hk) as [R1 R2].
  rewrite (shape2 p k cs hon_b alpha beta delta tau q v t Ht
    (fun _ t' Ht' => lag_values_unique k (root k) (proj1 Hk) R1 R2 tau t' t Ht' Ht) KP). fold W.
  assert (T0 : tausum tau hon_b 0 (2 ^ p) = 0).
  { unfold tausum. apply sumn_zero. intros i Hi. rewrite hon_cb. cases; try lia; ring. }
  assert (T1 : nth (2 ^ p) hon_b 0 = 1) by (rewrite hon_cb; cases; try lia; ring).
  assert (T2 : nth (2 ^ p + 1) hon_b 0 = 0) by (rewrite hon_cb; cases; try lia; ring).
  assert (C1 : colsum cs t hon_b (2 ^ p + 2) r_R 0 W = sumn W (fun i => x i * col cs r_R t i)).
  { unfold colsum. apply sumn_ext. intros i Hi. rewrite hon_cb. cases; try lia. cbn [Nat.add]. f_equal. f_equal. lia. }
  rewrite T0, T1, T2, C1. ring.
Qed.
Lemma hon_cc h i : (i < s7)%nat -> nth i (hon_c h) 0 = 0.
Proof. intros H. pose proof bK. unfold hon_c. rewrite nth_tab by lia. cases; try lia. reflexivity. Qed.
Lemma hon_C h alpha beta delta tau q v t : delta <> 0 -> length h = (2 ^ k - 1)%nat -> lag_values (2 ^ k) (root k) tau t ->
  is_keypair cs k (root k) alpha beta delta tau q v ->
  comb (hon_c h) (published1 (srs_of p tau alpha beta) q v) =
  (beta * K_sum p k cs t (hon_c h) r_L + alpha * K_sum p k cs t (hon_c h) r_R + (K_sum p k cs t (hon_c h) r_O + peval h tau * (tau ^ (2 ^ k) - 1))) / delta.
Proof.
  intros D Lh Ht KP. destruct (root_conds k Hk) as [R1 R2]. pose proof p2pos as P0.
  rewrite (shape1 p k cs (hon_c h) alpha beta delta tau q v t D Ht
    (fun _ t' Ht' => lag_values_unique k (root k) (proj1 Hk) R1 R2 tau t' t Ht' Ht) KP).
  fold np W s1. fold s2. fold s3. fold s4. fold s5. fold s6. fold s7.
  assert (T0 : forall o N, (o + N <= s7)%nat -> tausum tau (hon_c h) o N = 0).
  { intros o N H. unfold tausum. apply sumn_zero. intros i Hi. rewrite hon_cc by lia. ring. }
  assert (C0 : forall o sel a N, (o + N <= s7)%nat -> colsum cs t (hon_c h) o sel a N = 0).
  { intros o sel a N H. unfold colsum. apply sumn_zero. intros i Hi. rewrite hon_cc by lia. ring. }
  rewrite (T0 0%nat s1), (T0 s1 (2 ^ p)%nat), (T0 s2 (2 ^ p)%nat), (C0 s4), (C0 s5), !(C0 s6), (hon_cc h s3) by (unfold s7, s6, s5, s4, s3, s2; lia).
  assert (Z : zpoly k s7 (hon_c h) = h).
  { apply (nth_ext _ _ 0 0); unfold zpoly; rewrite map_length, seq_length; [now symmetry|]. intros i Hi. rewrite nth_map_seq by exact Hi. cbn [Nat.add].
    pose proof (brev_small k i Hi) as B. pose proof bK. unfold hon_c. rewrite nth_tab by lia. cases; try lia.
    replace (s7 + brev k i - s7)%nat with (brev k i) by lia. now rewrite brev_invol by lia. }
  rewrite zpoly_eval, Z. field. exact D.
Qed.
Lemma honest_convinces : satisfies cs x -> exists ca cb cc,
  (forall i, (i < wires cs)%nat -> extracted p cs k x cc i = x i) /\
  forall alpha beta delta tau, delta <> 0 -> convinces p cs k x ca cb cc alpha beta delta tau.
Proof.
  intros SAT. destruct (root_conds k Hk) as [R1 R2].
  destruct (quotient_ex k (root k) (proj1 Hk) R1 R2 cs x fits SAT) as [h HQ].
  exists hon_a, hon_b, (hon_c h). split; [intros i Hi; now apply hon_extracted|].
  intros alpha beta delta tau D. destruct (keypair_ex k cs Hk alpha beta delta tau) as [q [v KP]]. exists q, v. split; [exact KP|]. cbv zeta.
  pose proof KP as [t [Ht _]]. destruct HQ as [Lh [a [b [c [Va [Vb [Vc HQ]]]]]]].
  unfold accepts.
  rewrite (hon_A _ _ _ _ _ _ t D Ht KP), (hon_B _ _ _ _ _ _ t Ht KP), (hon_C h _ _ _ _ _ _ t D Lh Ht KP).
  rewrite (pub_sum k cs _ _ _ _ _ _ t x Ht (fun _ t' Ht' => lag_values_unique k (root k) (proj1 Hk) R1 R2 tau t' t Ht' Ht) KP).
  assert (S : forall sel, sumn W (fun i => x i * col cs sel t i) = sumn np (fun i => x i * col cs sel t i) + K_sum p k cs t (hon_c h) sel).
  { intros sel. unfold np. rewrite (split_sum p k cs x (hon_c h) t sel). apply sumn_ext. intros i Hi. now rewrite hon_extracted. }
  pose proof (wire_sum k (root k) (proj1 Hk) R1 R2 cs x fits r_L t a tau eq_refl Ht Va) as SA.
  pose proof (wire_sum k (root k) (proj1 Hk) R1 R2 cs x fits r_R t b tau eq_refl Ht Vb) as SB.
  pose proof (wire_sum k (root k) (proj1 Hk) R1 R2 cs x fits r_O t c tau eq_refl Ht Vc) as SC.
  fold W in SA, SB, SC. fold np. specialize (HQ tau).
  assert (HQ' : peval h tau * (tau ^ (2 ^ k) - 1) = sumn W (fun i => x i * col cs r_L t i) * sumn W (fun i => x i * col cs r_R t i) - sumn W (fun i => x i * col cs r_O t i))
    by (rewrite SA, SB, SC; now symmetry).
  rewrite HQ', !S. destruct KP as [t' [_ [_ [_ [_ [_ [_ [_ [_ [_ [_ [_ [_ [W1 [_ [W3 [_ [W5 _]]]]]]]]]]]]]]]]]]. rewrite W1, W3, W5. field. exact D.
Qed.
End Honest.

Section OneHonest.
Context {E : Ext2}.
Lemma more_map {A B} m (P : B -> Prop) (f : A -> B) : (forall a b, f a = f b -> a = b) -> more m (fun a => P (f a)) -> more m P.
Proof.
  intros I [l [ND [M H]]]. exists (map f l). split; [now apply FinFun.Injective_map_NoDup|]. rewrite map_length. split; [exact M|].
  intros y Hy. apply in_map_iff in Hy. destruct Hy as [a [<- Ha]]. now apply H.
Qed.
Lemma one_honest p k (cs : r1cs E) x ca cb cc (t0 a0 b0 d0 : E) : 1 <= k <= kmax E -> (length (r_cons cs) <= 2 ^ k)%nat ->
  t0 <> 0 -> a0 <> 0 -> b0 <> 0 -> d0 <> 0 ->
  more (2 * 2 ^ k - 2) (fun tau => more 3 (fun delta => delta <> 0 /\ more 2 (fun beta => more 1 (fun alpha =>
    convinces p cs k x ca cb cc (a0 * alpha) (b0 * beta) (d0 * delta) (t0 * tau))))) -> satisfies cs (extracted p cs k x cc).
Proof.
  intros Hk fits T0 A0 B0 D0 H. assert (I : forall z : E, z <> 0 -> forall a b, z * a = z * b -> a = b) by (intros z Hz a b X; now apply (fmul_cancel_l _ z)).
  apply (sound p k cs x ca cb cc Hk fits).
  apply (more_map _ _ (fun y => t0 * y) (I _ T0)). revert H. apply more_imp. intros tau H.
  apply (more_map _ _ (fun y => d0 * y) (I _ D0)). revert H. apply more_imp. intros d [D H]. split.
  { intros X. apply fmul_0_iff in X. tauto. }
  apply (more_map _ _ (fun y => b0 * y) (I _ B0)). revert H. apply more_imp. intros b H.
  apply (more_map _ _ (fun y => a0 * y) (I _ A0)). exact H.
Qed.
End OneHonest.

(* ---- counting ---- *)
Local Close Scope fld_scope.
Section Count.
Context {A B : Type}.
Variable eqA : A -> A -> bool.
Hypothesis eqA_ok : forall a b, eqA a b = true <-> a = b.
Definition row (l : list (A * B)) (a : A) : list B := map snd (filter (fun z => eqA (fst z) a) l).
Lemma in_row l a b : In b (row l a) <-> In (a, b) l.
Proof.
  unfold row. rewrite in_map_iff. split.
  - intros [[a' b'] [<- H]]. apply filter_In in H. destruct H as [H E1]. apply eqA_ok in E1. cbn in *. now subst.
  - intros H. exists (a, b). split; [reflexivity|]. apply filter_In. split; [exact H|]. now apply eqA_ok.
Qed.
Lemma row_nodup l a : NoDup l -> NoDup (row l a).
Proof.
  induction l as [|[a' b'] l IH]; intros ND; [constructor|]. inversion ND as [|? ? NI ND' X]; subst. unfold row. cbn [filter fst].
  destruct (eqA a' a) eqn:Q; [|now apply IH]. apply eqA_ok in Q. subst a'. cbn [map snd]. constructor; [|now apply IH].
  intros H. apply NI. now apply in_row.
Qed.
Lemma row_cons z l a : length (row (z :: l) a) = ((if eqA (fst z) a then 1 else 0) + length (row l a))%nat.
Proof. unfold row. cbn [filter]. destruct (eqA (fst z) a); reflexivity. Qed.
Lemma sum_one (la : list A) a : In a la -> 1 <= list_sum (map (fun a' => if eqA a a' then 1 else 0) la).
Proof.
  induction la as [|a' la IH]; intros H; [destruct H|]. cbn [map list_sum fold_right]. destruct H as [->|H].
  - rewrite (proj2 (eqA_ok a a) eq_refl). lia.
  - specialize (IH H). unfold list_sum in IH. lia.
Qed.
Lemma rows_sum (la : list A) (l : list (A * B)) : (forall z, In z l -> In (fst z) la) -> length l <= list_sum (map (fun a => length (row l a)) la).
Proof.
  induction l as [|z l IH]; intros H; [cbn; lia|]. cbn [length].
  assert (Q : list_sum (map (fun a => length (row (z :: l) a)) la) =
    (list_sum (map (fun a => if eqA (fst z) a then 1 else 0) la) + list_sum (map (fun a => length (row l a)) la))%nat).
  { clear. induction la as [|a la IH]; [reflexivity|]. cbn [map list_sum fold_right]. rewrite row_cons. unfold list_sum in IH. rewrite IH. lia. }
  rewrite Q. pose proof (sum_one la (fst z) (H z (or_introl eq_refl))). specialize (IH (fun y Hy => H y (or_intror Hy))). lia.
Qed.
Lemma pigeon (la : list A) (N m c : nat) (l : list (A * B)) : NoDup la -> NoDup l -> (forall z, In z l -> In (fst z) la) ->
  (forall a, length (row l a) <= N) -> m * N + c * length la < length l -> more m (fun a => more c (fun b => In (a, b) l)).
Proof.
  intros NA NL HL HN M. set (rich := filter (fun a => c <? length (row l a)) la).
  assert (S : list_sum (map (fun a => length (row l a)) la) <= length rich * N + c * length la).
  { unfold rich. clear - HN. induction la as [|a la IH]; [cbn; lia|]. cbn [map list_sum fold_right filter length].
    unfold list_sum in IH. specialize (HN a). destruct (Nat.ltb_spec c (length (row l a))); cbn [length]; nia. }
  exists rich. split; [now apply NoDup_filter|]. split.
  - pose proof (rows_sum la l HL). destruct (Nat.lt_ge_cases m (length rich)); [assumption|]. nia.
  - intros a Ha. apply filter_In in Ha. destruct Ha as [_ Ha]. apply Nat.ltb_lt in Ha. exists (row l a). split; [now apply row_nodup|].
    split; [exact Ha|]. intros b Hb. now apply in_row.
Qed.
End Count.

Section Probability.
Context {E : Ext2}.
Variable all : list E.
Hypotheses (nd : NoDup all) (full : forall y, In y all).
Let F := length all.
Lemma few_rows {A B} (eqA : A -> A -> bool) (e : forall a b, eqA a b = true <-> a = b) (l : list (A * B)) (lb : list B) a :
  NoDup l -> (forall b, In b lb) -> length (row eqA l a) <= length lb.
Proof. intros ND H. apply NoDup_incl_length; [now apply row_nodup|]. intros b _. apply H. Qed.
Lemma eqE : forall a b : E, feqb a b = true <-> a = b.
Proof. intros a b. apply feqb_ok. Qed.
Lemma pigeon2 c m (l : list (E * E)) : NoDup l -> (m + c) * F < length l -> more m (fun b => more c (fun a => In (b, a) l)).
Proof.
  intros ND H. apply (pigeon feqb eqE all F); auto.
  - intros a. apply (few_rows feqb eqE l all a ND full).
  - fold F. nia.
Qed.
Lemma pigeon3 c m m' (l : list (E * (E * E))) : NoDup l -> (m' + m + c) * F ^ 2 < length l ->
  more m' (fun d => more m (fun b => more c (fun a => In (d, (b, a)) l))).
Proof.
  intros ND H. apply (more_imp _ (fun d => more ((m + c) * F) (fun z => In (d, z) l))).
  - intros d [l' [ND' [L H']]]. generalize (pigeon2 c m l' ND' L). apply more_imp. intros b. apply more_imp. intros a Ha. now apply H'.
  - apply (pigeon feqb eqE all (F * F)); auto.
    + intros a. pose proof (few_rows feqb eqE l (list_prod all all) a ND) as R. rewrite prod_length in R. apply R.
      intros [b c']. apply in_prod; apply full.
    + fold F. cbn [Nat.pow] in H. nia.
Qed.
Lemma pigeon4 c m m' m'' (l : list (E * (E * (E * E)))) : NoDup l -> (m'' + m' + m + c) * F ^ 3 < length l ->
  more m'' (fun t => more m' (fun d => more m (fun b => more c (fun a => In (t, (d, (b, a))) l)))).
Proof.
  intros ND H. apply (more_imp _ (fun d => more ((m' + m + c) * F ^ 2) (fun z => In (d, z) l))).
  - intros d [l' [ND' [L H']]]. generalize (pigeon3 c m m' l' ND' L). apply more_imp. intros b. apply more_imp. intros a'. apply more_imp. intros a Ha. now apply H'.
  - apply (pigeon feqb eqE all (F * (F * F))); auto.
    + intros a. pose proof (few_rows feqb eqE l (list_prod all (list_prod all all)) a ND) as R. rewrite !prod_length in R. apply R.
      intros [b [c' d]]. repeat apply in_prod; apply full.
    + fold F. cbn [Nat.pow] in *. nia.
Qed.
Lemma few_trapdoors p k (cs : r1cs E) x ca cb cc (l : list (E * (E * (E * E)))) : 1 <= k <= kmax E -> (length (r_cons cs) <= 2 ^ k)%nat ->
  ~ satisfies cs (extracted p cs k x cc) -> NoDup l ->
  (forall tau delta beta alpha, In (tau, (delta, (beta, alpha))) l -> delta <> 0%F /\ convinces p cs k x ca cb cc alpha beta delta tau) ->
  length l <= (2 * 2 ^ k + 4) * F ^ 3.
Proof.
  intros Hk fits NS ND H. destruct (Nat.le_gt_cases (length l) ((2 * 2 ^ k + 4) * F ^ 3)) as [|M]; [assumption|]. exfalso. apply NS.
  assert (P : (2 <= 2 ^ k)%nat) by (change 2%nat with (2 ^ 1)%nat at 1; apply Nat.pow_le_mono_r; lia).
  apply (sound p k cs x ca cb cc Hk fits).
  replace (2 * 2 ^ k + 4)%nat with (2 * 2 ^ k - 2 + 3 + 2 + 1)%nat in M by lia. pose proof (pigeon4 1 2 3 (2 * 2 ^ k - 2) l ND M) as Q.
  revert Q. apply more_imp. intros tau. apply more_imp. intros d Q. split.
  - destruct Q as [[|b lb] [_ [L Q]]]; [cbn in L; lia|]. destruct (Q b (or_introl eq_refl)) as [[|a la] [_ [L2 Q2]]]; [cbn in L2; lia|].
    apply (H tau d b a). apply Q2. now left.
  - revert Q. apply more_imp. intros b. apply more_imp. intros a Ha. now apply (H tau d b a).
Qed.
End Probability.

(* a trapdoor has one key pair *)
Section Unique.
Context {E : Ext2}.
Lemma keypair_unique k (cs : r1cs E) alpha beta delta tau q v q' v' : 1 <= k <= kmax E ->
  is_keypair cs k (root k) alpha beta delta tau q v -> is_keypair cs k (root k) alpha beta delta tau q' v' -> q = q' /\ v = v'.
Proof.
  intros Hk [t [Ht [Q1 [Q2 [Q3 [Q4 [Q5 [QA [QB [QB2 [QK [LZ [QZ [W1 [W2 [W3 [W4 [W5 [WK WC]]]]]]]]]]]]]]]]]]]
    [t' [Ht' [Q1' [Q2' [Q3' [Q4' [Q5' [QA' [QB' [QB2' [QK' [LZ' [QZ' [W1' [W2' [W3' [W4' [W5' [WK' WC']]]]]]]]]]]]]]]]]]].
  destruct (root_conds k Hk) as [R1 R2]. assert (t' = t) as -> by exact (lag_values_unique k (root k) (proj1 Hk) R1 R2 tau t' t Ht' Ht).
  assert (Z : q_Z q = q_Z q').
  { apply (nth_ext _ _ 0%F 0%F); [congruence|]. intros r Hr. rewrite LZ in Hr.
    assert (M : mirrors k (brev k r) r).
    { replace r with (brev k (brev k r)) at 2 by (apply brev_invol; lia). apply mirrors_brev. pose proof (brev_small k r Hr). lia. }
    now rewrite (nth_error_nth _ _ 0%F (QZ _ _ (brev_small k r Hr) M)), (nth_error_nth _ _ 0%F (QZ' _ _ (brev_small k r Hr) M)). }
  destruct q, q', v, v'. cbn in *. subst. auto.
Qed.
Lemma keypair_exactly_one k (cs : r1cs E) alpha beta delta tau : 1 <= k <= kmax E ->
  (exists q v, is_keypair cs k (root k) alpha beta delta tau q v) /\
  forall q v q' v', is_keypair cs k (root k) alpha beta delta tau q v -> is_keypair cs k (root k) alpha beta delta tau q' v' ->
  q = q' /\ v = v'.
Proof. intros Hk. split; [exact (keypair_ex k cs Hk alpha beta delta tau)|]. intros q v q' v' H1 H2. exact (keypair_unique k cs alpha beta delta tau q v q' v' Hk H1 H2). Qed.
End Unique.
