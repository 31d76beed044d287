(* Groth.v -- Groth16 completeness for key pairs as in Spec4.v. *)
From Coq Require Import Ring Field.
From Verif Require Import Base Fld Conc Parallel BitRev FFT Poly IO Ext Circuit Spec3 Interp Spec4.
Local Open Scope fld_scope.

Section Groth.
Context {K : Fld}.
Add Field Kgro : (f_th K).
Variables (k : nat) (w : K).
Hypotheses (Hk : (1 <= k)%nat) (Hw : w ^ (2 ^ (k - 1)) = - (1)) (Hn : (fnat (2 ^ k) : K) <> 0).
Let n := (2 ^ k)%nat.

Lemma n_pos : (1 <= n)%nat. Proof. pose proof (Nat.pow_nonzero 2 k); unfold n; lia. Qed.
(* coefficients from values *)
Lemma coeff_values (c : list K) i : length c = n -> (i < n)%nat ->
  sumn n (fun j => peval c (w ^ j) * finv w ^ (j * i)) = fnat n * nth i c 0.
Proof.
  intros Lc Hi. unfold n at 2. rewrite <- (dft_invert _ k (finv w) w c i Hk Hw); auto.
  - apply sumn_ext. intros j _. f_equal. unfold peval, dft. apply sumn_ext. intros m _. now rewrite fpow_mul.
  - rewrite <- (finv_r _ w (w_neq0 k w Hk Hw)). ring.
Qed.
Lemma values_zero (c : list K) : length c = n -> (forall j, (j < n)%nat -> peval c (w ^ j) = 0) ->
  forall i, (i < n)%nat -> nth i c 0 = 0.
Proof.
  intros Lc H i Hi. pose proof (coeff_values c i Lc Hi) as Q. rewrite sumn_zero in Q.
  - symmetry in Q. apply fmul_0_iff in Q. destruct Q as [Q|Q]; [now apply Hn in Q|exact Q].
  - intros j Hj. rewrite H by exact Hj. ring.
Qed.
(* value at tau from values at the powers of w *)
Lemma value_at (t c : list K) tau : lag_values n w tau t -> length c = n ->
  peval c tau = sumn n (fun j => peval c (w ^ j) * nth j t 0).
Proof.
  intros [Lt Ht] Lc. apply (fmul_cancel_l _ (fnat n)); [exact Hn|].
  rewrite <- sumn_scal. unfold peval at 1. rewrite Lc, <- sumn_scal.
  rewrite (sumn_ext _ n (fun i => fnat n * (nth i c 0 * tau ^ i)) (fun i => sumn n (fun j => peval c (w ^ j) * (finv w ^ (j * i) * tau ^ i)))).
  - rewrite sumn_swap. apply sumn_ext. intros j Hj. rewrite sumn_scal.
    destruct (lagrange_poly_ex k w Hk Hw Hn j Hj) as [L HL]. rewrite (Ht j L Hj HL).
    transitivity (peval c (w ^ j) * (fnat n * peval L tau)); [f_equal|ring].
    destruct HL as [LL HL]. unfold peval. fold n in LL. rewrite LL, <- sumn_scal. apply sumn_ext. intros i Hi.
    transitivity (fnat n * nth i L 0 * tau ^ i); [|ring]. f_equal.
    rewrite <- (coeff_values L i LL Hi), (sumn_single _ n j).
    + rewrite HL, Nat.eqb_refl by exact Hj. ring.
    + exact Hj.
    + intros m Hm Nm. rewrite HL by exact Hm. destruct (Nat.eqb_spec m j); [congruence|ring].
  - intros i Hi. transitivity (fnat n * nth i c 0 * tau ^ i); [ring|]. rewrite <- (coeff_values c i Lc Hi).
    transitivity (tau ^ i * sumn n (fun j => peval c (w ^ j) * finv w ^ (j * i))); [ring|].
    rewrite <- sumn_scal. apply sumn_ext. intros j _. ring.
Qed.

(* ---- products ---- *)
Definition conv (a b : list K) (m : nat) : K := sumn n (fun i => if (i <=? m)%nat then nth i a 0 * nth (m - i) b 0 else 0).
Lemma conv_eval a b y : length a = n -> length b = n -> sumn (n + n) (fun m => conv a b m * y ^ m) = peval a y * peval b y.
Proof.
  intros La Lb. unfold conv.
  rewrite (sumn_ext _ (n + n) _ (fun m => sumn n (fun i => y ^ m * (if (i <=? m)%nat then nth i a 0 * nth (m - i) b 0 else 0)))).
  2: { intros m _. rewrite sumn_scal. ring. }
  rewrite sumn_swap. unfold peval at 1. rewrite La.
  transitivity (sumn n (fun i => peval b y * (nth i a 0 * y ^ i))).
  2: { rewrite sumn_scal. ring. }
  apply sumn_ext. intros i Hi. replace (n + n)%nat with (i + (n + (n - i)))%nat by lia.
  rewrite sumn_split, (sumn_zero _ i), sumn_split, (sumn_zero _ (n - i)).
  - unfold peval. rewrite Lb. transitivity (sumn n (fun j => nth i a 0 * y ^ i * (nth j b 0 * y ^ j))); [|rewrite sumn_scal; ring].
    transitivity (sumn n (fun j => y ^ (i + j) * (if (i <=? i + j)%nat then nth i a 0 * nth (i + j - i) b 0 else 0))); [ring|].
    apply sumn_ext. intros j Hj. destruct (Nat.leb_spec i (i + j)); [|lia]. replace (i + j - i)%nat with j by lia.
    rewrite fpow_add. ring.
  - intros j Hj. destruct (Nat.leb_spec i (i + (n + j))); [|lia]. rewrite (nth_overflow b) by lia. ring.
  - intros j Hj. destruct (Nat.leb_spec i j); [lia|]. ring.
Qed.
Lemma conv_last a b : length b = n -> conv a b (n + (n - 1)) = 0.
Proof.
  intros Lb. unfold conv. apply sumn_zero. intros i Hi. destruct (i <=? _)%nat; [|reflexivity].
  rewrite (nth_overflow b) by lia. ring.
Qed.

(* a polynomial of degree below 2n - 1 that vanishes at all powers of w is a multiple of X^n - 1 *)
Lemma divide (p : nat -> K) : p (n + (n - 1))%nat = 0 ->
  (forall j, (j < n)%nat -> sumn (n + n) (fun m => p m * (w ^ j) ^ m) = 0) ->
  exists h, length h = (n - 1)%nat /\ forall y, sumn (n + n) (fun m => p m * y ^ m) = peval h y * (y ^ n - 1).
Proof.
  intros PL H. set (r := map (fun i => p i + p (n + i)%nat) (seq 0 n)).
  assert (Lr : length r = n) by (unfold r; now rewrite map_length, seq_length).
  assert (Z : forall i, (i < n)%nat -> p i = - p (n + i)%nat).
  { intros i Hi. pose proof (values_zero r Lr) as V. assert (Q : nth i r 0 = 0).
    { apply V; [|exact Hi]. intros j Hj. rewrite <- (H j Hj), sumn_split, <- sumn_add. unfold peval. rewrite Lr.
      apply sumn_ext. intros m Hm. unfold r. rewrite nth_map_seq by exact Hm. cbn [Nat.add]. rewrite fpow_add.
      assert (W1 : (w ^ j) ^ n = 1) by (rewrite <- fpow_mul, Nat.mul_comm, fpow_mul; unfold n; rewrite (w_order k w Hk Hw Hn); apply fpow_1_l).
      rewrite W1. ring. }
    unfold r in Q. rewrite nth_map_seq in Q by exact Hi. cbn [Nat.add] in Q.
    transitivity (p i + p (n + i)%nat - p (n + i)%nat); [ring|]. rewrite Q. ring. }
  exists (map (fun i => p (n + i)%nat) (seq 0 (n - 1))). split; [now rewrite map_length, seq_length|].
  intros y. pose proof n_pos as NP. unfold peval. rewrite map_length, seq_length.
  rewrite sumn_split, <- sumn_add. replace n with (S (n - 1)) at 1 by lia. rewrite sumn_S, (Z (n - 1)%nat) by lia.
  rewrite PL. transitivity (sumn (n - 1) (fun i => p i * y ^ i + p (n + i)%nat * y ^ (n + i)%nat)); [ring|].
  transitivity (sumn (n - 1) (fun i => (y ^ n - 1) * (p (n + i)%nat * y ^ i))).
  - apply sumn_ext. intros i Hi. rewrite (Z i), fpow_add by lia. ring.
  - rewrite sumn_scal. rewrite (sumn_ext _ (n - 1) (fun i => nth i (map (fun i0 => p (n + i0)%nat) (seq 0 (n - 1))) 0 * y ^ i) (fun i => p (n + i)%nat * y ^ i)).
    + ring.
    + intros i Hi. now rewrite nth_map_seq.
Qed.

Variables (cs : r1cs K) (x : nat -> K).
Hypothesis fits : (length (r_cons cs) <= n)%nat.
Lemma lin_nil sel i : (length (r_cons cs) <= i)%nat -> (sel (mkR1c [] [] []) = []) -> lin cs x (expr cs sel i) = 0.
Proof.
  intros H S. unfold expr. rewrite nth_overflow, S by exact H. unfold lin. apply sumn_zero. intros j _.
  unfold entry. cbn. ring.
Qed.
Lemma values_poly_ex sel : exists c, values_poly cs x sel n w c.
Proof.
  exists (interp k w (map (fun i => lin cs x (expr cs sel i)) (seq 0 n))). split; [apply interp_length|].
  intros i Hi. rewrite interp_eval; auto; [|now rewrite map_length, seq_length]. now rewrite nth_map_seq.
Qed.
Lemma quotient_ex : satisfies cs x -> exists h, quotient cs x n w h.
Proof.
  intros SAT. destruct (values_poly_ex r_L) as [a [La Ha]]. destruct (values_poly_ex r_R) as [b [Lb Hb]].
  destruct (values_poly_ex r_O) as [c [Lc Hc]].
  assert (EV : forall y, sumn (n + n) (fun m => (conv a b m - nth m c 0) * y ^ m) = peval a y * peval b y - peval c y).
  { intros y. rewrite <- (conv_eval a b y La Lb).
    replace (peval c y) with (sumn (n + n) (fun m => nth m c 0 * y ^ m)).
    - rewrite <- sumn_sub. apply sumn_ext. intros m _. ring.
    - rewrite sumn_split, (sumn_zero _ n (fun i => nth (n + i) c 0 * y ^ (n + i))).
      + unfold peval. rewrite Lc. ring.
      + intros i _. rewrite nth_overflow by lia. ring. }
  destruct (divide (fun m => conv a b m - nth m c 0)) as [h [Lh Hh]].
  - rewrite conv_last, nth_overflow by (pose proof n_pos; lia). ring.
  - intros j Hj. rewrite EV, (Ha j Hj), (Hb j Hj), (Hc j Hj).
    destruct (Nat.lt_ge_cases j (length (r_cons cs))) as [Lj|Lj].
    + pose proof (SAT (nth j (r_cons cs) (mkR1c [] [] [])) (nth_In _ _ Lj)) as S.
      unfold expr. rewrite S. ring.
    + rewrite !lin_nil by (auto). ring.
  - exists h. split; [exact Lh|]. exists a, b, c. repeat (split; [split; assumption|]).
    intros y. rewrite <- EV. apply Hh.
Qed.
Lemma quotient_sat h : quotient cs x n w h -> satisfies cs x.
Proof.
  intros [Lh [a [b [c [[La Ha] [[Lb Hb] [[Lc Hc] H]]]]]]] r Hr.
  destruct (In_nth _ _ (mkR1c [] [] []) Hr) as [j [Lj <-]]. assert (Hj : (j < n)%nat) by (unfold n; lia).
  specialize (H (w ^ j)). rewrite (Ha j Hj), (Hb j Hj), (Hc j Hj) in H. unfold expr in H.
  assert (W : (w ^ j) ^ n = 1) by (rewrite <- fpow_mul, Nat.mul_comm, fpow_mul; unfold n; rewrite (w_order k w Hk Hw Hn); apply fpow_1_l).
  rewrite W in H. revert H. generalize (lin cs x (r_L (nth j (r_cons cs) (mkR1c [] [] [])))) (lin cs x (r_R (nth j (r_cons cs) (mkR1c [] [] []))))
    (lin cs x (r_O (nth j (r_cons cs) (mkR1c [] [] [])))). intros u v z H.
  assert (X : u * v - z = 0) by (rewrite H; ring).
  transitivity ((u * v - z) + z); [ring|]. rewrite X. ring.
Qed.

(* sum over the wires of the columns *)
Lemma wire_sum sel (t c : list K) tau : sel (mkR1c [] [] []) = [] -> lag_values n w tau t -> values_poly cs x sel n w c ->
  sumn (wires cs) (fun i => x i * col cs sel t i) = peval c tau.
Proof.
  intros S Ht [Lc Hc]. rewrite (value_at t c tau Ht Lc).
  rewrite (sumn_ext _ n _ (fun j => lin cs x (expr cs sel j) * nth j t 0)) by (intros j Hj; now rewrite Hc).
  unfold col. rewrite (sumn_ext _ (wires cs) _ (fun i => sumn (length (r_cons cs)) (fun j => x i * (entry cs (expr cs sel j) i * nth j t 0)))).
  2: { intros i _. now rewrite sumn_scal. }
  rewrite sumn_swap. replace n with (length (r_cons cs) + (n - length (r_cons cs)))%nat at 1 by lia.
  rewrite sumn_split. rewrite (sumn_zero _ (n - length (r_cons cs))).
  - transitivity (sumn (length (r_cons cs)) (fun j => lin cs x (expr cs sel j) * nth j t 0)); [|ring].
    apply sumn_ext. intros j Hj. unfold lin.
    transitivity (nth j t 0 * sumn (wires cs) (fun i => entry cs (expr cs sel j) i * x i)); [|ring].
    rewrite <- sumn_scal. apply sumn_ext. intros i _. ring.
  - intros j _. rewrite lin_nil by (auto; lia). ring.
Qed.
Lemma dotz_val (h z : list K) s delta tau : delta <> 0 -> length h = (n - 1)%nat ->
  (forall i r, i < n - 1 -> mirrors k i r -> nth_error z r = Some (tau ^ i * (tau ^ n - 1) / delta)) ->
  dotz k h z s -> s * delta = peval h tau * (tau ^ n - 1).
Proof.
  intros D Lh Hz [rev [Hr ->]]. unfold peval. rewrite Lh. fold n.
  transitivity (delta * sumn (n - 1) (fun i => nth i h 0 * nth (rev i) z 0)); [ring|].
  transitivity ((tau ^ n - 1) * sumn (n - 1) (fun i => nth i h 0 * tau ^ i)); [|ring].
  rewrite <- !sumn_scal. apply sumn_ext. intros i Hi.
  assert (M : mirrors k i (rev i)) by (apply Hr; fold n; lia).
  rewrite (nth_error_nth _ _ 0 (Hz i (rev i) Hi M)). field. exact D.
Qed.

Lemma complete alpha beta delta tau (q : pkey K) (v : vkey K) h r s ar bs krs : delta <> 0 ->
  is_keypair cs k w alpha beta delta tau q v -> quotient cs x n w h ->
  proves q cs k x h r s ar bs krs -> accepts v cs x ar bs krs.
Proof.
  intros D [t [Ht [Q1 [Q2 [Q3 [Q4 [Q5 [QA [QB [QB2 [QK [LZ [QZ [W1 [W2 [W3 [W4 [W5 [WK WC]]]]]]]]]]]]]]]]]]]
    [Lh [a [b [c [Va [Vb [Vc HQ]]]]]]] [hz [HZ [Har [Hbs Hkrs]]]].
  pose proof (dotz_val h (q_Z q) hz delta tau D Lh QZ HZ) as ZV.
  pose proof (wire_sum r_L t a tau eq_refl Ht Va) as SA. pose proof (wire_sum r_R t b tau eq_refl Ht Vb) as SB.
  pose proof (wire_sum r_O t c tau eq_refl Ht Vc) as SC. specialize (HQ tau).
  assert (MA : sumn (wires cs) (fun i => x i * nth i (q_A q) 0) = peval a tau).
  { rewrite <- SA. apply sumn_ext. intros i Hi. rewrite QA, nth_map_seq by exact Hi. reflexivity. }
  assert (MB : sumn (wires cs) (fun i => x i * nth i (q_B q) 0) = peval b tau).
  { rewrite <- SB. apply sumn_ext. intros i Hi. rewrite QB, nth_map_seq by exact Hi. reflexivity. }
  rewrite QB2, MB in Hbs. rewrite MA in Har. rewrite MB in Hkrs.
  set (np := nb_public cs) in *. assert (NP : (np <= wires cs)%nat) by (unfold wires, np; lia).
  assert (MK : delta * sumn (wires cs - np) (fun i => x (np + i)%nat * nth i (q_K q) 0) =
               sumn (wires cs - np) (fun i => x (np + i)%nat * kat cs alpha beta t (np + i)%nat)).
  { rewrite <- sumn_scal. apply sumn_ext. intros i Hi. rewrite QK, nth_map_seq by exact Hi. field. exact D. }
  assert (MV : sumn np (fun i => x i * nth i (w_K v) 0) = sumn np (fun i => x i * kat cs alpha beta t i)).
  { apply sumn_ext. intros i Hi. rewrite WK, nth_map_seq by exact Hi. reflexivity. }
  assert (ALL : sumn np (fun i => x i * kat cs alpha beta t i) +
                sumn (wires cs - np) (fun i => x (np + i)%nat * kat cs alpha beta t (np + i)%nat) =
                beta * peval a tau + alpha * peval b tau + peval c tau).
  { rewrite <- sumn_split with (f := fun i => x i * kat cs alpha beta t i).
    replace (np + (wires cs - np))%nat with (wires cs) by lia.
    rewrite <- SA, <- SB, <- SC, <- !sumn_scal, <- !sumn_add. apply sumn_ext. intros i _. unfold kat. ring. }
  unfold accepts. fold np. rewrite MV, W1, W3, W5. rewrite Q1, Q3 in Har. rewrite Q4, Q5 in Hbs. rewrite Q2, Q3 in Hkrs.
  cbv zeta in Hkrs.
  set (X1 := sumn np (fun i => _ * kat _ _ _ _ _)) in *. set (X2 := sumn (wires cs - np) (fun i => _ * kat _ _ _ _ _)) in *.
  set (X3 := sumn (wires cs - np) _) in *.
  assert (KD : krs * delta = X2 + peval h tau * (tau ^ n - 1) + s * delta * ar + r * delta * bs - r * s * delta * delta).
  { rewrite <- ZV, <- MK, Hkrs, Hbs. ring. }
  rewrite KD, <- HQ. transitivity (alpha * beta + (X1 + X2) + (peval a tau * peval b tau - peval c tau) + s * delta * ar + r * delta * bs - r * s * delta * delta); [|ring].
  rewrite ALL, Har, Hbs. ring.
Qed.
End Groth.
