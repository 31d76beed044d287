(* Interp.v -- interpolation at the powers of a root of unity, and the Lagrange basis (Spec3.v). *)
From Verif Require Import Base Fld Conc Parallel BitRev FFT Poly IO Ext Circuit Spec3.
Local Open Scope fld_scope.

Section Interp.
Context {K : Fld}.
Add Field Kfld : (f_th K).
Variables (k : nat) (w : K).
Hypotheses (Hk : (1 <= k)%nat) (Hw : w ^ (2 ^ (k - 1)) = - (1)) (Hn : (fnat (2 ^ k) : K) <> 0).
Let n := (2 ^ k)%nat.

Lemma w_neq0 : w <> 0.
Proof.
  intros X. pose proof Hw as R. rewrite X in R. rewrite fpow_0_l in R by (apply Nat.pow_nonzero; lia).
  apply (f1_neq_0 K). transitivity (- (- (1)) : K); [ring|]. rewrite <- R. ring.
Qed.
Lemma winv_root : finv w ^ (2 ^ (k - 1)) = - (1).
Proof.
  assert (P : w ^ (2 ^ (k - 1)) * finv w ^ (2 ^ (k - 1)) = 1).
  { rewrite <- fpow_mul_base, finv_r by apply w_neq0. apply fpow_1_l. }
  rewrite Hw in P. transitivity (- (- (1) * finv w ^ 2 ^ (k - 1))); [ring|]. rewrite P. ring.
Qed.
Lemma w_order : w ^ n = 1.
Proof.
  unfold n. assert (E2 : (2 ^ k = 2 ^ (k - 1) + 2 ^ (k - 1))%nat)
    by (destruct k; [lia|]; replace (S n0 - 1)%nat with n0 by lia; cbn [Nat.pow]; lia).
  rewrite E2, fpow_add, Hw. ring.
Qed.

(* the polynomial with values v *)
Definition interp (v : list K) : list K := map (fun i => finv (fnat n) * dft K (finv w) v i) (seq 0 n).
Lemma interp_length v : length (interp v) = n.
Proof. unfold interp. now rewrite map_length, seq_length. Qed.
Lemma interp_eval v m : length v = n -> (m < n)%nat -> peval (interp v) (w ^ m) = nth m v 0.
Proof.
  intros Lv Lm. unfold peval. rewrite interp_length.
  rewrite (sumn_ext _ _ _ (fun i => finv (fnat n) * (dft K (finv w) v i * w ^ (i * m)))).
  2: { intros i Li. unfold interp. rewrite nth_map_seq by auto. cbn [Nat.add]. rewrite (Nat.mul_comm i m), fpow_mul. ring. }
  rewrite sumn_scal; fold n. unfold n at 2. rewrite dft_invert; auto using winv_root.
  - transitivity (fnat n * finv (fnat n) * nth m v 0); [unfold n; ring|]. unfold n. rewrite finv_r by exact Hn. ring.
  - apply finv_r, w_neq0.
Qed.
Lemma lagrange_poly_ex j : (j < n)%nat -> exists c, lagrange_poly n w j c.
Proof.
  intros Hj. exists (interp (map (fun i => if (i =? j)%nat then 1 else 0) (seq 0 n))).
  split; [apply interp_length|]. intros i Hi.
  rewrite interp_eval by (auto; now rewrite map_length, seq_length). now rewrite nth_map_seq.
Qed.

Lemma lag_basis_at a b j c : lag_basis n w a b -> (j < n)%nat -> lagrange_poly n w j c ->
  nth j b 0 = sumn n (fun i => nth i c 0 * nth i a 0).
Proof.
  intros [Lb H] Hj [Lc HL]. rewrite <- (H c Lc), (sumn_single _ _ j).
  - rewrite HL, Nat.eqb_refl by auto. ring.
  - auto.
  - intros i Hi Ni. rewrite HL by auto. destruct (Nat.eqb_spec i j); [congruence|ring].
Qed.
Lemma lag_basis_unique a b b' : lag_basis n w a b -> lag_basis n w a b' -> b = b'.
Proof.
  intros H H'. apply (nth_ext _ _ 0 0); [transitivity n; [apply H|symmetry; apply H']|].
  intros j Hj. rewrite (proj1 H) in Hj. destruct (lagrange_poly_ex j Hj) as [c Hc].
  rewrite (lag_basis_at a b j c H Hj Hc). symmetry. now apply lag_basis_at.
Qed.
Lemma lag_basis_scale x a b : length a = n -> lag_basis n w a b -> lag_basis n w (map (fun y => x * y) a) (map (fun y => x * y) b).
Proof.
  intros La [Lb H]. split; [now rewrite map_length|]. intros c Lc.
  assert (Z : x * 0 = 0) by ring.
  transitivity (x * sumn n (fun j => nth j b 0 * peval c (w ^ j))).
  - rewrite <- sumn_scal. apply sumn_ext. intros j Hj.
    rewrite (nth_indep (map _ b) 0 (x * 0)) by (rewrite map_length; lia).
    rewrite (map_nth (fun y => x * y) b 0 j). ring.
  - rewrite H by auto. rewrite <- sumn_scal. apply sumn_ext. intros j Hj.
    rewrite (nth_indep (map _ a) 0 (x * 0)) by (rewrite map_length; lia).
    rewrite (map_nth (fun y => x * y) a 0 j). ring.
Qed.
(* powers of tau give the values of the Lagrange polynomials *)
Lemma lag_basis_values tau b : lag_basis n w (pows n tau) b -> lag_values n w tau b.
Proof.
  intros H. split; [apply H|]. intros j c Hj Hc. rewrite (lag_basis_at _ _ j c H Hj Hc).
  unfold peval. rewrite (proj1 Hc). apply sumn_ext. intros i Hi. now rewrite nth_pows.
Qed.
Lemma lag_values_unique tau b b' : lag_values n w tau b -> lag_values n w tau b' -> b = b'.
Proof.
  intros [L H] [L' H']. apply (nth_ext _ _ 0 0); [congruence|]. intros j Hj. rewrite L in Hj.
  destruct (lagrange_poly_ex j Hj) as [c Hc]. now rewrite (H j c), (H' j c).
Qed.
End Interp.
