(* Poly.v -- polynomials as coefficient lists (specification side). *)
From Verif Require Import Base Fld Conc Parallel FFT.
Local Open Scope fld_scope.

Section Poly.
Context {K : Fld}.
Add Field Kfp : (f_th K).

(* value at x of the polynomial with coefficients c (constant term first) *)
Definition peval (c : list K) (x : K) : K := sumn (length c) (fun i => nth i c 0 * x ^ i).

(* the powers 1, x, x^2, ... *)
Definition pows (n : nat) (x : K) : list K := map (fun i => x ^ i) (seq 0 n).

Lemma pows_length n x : length (pows n x) = n.
Proof. unfold pows. now rewrite map_length, seq_length. Qed.
Lemma nth_pows n x i : (i < n)%nat -> nth i (pows n x) 0 = x ^ i.
Proof. intros H. unfold pows. now rewrite nth_map_seq. Qed.

(* c is the j-th Lagrange polynomial of the points w^0 .. w^(n-1) *)
Definition lagrange_poly (n : nat) (w : K) (j : nat) (c : list K) : Prop :=
  length c = n /\ forall i, (i < n)%nat -> peval c (w ^ i) = if (i =? j)%nat then 1 else 0.

Lemma fft_lagrange k (w winv : K) cpu a :
  (1 <= cpu)%nat -> (1 <= k < 64)%nat -> w * winv = 1 -> w ^ (2 ^ (k - 1)) = - (1) ->
  (fnat (2 ^ k) : K) <> 0 -> length a = (2 ^ k)%nat ->
  exists b p, convert cpu (mk_domain k winv) a = Some b /\ length b = (2 ^ k)%nat /\
    convert_prog cpu (mk_domain k winv) (2 ^ k) = Some p /\
    (forall b', steps (p, a) (Skip, b') -> b' = b) /\ Acc (fun c2 c1 => step c1 c2) (p, a) /\
    (forall i, fprint p i -> (i < 2 ^ k)%nat) /\
    forall c, length c = (2 ^ k)%nat ->
      sumn (2 ^ k) (fun j => nth j b 0 * peval c (w ^ j)) = sumn (2 ^ k) (fun i => nth i c 0 * nth i a 0).
Proof.
  intros Hc Hk Hi Hw Hn La.
  assert (Hw' : k = 0%nat \/ winv ^ (2 ^ (k - 1)) = - (1)).
  { right. assert (P : w ^ (2 ^ (k - 1)) * winv ^ (2 ^ (k - 1)) = 1)
      by (rewrite <- fpow_mul_base, Hi; apply fpow_1_l).
    rewrite Hw in P. transitivity (- (- (1) * winv ^ 2 ^ (k - 1))); [ring|]. rewrite P. ring. }
  destruct (convert_dft K k winv cpu a Hc ltac:(lia) Hw' La) as [p [Ep [[Rp Fp] [Ec [Lb _]]]]].
  destruct (convert_lagrange K k w winv cpu a Hc ltac:(lia) Hw' Hi Hn La) as [b [Eb [_ Hb]]].
  assert (b = run p a) by congruence. subst b.
  exists (run p a), p. repeat (split; [solve [auto]|]).
  split; [intros b' H; now apply race_free_deterministic in H|].
  split; [apply all_schedules_terminate|].
  split; [intros i Hi0; apply Fp in Hi0; lia|].
  intros c Lc. unfold peval. rewrite Lc.
  rewrite (sumn_ext _ _ _ (fun j => sumn (2 ^ k) (fun i => nth i c 0 * (nth j (run p a) 0 * w ^ (j * i))))).
  2: { intros j _. rewrite <- sumn_scal. apply sumn_ext. intros i _. rewrite fpow_mul. ring. }
  rewrite sumn_swap. apply sumn_ext. intros i Hi'. rewrite sumn_scal, Hb by auto. auto.
Qed.

(* from powers of tau: the Lagrange polynomials at tau *)
Lemma fft_lagrange_tau k (w winv tau : K) cpu :
  (1 <= cpu)%nat -> (1 <= k < 64)%nat -> w * winv = 1 -> w ^ (2 ^ (k - 1)) = - (1) ->
  (fnat (2 ^ k) : K) <> 0 ->
  exists b, convert cpu (mk_domain k winv) (pows (2 ^ k) tau) = Some b /\ length b = (2 ^ k)%nat /\
    forall j c, (j < 2 ^ k)%nat -> lagrange_poly (2 ^ k) w j c -> nth j b 0 = peval c tau.
Proof.
  intros Hc Hk Hi Hw Hn.
  destruct (fft_lagrange k w winv cpu (pows (2 ^ k) tau)) as [b [p [E [Lb [_ [_ [_ [_ H]]]]]]]]; auto using pows_length.
  exists b. split; [auto|]. split; [auto|]. intros j c Hj [Lc HL].
  specialize (H c Lc). rewrite (sumn_single _ _ j) in H; [|auto|].
  - rewrite HL, Nat.eqb_refl in H by auto. unfold peval. rewrite Lc.
    transitivity (nth j b 0 * 1); [ring|]. rewrite H. apply sumn_ext. intros i Hi'. now rewrite nth_pows.
  - intros i Li Ni. rewrite HL by auto. destruct (Nat.eqb_spec i j); [congruence|ring].
Qed.
End Poly.
