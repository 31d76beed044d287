(* Forge.v -- forged proofs. *)
From Coq Require Import Ring Field String.
From Verif Require Import Base Fld Poly BitRev IO Ext Spec1 Phase1 Phase1Io Phase1Verify Phase1Facts Phase1Claims Gob GobLemmas Circuit Spec2 Phase2 Phase2Io Phase2Lemmas Phase2More Phase2Claims Spec3 Fs Init2 Init2Pure Init2Io Init2Claims Init2More Interp Spec4 Keys KeysLemmas KeysClaims Groth KeysProps Spec8.
Local Open Scope fld_scope.

Section Algebra.
Context {K : Fld}.
Add Field Kfrg : (f_th K).
(* knowing delta *)
Lemma known_delta (v : vkey K) (cs : r1cs K) x : w_delta2 v <> 0 ->
  accepts v cs x (w_alpha v) (w_beta2 v) (- (public_sum v cs x / w_delta2 v)).
Proof. intros D. unfold accepts, public_sum. field. exact D. Qed.
Lemma delta_one (v : vkey K) (cs : r1cs K) x : w_delta2 v = 1 ->
  accepts v cs x (w_alpha v) (w_beta2 v) (- public_sum v cs x).
Proof. intros D. unfold accepts, public_sum. rewrite D. ring. Qed.
(* knowing alpha, beta and tau *)
Lemma known_rest (v : vkey K) (cs : r1cs K) x : accepts v cs x (w_alpha v * w_beta2 v + public_sum v cs x) 1 0.
Proof. unfold accepts, public_sum. ring. Qed.

Variables (k : nat) (w : K).
Hypotheses (Hk : (1 <= k)%nat) (Hw : w ^ (2 ^ (k - 1)) = - (1)) (Hn : (fnat (2 ^ k) : K) <> 0).
Lemma known_tau (cs : r1cs K) x alpha beta delta tau q v r s ar bs krs : (length (r_cons cs) <= 2 ^ k)%nat ->
  delta <> 0 -> tau ^ (2 ^ k) <> 1 -> is_keypair cs k w alpha beta delta tau q v ->
  proves_tau q cs k w x tau r s ar bs krs -> accepts v cs x ar bs krs.
Proof.
  intros HL D TN [t [Ht [Q1 [Q2 [Q3 [Q4 [Q5 [QA [QB [QB2 [QK [LZ [QZ [W1 [W2 [W3 [W4 [W5 [WK WC]]]]]]]]]]]]]]]]]]]
    [a [b [c [Va [Vb [Vc [Har [Hbs Hkrs]]]]]]]].
  pose proof (wire_sum k w Hk Hw Hn cs x HL r_L t a tau eq_refl Ht Va) as SA.
  pose proof (wire_sum k w Hk Hw Hn cs x HL r_R t b tau eq_refl Ht Vb) as SB.
  pose proof (wire_sum k w Hk Hw Hn cs x HL r_O t c tau eq_refl Ht Vc) as SC.
  assert (P2 : (2 <= 2 ^ k)%nat) by (change 2%nat with (2 ^ 1)%nat at 1; apply Nat.pow_le_mono_r; lia).
  assert (Z0 : nth 0 (q_Z q) 0 = (tau ^ (2 ^ k) - 1) / delta).
  { assert (M : mirrors k 0 0) by (split; [lia|]; intros i Hi; now rewrite !Nat.bits_0).
    rewrite (nth_error_nth _ _ 0 (QZ 0%nat 0%nat ltac:(lia) M)). cbn [fpow]. field. exact D. }
  assert (TN' : tau ^ (2 ^ k) - 1 <> 0).
  { intros H. apply TN. transitivity (tau ^ (2 ^ k) - 1 + 1); [ring|]. rewrite H. ring. }
  assert (MA : sumn (wires cs) (fun i => x i * nth i (q_A q) 0) = peval a tau).
  { rewrite <- SA. apply sumn_ext. intros i Hi. rewrite QA, nth_map_seq by exact Hi. reflexivity. }
  assert (MB : sumn (wires cs) (fun i => x i * nth i (q_B q) 0) = peval b tau).
  { rewrite <- SB. apply sumn_ext. intros i Hi. rewrite QB, nth_map_seq by exact Hi. reflexivity. }
  rewrite QB2, MB in Hbs. rewrite MA in Har. rewrite MB in Hkrs.
  set (np := nb_public cs) in *. assert (NP : (np <= wires cs)%nat) by (unfold wires, np; lia).
  assert (MK : delta * sumn (wires cs - np) (fun i => x (np + i)%nat * nth i (q_K q) 0) =
               sumn (wires cs - np) (fun i => x (np + i)%nat * kat cs alpha beta t (np + i)%nat)).
  { rewrite <- sumn_scal. apply sumn_ext. intros i Hi. rewrite QK, nth_map_seq by exact Hi. field. exact D. }
  assert (MV : sumn np (fun i => x i * nth i (w_K v) 0) = sumn np (fun i => x i * kat cs alpha beta t i)).
  { apply sumn_ext. intros i Hi. rewrite WK, nth_map_seq by exact Hi. reflexivity. }
  assert (ALL : sumn np (fun i => x i * kat cs alpha beta t i) +
                sumn (wires cs - np) (fun i => x (np + i)%nat * kat cs alpha beta t (np + i)%nat) =
                beta * peval a tau + alpha * peval b tau + peval c tau).
  { rewrite <- sumn_split with (f := fun i => x i * kat cs alpha beta t i).
    replace (np + (wires cs - np))%nat with (wires cs) by lia.
    rewrite <- SA, <- SB, <- SC, <- !sumn_scal, <- !sumn_add. apply sumn_ext. intros i _. unfold kat. ring. }
  unfold accepts. fold np. rewrite MV, W1, W3, W5. rewrite Q1, Q3 in Har. rewrite Q4, Q5 in Hbs. rewrite Q2, Q3, Z0 in Hkrs.
  cbv zeta in Hkrs.
  set (X1 := sumn np (fun i => _ * kat _ _ _ _ _)) in *. set (X2 := sumn (wires cs - np) (fun i => _ * kat _ _ _ _ _)) in *.
  set (X3 := sumn (wires cs - np) _) in *.
  assert (KD : krs * delta = X2 + (peval a tau * peval b tau - peval c tau) + s * delta * ar + r * delta * bs - r * s * delta * delta).
  { rewrite <- MK, Hkrs, Hbs. field. split; assumption. }
  rewrite KD. transitivity (alpha * beta + (X1 + X2) + (peval a tau * peval b tau - peval c tau) + s * delta * ar + r * delta * bs - r * s * delta * delta); [|ring].
  rewrite ALL, Har, Hbs. ring.
Qed.
Lemma proves_tau_ex (cs : r1cs K) x q tau r s : exists ar bs krs, proves_tau q cs k w x tau r s ar bs krs.
Proof.
  destruct (values_poly_ex k w Hk Hw Hn cs x r_L) as [a Va]. destruct (values_poly_ex k w Hk Hw Hn cs x r_R) as [b Vb].
  destruct (values_poly_ex k w Hk Hw Hn cs x r_O) as [c Vc].
  eexists _, _, _, a, b, c. repeat (split; [eassumption|]). cbv zeta. repeat split.
Qed.
End Algebra.

Section Known.
Context {E : Ext2}.
Add Field Efrg : (f_th E).
Lemma known_secret (cs : r1cs E) k alpha beta delta tau q v x : is_keypair cs k (root k) alpha beta delta tau q v ->
  (delta <> 0 -> accepts v cs x (w_alpha v) (w_beta2 v) (sumn (nb_public cs) (fun i => - (x i / delta) * nth i (w_K v) 0))) /\
  (forall r, accepts v cs x (beta * w_alpha v + public_sum v cs x + r * w_delta v) 1 r) /\
  (forall r, accepts v cs x (alpha * q_beta q + public_sum v cs x + r * w_delta v) 1 r).
Proof.
  intros [t [_ [_ [Q2 [_ [_ [_ [_ [_ [_ [_ [_ [_ [W1 [_ [W3 [W4 [W5 _]]]]]]]]]]]]]]]]]]. unfold accepts, public_sum. rewrite Q2, W1, W3, W4, W5. split; [|split].
  - intros D. set (S0 := sumn (nb_public cs) (fun i => x i * nth i (w_K v) 0)).
    replace (sumn _ (fun i => - (x i / delta) * _)) with (- (1 / delta) * S0).
    + field. exact D.
    + unfold S0. rewrite <- sumn_scal. apply sumn_ext. intros i _. field. exact D.
  - intros r. ring.
  - intros r. ring.
Qed.
Lemma known_tau2 (cs : r1cs E) k alpha beta delta tau q v x : 1 <= k <= kmax E -> (length (r_cons cs) <= 2 ^ k)%nat ->
  delta <> 0 -> tau ^ (2 ^ k) <> 1 -> is_keypair cs k (root k) alpha beta delta tau q v ->
  forall r s, (exists ar bs krs, proves_tau q cs k (root k) x tau r s ar bs krs) /\
    forall ar bs krs, proves_tau q cs k (root k) x tau r s ar bs krs -> accepts v cs x ar bs krs.
Proof.
  intros HK HL D TN KP r s. destruct (root_conds k HK) as [R1 R2]. split; [apply (proves_tau_ex k (root k) (proj1 HK) R1 R2)|].
  intros ar bs krs P. exact (known_tau k (root k) (proj1 HK) R1 R2 cs x alpha beta delta tau q v r s ar bs krs HL D TN KP P).
Qed.
End Known.
