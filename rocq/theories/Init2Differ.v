(* Init2Differ.v -- p1v and p2n read the same file differently. *)
From Coq Require Import ZifyNat ZifyN.
From Verif Require Import Base Fld Conc Parallel BitRev FFT Poly IO Ext Spec1 Phase1 Phase1Io Phase1Verify Phase1Facts Phase1Trans Phase1Claims Gob GobLemmas Circuit Spec2 Spec3 Fs Init2 Init2Pure Init2Io Interp Init2Claims Init2More.
Local Open Scope fld_scope.

Section Differ.
Context {E : Ext2}.
Add Field Kfld : (f_th E).

Definition with_beta2 (s : srs E) (b : E) : srs E := mkSrs (tau1 s) (alpha1 s) (beta1 s) (tau2 s) b.

Lemma tau2_parts p (s : srs E) : 1 <= p -> sized p s -> exists x l y, tau2 s = x :: l ++ [y] /\ length l = (2 ^ p - 2)%nat.
Proof.
  intros Hp [_ [_ [_ Z]]]. pose proof (Nat.pow_le_mono_r 2 1 p ltac:(lia) Hp) as H. change (2 ^ 1)%nat with 2%nat in H.
  destruct (tau2 s) as [|x l]; [cbn in Z; lia|]. cbn in Z.
  destruct (exists_last (l := l)) as [l' [y ->]]; [intros ->; cbn in Z; lia|].
  exists x, l', y. split; [reflexivity|]. rewrite app_length in Z. cbn in Z. lia.
Qed.
Lemma last_parts (x y : E) l : last (x :: l ++ [y]) 0 = y.
Proof. change (x :: l ++ [y]) with ((x :: l) ++ [y]). apply last_last. Qed.

Lemma seen_raw p c0 c1 (s : srs E) tail : 1 <= p -> sized p s -> seen p (with_beta2 s (last (tau2 s) 0)) (phase1_raw p c0 c1 s tail).
Proof.
  intros Hp HS. destruct (tau2_parts p s Hp HS) as [x [l [y [TL LL]]]]. pose proof HS as [Z1 [Z2 [Z3 Z4]]].
  assert (P2 : 2 <= 2 ^ p) by (pose proof (Nat.pow_le_mono_r 2 1 p ltac:(lia) Hp) as H; exact H).
  unfold seen, with_beta2, phase1_raw. cbn [tau1 alpha1 beta1 tau2 beta2].
  rewrite TL, last_parts. cbn [nth tl]. rewrite <- !app_assoc.
  split; [eauto|]. split; [cbn [skipn]; eauto using are1_enc|].
  set (h := b8 (N.of_nat p)).
  split.
  { exists (enc1 (alpha1 s)). eexists. split; [|apply are1_enc].
    change (?a :: ?b :: ?c :: ?t ++ ?u) with ((a :: b :: c :: t) ++ u). apply skipn_sec.
    cbn [length]. rewrite enc1_length, Z1. unfold off_alpha. lia. }
  split.
  { exists (enc1 (beta1 s)). eexists. split; [|apply are1_enc].
    change (?a :: ?b :: ?c :: ?t ++ ?u ++ ?v) with ((a :: b :: c :: t) ++ u ++ v). rewrite app_assoc. apply skipn_sec.
    rewrite app_length. cbn [length]. rewrite !enc1_length, Z1, Z2. unfold off_beta, off_alpha. lia. }
  split.
  { exists (g2r x ++ enc2 (l ++ [y])). eexists. split; [|apply (parses_cons is2); [apply is2_r|apply are2_enc]].
    rewrite <- app_assoc.
    change (?a :: ?b :: ?c :: ?t ++ ?u ++ ?v) with ((a :: b :: c :: t) ++ u ++ v). rewrite app_assoc, (app_assoc _ (enc1 (beta1 s))).
    rewrite skipn_len; [reflexivity|].
    rewrite !app_length. cbn [length]. rewrite !enc1_length, Z1, Z2, Z3. unfold off_tau2, off_beta, off_alpha. lia. }
  exists (g2c y). eexists. split; [|apply is2_c].
  rewrite enc2_app, <- !app_assoc.
  change (?a :: ?b :: ?c :: ?t ++ ?u ++ ?v) with ((a :: b :: c :: t) ++ u ++ v).
  rewrite app_assoc, (app_assoc _ (enc1 (beta1 s))), (app_assoc _ (g2r x)), (app_assoc _ (enc2 l)).
  rewrite skipn_len.
  - unfold enc2 at 1. cbn [flat_map]. rewrite app_nil_r. reflexivity.
  - rewrite !app_length. cbn [length]. rewrite !enc1_length, enc2_length, g2r_len, Z1, Z2, Z3, LL.
    unfold off_beta2, off_tau2, off_beta, off_alpha. lia.
Qed.

Lemma recs_are (l : list (contrib E)) : Forall (fun c => length (c_hash c) = 32%nat) l -> are_recs (recs_bytes l) l.
Proof.
  intros H. apply parses_flat. intros c Hc. rewrite Forall_forall in H.
  exists (enc_vals (rec_vals c)). split; [reflexivity|]. split; [|now apply H].
  apply parses_flat. intros [x|x] _; [apply is1_c|apply is2_c].
Qed.
Definition nhi (l : list (contrib E)) : byte := b8 (N.of_nat (length l) / 256).
Definition nlo (l : list (contrib E)) : byte := b8 (N.of_nat (length l)).
Lemma comp_file1 p (s : srs E) l : sized p s -> Forall (fun c => length (c_hash c) = 32%nat) l ->
  is_file1 (phase1_file p (nhi l) (nlo l) s (recs_bytes l)) p s l.
Proof.
  intros HS HL. exists (srs_bytes s), (recs_bytes l), []. split; [now rewrite app_nil_r|]. split; [auto|]. split; [|now apply recs_are].
  exists (enc1 (tau1 s)), (enc1 (alpha1 s)), (enc1 (beta1 s)), (enc2 (tau2 s)), (g2c (beta2 s)).
  split; [reflexivity|]. split; [apply are1_enc|]. split; [apply are1_enc|]. split; [apply are1_enc|]. split; [apply are2_enc|apply is2_c].
Qed.
Lemma raw_file1 p (s : srs E) l : 1 <= p -> sized p s -> Forall (fun c => length (c_hash c) = 32%nat) l ->
  is_file1 (phase1_raw p (nhi l) (nlo l) s (recs_bytes l)) p s l.
Proof.
  intros Hp HS HL. destruct (tau2_parts p s Hp HS) as [x [m [y [TL LL]]]].
  exists (enc1 (tau1 s) ++ enc1 (alpha1 s) ++ enc1 (beta1 s) ++ g2r (nth 0 (tau2 s) 0) ++ enc2 (tl (tau2 s)) ++ g2c (beta2 s)), (recs_bytes l), [].
  split; [|split; [auto|split; [|now apply recs_are]]].
  - unfold phase1_raw, hdr1, be16. cbn [app]. rewrite app_nil_r, <- !app_assoc. reflexivity.
  - exists (enc1 (tau1 s)), (enc1 (alpha1 s)), (enc1 (beta1 s)), (g2r (nth 0 (tau2 s) 0) ++ enc2 (tl (tau2 s))), (g2c (beta2 s)).
    split; [now rewrite <- !app_assoc|]. split; [apply are1_enc|]. split; [apply are1_enc|]. split; [apply are1_enc|].
    split; [|apply is2_c]. rewrite TL. cbn [nth tl]. apply (parses_cons is2); [apply is2_r|apply are2_enc].
Qed.

Lemma is_z_unique k (tau z z' : list E) : is_z k tau z -> is_z k tau z' -> z = z'.
Proof.
  intros [L H] [L' H']. apply (nth_list_ext _ _ (2 ^ k - 1) L L'). intros r C.
  assert (R : (r < 2 ^ k)%nat) by lia.
    assert (M : mirrors k (brev k r) r).
    { rewrite <- (brev_invol k r R) at 2. apply mirrors_brev. apply brev_lt. }
    assert (brev k r < 2 ^ k - 1)%nat.
    { pose proof (brev_lt k r). enough (brev k r <> 2 ^ k - 1)%nat by lia. intros Q.
      assert (Q2 : brev k r = brev k (2 ^ k - 1)) by now rewrite brev_last.
      apply brev_inj in Q2; lia. }
  rewrite !nth_nth_error. now rewrite (H _ _ H0 M), (H' _ _ H0 M).
Qed.

Lemma c53 bs (rho : nat -> nat -> nat -> E) trans g p (S0 : srs E) (l : list (contrib E)) o (cs : r1cs E) f p1 r1 p2 :
  mexp_strict E -> 1 <= bs -> origin_is (E := E) trans g o ->
  length l < N.to_nat 65536 -> Forall (fun c => length (c_hash c) = 32%nat) l ->
  init_input p S0 cs f p1 r1 p2 -> r1 <> p1 -> no_cmt cs ->
  let F := phase1_file p (nhi l) (nlo l) S0 (recs_bytes l) in
  let F' := phase1_raw p (nhi l) (nlo l) S0 (recs_bytes l) in
  f p1 = Some F ->
  is_file1 F p S0 l /\ is_file1 F' p S0 l /\
  exec (verify bs rho trans) F' g = exec (verify bs rho trans) F g /\
  exists f1 f2 (a b : E) v, p2n (E := E) p1 r1 p2 f = (Ok tt, f1) /\ p2n (E := E) p1 r1 p2 (fset f p1 F') = (Ok tt, f2) /\
    f1 evals_path = Some (g1c a ++ g1c b ++ g2c (beta2 S0) ++ v) /\
    f2 evals_path = Some (g1c a ++ g1c b ++ g2c (last (tau2 S0) 0) ++ v) /\
    f2 p2 = f1 p2 /\ f2 lag_path = f1 lag_path.
Proof.
  intros MS B O Ll LH HI NR Hnc F F' F1. pose proof HI as [HN [Hp [HS [_ [[rb [R1 R2]] [Hok [L1 [L2 [KM1 KM2]]]]]]]]].
  assert (I1 : is_file1 F p S0 l) by now apply comp_file1.
  assert (I2 : is_file1 F' p S0 l) by (apply raw_file1; auto; lia).
  split; [exact I1|]. split; [exact I2|]. split.
  { rewrite (verify_file bs rho trans F g p S0 l o), (verify_file bs rho trans F' g p S0 l o); auto using origin_is_src; lia. }
  assert (HI2 : init_at p (with_beta2 S0 (last (tau2 S0) 0)) cs (fset f p1 F') p1 r1 p2).
  { split; [exact HN|]. split; [exact Hp|]. split; [exact HS|]. split.
    { exists F'. split; [apply fset_same|]. apply seen_raw; [lia|exact HS]. }
    split; [|split; [exact Hok|split; [exact L1|split; [exact L2|split; [exact KM1|exact KM2]]]]].
    exists rb. split; [|exact R2]. now rewrite fset_other by auto. }
  destruct (p2n_ok _ _ _ _ _ _ _ HI Hnc) as [f1 [k [t [a [b [t2 [z [S [O1 [KD [KP [Bt [Ba [Bb [Bt2 [Hz [G1 [G2 G3]]]]]]]]]]]]]]]]]].
  destruct (p2n_ok_at _ _ _ _ _ _ _ HI2 Hnc) as [f2 [k' [t' [a' [b' [t2' [z' [S' [O2 [KD' [KP' [Bt' [Ba' [Bb' [Bt2' [Hz' [G1' [G2' G3']]]]]]]]]]]]]]]]]].
  cbn [with_beta2 tau1 alpha1 beta1 tau2 beta2] in *.
  assert (k' = k) by (destruct KD as [A1 [A2 A3]], KD' as [B1 [B2 B3]]; specialize (A3 k' B1 B2); specialize (B3 k A1 A2); lia). subst k'.
  pose proof KD as [K1 [K2 K3]]. destruct (root_conds (E := E) k) as [Rt Ch]; [split; auto|].
  assert (t' = t) by exact (lag_basis_unique k (root k) K1 Rt Ch _ _ _ Bt' Bt).
  assert (a' = a) by exact (lag_basis_unique k (root k) K1 Rt Ch _ _ _ Ba' Ba).
  assert (b' = b) by exact (lag_basis_unique k (root k) K1 Rt Ch _ _ _ Bb' Bb).
  assert (t2' = t2) by exact (lag_basis_unique k (root k) K1 Rt Ch _ _ _ Bt2' Bt2).
  assert (z' = z) by exact (is_z_unique _ _ _ _ Hz' Hz). subst t' a' b' t2' z'.
  exists f1, f2, (nth 0 (alpha1 S0) 0), (nth 0 (beta1 S0) 0). eexists.
  split; [exact S|]. split; [exact S'|]. split; [exact G2|]. split; [exact G2'|]. split; [now rewrite G3, G3'|now rewrite G1, G1'].
Qed.
End Differ.
