(* Phase1Trans.v -- Transform and the origin read from a transformed file. *)
From Coq Require Import Ring Field.
From Verif Require Import Base Fld Conc Parallel IO Ext Spec1 Phase1 Phase1Io Phase1Verify.
Local Open Scope fld_scope.
Local Open Scope io_scope.

Section Trans.
Context {E : Ext}.
Add Field Kfld5 : (f_th E).

(* a program that reads only handle h *)
Fixpoint uses {X} (h : bool) (p : io X) : Prop :=
  match p with
  | Ret _ | Throw _ | Boom => True
  | Rd h' _ c => h' = h /\ forall x, uses h (c x)
  | Seek h' _ c => h' = h /\ forall x, uses h (c x)
  | Fwd h' _ c => h' = h /\ uses h c
  | NewRd h' _ c => h' = h /\ uses h c
  | NewWr _ _ c => uses h c
  | Flush _ c => forall x, uses h (c x)
  | Wr _ _ c => forall x, uses h (c x)
  end.
Lemma uses_other {X} h (p : io X) : uses h p -> forall s r s' d, ev p s r s' d -> getr (negb h) s' = getr (negb h) s.
Proof.
  intros U s r s' d [w [R _]]. revert s r s' w U R.
  induction p as [a|e| |h' k c IH|h' z c IH|h' n c IH|h' n c IH|o n c IH|o c IH|o b c IH]; intros s r s' w U R; cbn [run uses] in *.
  - now injection R as <- <- <-.
  - now injection R as <- <- <-.
  - now injection R as <- <- <-.
  - destruct U as [-> U]. destruct (rd_read k (getr h s)) as [x q].
    rewrite (IH x _ _ _ _ (U x) R). apply getr_setr_other.
  - destruct U as [-> U]. destruct (z <? 0)%Z; [eauto|]. rewrite (IH _ _ _ _ _ (U true) R). apply getr_setr_other.
  - destruct U as [-> U]. rewrite (IH _ _ _ _ U R). apply getr_setr_other.
  - destruct U as [-> U]. rewrite (IH _ _ _ _ U R). apply getr_setr_other.
  - eauto.
  - eauto.
  - destruct (run (c true) s) as [[r1 s1] w1] eqn:R1. injection R as <- <- <-. eauto.
Qed.
Lemma uses_same {X} h (p : io X) : uses h p -> forall s1 s2 r s1' w, getr h s1 = getr h s2 ->
  run p s1 = (r, s1', w) -> exists s2', run p s2 = (r, s2', w) /\ getr h s2' = getr h s1'.
Proof.
  induction p as [a|e| |h' k c IH|h' z c IH|h' n c IH|h' n c IH|o n c IH|o c IH|o b c IH]; intros U s1 s2 r s1' w G R; cbn [run uses] in *.
  - injection R as <- <- <-. eauto.
  - injection R as <- <- <-. eauto.
  - injection R as <- <- <-. eauto.
  - destruct U as [-> U]. rewrite <- G. destruct (rd_read k (getr h s1)) as [x q].
    eapply IH; [apply U| |exact R]. now rewrite !getr_setr.
  - destruct U as [-> U]. destruct (z <? 0)%Z; [eapply IH; eauto|]. rewrite <- G. eapply IH; [apply U| |exact R]. now rewrite !getr_setr.
  - destruct U as [-> U]. rewrite <- G. eapply IH; [apply U| |exact R]. now rewrite !getr_setr.
  - destruct U as [-> U]. rewrite <- G. eapply IH; [apply U| |exact R]. now rewrite !getr_setr.
  - eapply IH; eauto.
  - eapply IH; eauto.
  - destruct (run (c true) s1) as [[r1 q1] w1] eqn:R1. injection R as <- <- <-.
    destruct (IH true (U true) s1 s2 r1 q1 w1 G R1) as [q2 [-> Q]]. eauto.
Qed.
Lemma uses_bind {X Y} h (p : io X) (f : X -> io Y) : uses h p -> (forall x, uses h (f x)) -> uses h (bind p f).
Proof.
  induction p as [a|e| |h' k c IH|h' z c IH|h' n c IH|h' n c IH|o n c IH|o c IH|o b c IH]; cbn [bind uses]; intros U F; auto;
    destruct U; auto.
Qed.
Lemma uses_rf h : forall fuel k acc, uses h (rf_loop fuel k h acc).
Proof.
  induction fuel as [|fuel IH]; intros k acc; cbn [rf_loop uses]; auto. split; auto.
  intros [b|]; cbn; auto. destruct (length b =? k); cbn; auto.
Qed.
Lemma uses_readfull h k : uses h (readfull h k).
Proof. unfold readfull. destruct (k =? 0); [exact I|apply uses_rf]. Qed.
Lemma uses_decode1 h : uses h (decode1 (E := E) h).
Proof.
  unfold decode1. apply uses_bind; [apply uses_readfull|]. intros b. destruct (compressed b).
  - destruct (g1dc b); exact I.
  - apply uses_bind; [apply uses_readfull|]. intros b2. destruct (g1dr _); exact I.
Qed.
Lemma uses_decode2 h : uses h (decode2 (E := E) h).
Proof.
  unfold decode2. apply uses_bind; [apply uses_readfull|]. intros b. destruct (compressed b).
  - destruct (g2dc b); exact I.
  - apply uses_bind; [apply uses_readfull|]. intros b2. destruct (g2dr _); exact I.
Qed.
Lemma uses_header h : uses h (read_header h).
Proof.
  unfold read_header. cbn. split; auto. intros [[|pw b]|]; cbn; auto. split; auto.
  intros [c|]; cbn; auto. now destruct (c ++ _) as [|c0 [|c1 t]].
Qed.
Lemma uses_seek h z : uses h (seek h z).
Proof. unfold seek. cbn. split; auto. intros []; exact I. Qed.
Lemma uses_default trans : uses true (default_contrib (E := E) trans).
Proof.
  destruct trans as [[]|]; [|exact I|exact I]. unfold default_contrib.
  apply uses_bind; [apply uses_header|]. intros [pw n]. cbv zeta.
  apply uses_bind; [apply uses_seek|]; intros _. apply uses_bind; [apply uses_decode1|]; intros ?.
  apply uses_bind; [apply uses_seek|]; intros _. apply uses_bind; [apply uses_decode1|]; intros ?.
  apply uses_bind; [apply uses_seek|]; intros _. apply uses_bind; [apply uses_decode1|]; intros ?.
  apply uses_bind; [apply uses_seek|]; intros _. apply uses_bind; [apply uses_decode2|]; intros ?.
  apply uses_bind; [apply uses_seek|]; intros _. apply uses_bind; [apply uses_decode2|]; intros ?.
  exact I.
Qed.


Lemma ev_default_none s : ev (default_contrib (E := E) None) s (Ok origin_gen) s none.
Proof. apply ev_ret. Qed.

Lemma split_at {X} i (l : list X) d : i < length l -> l = firstn i l ++ nth i l d :: skipn (S i) l.
Proof.
  revert l. induction i as [|i IH]; intros [|x l] H; cbn in *; try lia; auto.
  f_equal. apply IH. lia.
Qed.
Lemma skip_enc1 pre (l : list E) t i n : i < length l -> n = (length pre + 32 * i)%nat ->
  exists u, skipn n (pre ++ enc1 l ++ t) = g1c (nth i l 0) ++ u.
Proof.
  intros H ->. exists (enc1 (skipn (S i) l) ++ t).
  rewrite (split_at i l 0 H) at 1. rewrite enc1_app. cbn [enc1 flat_map]. fold (@enc1 E).
  rewrite <- !app_assoc, (app_assoc pre).
  replace (length pre + 32 * i)%nat with (length (pre ++ enc1 (firstn i l))).
  - now rewrite skipn_app_exact.
  - rewrite app_length, enc1_length, firstn_length. lia.
Qed.
Lemma skip_enc2 pre (l : list E) t i n : i < length l -> n = (length pre + 64 * i)%nat ->
  exists u, skipn n (pre ++ enc2 l ++ t) = g2c (nth i l 0) ++ u.
Proof.
  intros H ->. exists (enc2 (skipn (S i) l) ++ t).
  rewrite (split_at i l 0 H) at 1. rewrite enc2_app. cbn [enc2 flat_map]. fold (@enc2 E).
  rewrite <- !app_assoc, (app_assoc pre).
  replace (length pre + 64 * i)%nat with (length (pre ++ enc2 (firstn i l))).
  - now rewrite skipn_app_exact.
  - rewrite app_length, enc2_length, firstn_length. lia.
Qed.

Lemma bigcap0 : bigcap 0. Proof. now left. Qed.

Lemma ev_default_file g q c0 c1 (S0 : srs E) t s : 1 <= q <= 55 -> sized q S0 ->
  g = b8 (N.of_nat q) :: c0 :: c1 :: srs_bytes S0 ++ t -> getr true s = opened g ->
  exists s', ev (default_contrib (Some true)) s (Ok (origin_of S0)) s' none.
Proof.
  intros [Q1 Q2] [Z1 [Z2 [Z3 Z4]]] Eg G.
  set (hd := [b8 (N.of_nat q); c0; c1]).
  assert (Eg' : g = hd ++ enc1 (tau1 S0) ++ enc1 (alpha1 S0) ++ enc1 (beta1 S0) ++ enc2 (tau2 S0) ++ g2c (beta2 S0) ++ t).
  { rewrite Eg. unfold srs_bytes, hd. now rewrite <- !app_assoc. }
  assert (N2 : 2 <= 2 ^ q) by (pose proof (Nat.pow_le_mono_r 2 1 q); cbn in *; lia).
  pose proof (pow2_le q 55 Q2) as NB. change (2 ^ Z.of_nat 55)%Z with 36028797018963968%Z in NB.
  set (N := (2 ^ q)%nat) in *.
  destruct (skip_enc1 hd (tau1 S0) (enc1 (alpha1 S0) ++ enc1 (beta1 S0) ++ enc2 (tau2 S0) ++ g2c (beta2 S0) ++ t) 1 35) as [u1 U1]; [lia|reflexivity|].
  destruct (skip_enc1 (hd ++ enc1 (tau1 S0)) (alpha1 S0) (enc1 (beta1 S0) ++ enc2 (tau2 S0) ++ g2c (beta2 S0) ++ t) 0 (3 + 32 * (2 * N - 1))) as [u2 U2].
  { lia. } { rewrite app_length, enc1_length, Z1. cbn [hd length]. lia. }
  destruct (skip_enc1 (hd ++ enc1 (tau1 S0) ++ enc1 (alpha1 S0)) (beta1 S0) (enc2 (tau2 S0) ++ g2c (beta2 S0) ++ t) 0 (3 + 32 * (3 * N - 1))) as [u3 U3].
  { lia. } { rewrite !app_length, !enc1_length, Z1, Z2. cbn [hd length]. lia. }
  destruct (skip_enc2 (hd ++ enc1 (tau1 S0) ++ enc1 (alpha1 S0) ++ enc1 (beta1 S0)) (tau2 S0) (g2c (beta2 S0) ++ t) 1 (3 + 32 * (4 * N - 1) + 64)) as [u4 U4].
  { lia. } { rewrite !app_length, !enc1_length, Z1, Z2, Z3. cbn [hd length]. lia. }
  assert (U5 : skipn (3 + 32 * (4 * N - 1) + 64 * N) g = g2c (beta2 S0) ++ t).
  { rewrite Eg'. rewrite !app_assoc, <- (app_assoc _ (g2c _)).
    replace (3 + 32 * (4 * N - 1) + 64 * N)%nat with (length ((((hd ++ enc1 (tau1 S0)) ++ enc1 (alpha1 S0)) ++ enc1 (beta1 S0)) ++ enc2 (tau2 S0))).
    - now rewrite skipn_app_exact.
    - rewrite !app_length, !enc1_length, enc2_length, Z1, Z2, Z3, Z4. cbn [hd length]. lia. }
  repeat rewrite <- app_assoc in U2. repeat rewrite <- app_assoc in U3. repeat rewrite <- app_assoc in U4. rewrite <- Eg' in U1, U2, U3, U4.
  unfold opened in G. rewrite Eg in G at 2.
  eexists. unfold default_contrib. eapply evb; [eapply ev_read_header; exact G|]. cbv beta iota zeta.
  rewrite pow2_small by lia. fold N.
  assert (W1 : wrap64 (2 * Z.of_nat N - 2) = (2 * Z.of_nat N - 2)%Z) by (apply wrap64_small; unfold two63; lia).
  assert (W0 : wrap64 (Z.of_nat N - 1) = (Z.of_nat N - 1)%Z) by (apply wrap64_small; unfold two63; lia).
  rewrite W1, W0.
  assert (W2 : wrap64 (3 + 32 + (2 * Z.of_nat N - 2) * 32) = Z.of_nat (3 + 32 * (2 * N - 1))).
  { rewrite wrap64_small; unfold two63; lia. }
  rewrite W2.
  assert (W3 : wrap64 (Z.of_nat (3 + 32 * (2 * N - 1)) + Z.of_nat N * 32) = Z.of_nat (3 + 32 * (3 * N - 1))).
  { rewrite wrap64_small; unfold two63; lia. }
  rewrite W3.
  assert (W4 : wrap64 (Z.of_nat (3 + 32 * (3 * N - 1)) + Z.of_nat N * 32 + 64) = Z.of_nat (3 + 32 * (4 * N - 1) + 64)).
  { rewrite wrap64_small; unfold two63; lia. }
  rewrite W4.
  assert (W5 : wrap64 (Z.of_nat (3 + 32 * (4 * N - 1) + 64) + (Z.of_nat N - 1) * 64) = Z.of_nat (3 + 32 * (4 * N - 1) + 64 * N)).
  { rewrite wrap64_small; unfold two63; lia. }
  rewrite W5.
  eapply evb; [eapply (ev_seek _ _ 35); [apply getr_setr|reflexivity]|]. cbv beta. rewrite setr_setr, U1.
  eapply evb; [eapply ev_decode1; [exact bigcap0|apply is1_c|apply getr_setr]|]. cbv beta. rewrite setr_setr.
  eapply evb; [eapply ev_seek; [apply getr_setr|reflexivity]|]. cbv beta. rewrite setr_setr, U2.
  eapply evb; [eapply ev_decode1; [exact bigcap0|apply is1_c|apply getr_setr]|]. cbv beta. rewrite setr_setr.
  eapply evb; [eapply ev_seek; [apply getr_setr|reflexivity]|]. cbv beta. rewrite setr_setr, U3.
  eapply evb; [eapply ev_decode1; [exact bigcap0|apply is1_c|apply getr_setr]|]. cbv beta. rewrite setr_setr.
  eapply evb; [eapply ev_seek; [apply getr_setr|reflexivity]|]. cbv beta. rewrite setr_setr, U4.
  eapply evb; [eapply ev_decode2; [exact bigcap0|apply is2_c|apply getr_setr]|]. cbv beta. rewrite setr_setr.
  eapply evb; [eapply ev_seek; [apply getr_setr|reflexivity]|]. cbv beta. rewrite setr_setr, U5.
  eapply evb; [eapply ev_decode2; [exact bigcap0|apply is2_c|apply getr_setr]|]. cbv beta.
  apply ev_ret.
Qed.

(* ---- Transform ---- *)

Lemma transform_loop_ev (dec : io E) (P : bytes -> E -> Prop) enc h o file cap :
  (forall x b p t s, P b x -> getr h s = at_ file cap p (b ++ t) ->
     ev dec s (Ok x) (setr h (at_ file cap (p + length b) t) s) none) ->
  forall (l : list E) b p t s, parses P b l -> getr h s = at_ file cap p (b ++ t) ->
  ev (transform_loop dec enc o (length l)) s (Ok tt) (setr h (at_ file cap (p + length b) t) s) (on o (flat_map enc l)).
Proof.
  intros D. induction l as [|x l IH]; intros b p t s A G; cbn [transform_loop length flat_map].
  - inversion A; subst. cbn [length app] in *. rewrite Nat.add_0_r, <- G, setr_getr. apply ev_on_nil, ev_ret.
  - inversion A as [|b1 x' t1 l' H1 H2]; subst. rewrite <- app_assoc in G.
    eapply evb; [eapply D; eauto|]. cbv beta. eapply evw; [apply ev_write|]. cbv beta.
    rewrite app_length, Nat.add_assoc. apply ev_set2. apply IH; auto using getr_setr.
Qed.

Lemma transform_section_ev (dec : io E) (P : bytes -> E -> Prop) enc file pos n (l : list E) b t s cap0 p0 r0 sz :
  (forall x b p t s, P b x -> getr false s = at_ file defBuf p (b ++ t) ->
     ev dec s (Ok x) (setr false (at_ file defBuf (p + length b) t) s) none) ->
  getr false s = at_ file cap0 p0 r0 -> pos = Z.of_nat n -> skipn n file = b ++ t -> parses P b l ->
  sz = Z.of_nat (length l) ->
  exists s' p', ev (transform_section dec enc pos sz) s (Ok tt) s' (on 0 (flat_map enc l)) /\ getr false s' = at_ file defBuf p' t.
Proof.
  intros D G -> K A ->. do 2 eexists. split; [|apply (getr_setr false _ s)]. unfold transform_section.
  eapply evb; [eapply ev_seek; eauto|]. cbv beta. eapply ev_newrd0; [apply getr_setr|].
  apply ev_newwr, ev_with_flush. rewrite setr_setr, K, Nat2Z.id.
  apply ev_set2. eapply transform_loop_ev; eauto using getr_setr.
Qed.

Lemma firstn_raw1 k (l : list E) : raw1 l = raw1 (firstn k l) ++ raw1 (skipn k l).
Proof. unfold raw1. rewrite <- flat_map_app. now rewrite firstn_skipn. Qed.
Lemma firstn_raw2 k (l : list E) : raw2 l = raw2 (firstn k l) ++ raw2 (skipn k l).
Proof. unfold raw2. rewrite <- flat_map_app. now rewrite firstn_skipn. Qed.

Lemma skipn_len {X} (pre t : list X) n : n = length pre -> skipn n (pre ++ t) = t.
Proof. intros ->. apply skipn_app_exact. Qed.

Lemma cut_sized a b (s : srs E) : b <= a -> sized a s -> sized b (cut b s).
Proof.
  intros H [Z1 [Z2 [Z3 Z4]]]. pose proof (Nat.pow_le_mono_r 2 b a ltac:(lia) H).
  repeat split; cbn [cut tau1 alpha1 beta1 tau2]; rewrite firstn_length; lia.
Qed.

Lemma transform_ev a b h (S0 : srs E) junk s : b <= a <= 54 -> sized a S0 -> length h = 64%nat ->
  getr false s = opened (ppot h S0 junk) ->
  exists s', ev (transform (E := E) (b8 (N.of_nat a)) (b8 (N.of_nat b))) s (Ok tt) s' (on 0 (file1 b (cut b S0) [])).
Proof.
  intros [Hba Ha] SZ Lh G. pose proof (cut_sized a b S0 Hba SZ) as CZ.
  destruct SZ as [Z1 [Z2 [Z3 Z4]]]. destruct CZ as [C1 [C2 [C3 C4]]].
  set (file := ppot h S0 junk) in *.
  pose proof (pow2_le a 54 Ha) as NB. change (2 ^ Z.of_nat 54)%Z with 18014398509481984%Z in NB.
  pose proof (Nat.pow_le_mono_r 2 b a ltac:(lia) Hba) as MN. pose proof (pow2_pos b) as M1.
  assert (Ea : pow2 (b8 (N.of_nat a)) = Z.of_nat (2 ^ a)) by (apply pow2_small; lia).
  assert (Eb : pow2 (b8 (N.of_nat b)) = Z.of_nat (2 ^ b)) by (apply pow2_small; lia).
  assert (Ct : wrap64 (2 * Z.of_nat (2 ^ b) - 1) = Z.of_nat (2 * 2 ^ b - 1)) by (rewrite <- Eb; apply count_tau; lia).
  set (N := (2 ^ a)%nat) in *. set (M := (2 ^ b)%nat) in *.
  assert (K1 : skipn 64 file = raw1 (firstn (2 * M - 1) (tau1 S0)) ++ raw1 (skipn (2 * M - 1) (tau1 S0)) ++ raw2 (tau2 S0) ++ raw1 (alpha1 S0) ++ raw1 (beta1 S0) ++ g2r (beta2 S0) ++ junk).
  { unfold file, ppot. rewrite (skipn_len h) by auto. rewrite (firstn_raw1 (2 * M - 1)), <- app_assoc. reflexivity. }
  assert (K2 : skipn (64 + 64 * (2 * N - 1) + 128 * N) file = raw1 (firstn M (alpha1 S0)) ++ raw1 (skipn M (alpha1 S0)) ++ raw1 (beta1 S0) ++ g2r (beta2 S0) ++ junk).
  { unfold file, ppot. rewrite (app_assoc h), (app_assoc (h ++ _)). rewrite skipn_len.
    - rewrite (firstn_raw1 M (alpha1 S0)), <- app_assoc. reflexivity.
    - rewrite !app_length, raw1_length, raw2_length. lia. }
  assert (K3 : skipn (64 + 64 * (2 * N - 1) + 128 * N + 64 * N) file = raw1 (firstn M (beta1 S0)) ++ raw1 (skipn M (beta1 S0)) ++ g2r (beta2 S0) ++ junk).
  { unfold file, ppot. rewrite (app_assoc h), (app_assoc (h ++ _)), (app_assoc ((h ++ _) ++ _)). rewrite skipn_len.
    - rewrite (firstn_raw1 M (beta1 S0)), <- app_assoc. reflexivity.
    - rewrite !app_length, !raw1_length, raw2_length. lia. }
  assert (K4 : skipn (64 + 64 * (2 * N - 1)) file = raw2 (firstn M (tau2 S0)) ++ raw2 (skipn M (tau2 S0)) ++ raw1 (alpha1 S0) ++ raw1 (beta1 S0) ++ g2r (beta2 S0) ++ junk).
  { unfold file, ppot. rewrite (app_assoc h). rewrite skipn_len.
    - rewrite (firstn_raw2 M (tau2 S0)), <- app_assoc. reflexivity.
    - rewrite !app_length, raw1_length. lia. }
  assert (K5 : skipn (64 + 64 * (2 * N - 1) + 128 * N + 64 * N + 64 * N) file = raw2 [beta2 S0] ++ junk).
  { unfold file, ppot. rewrite (app_assoc h), (app_assoc (h ++ _)), (app_assoc ((h ++ _) ++ _)), (app_assoc (((h ++ _) ++ _) ++ _)). rewrite skipn_len.
    - unfold raw2. cbn [flat_map]. now rewrite app_nil_r.
    - rewrite !app_length, !raw1_length, raw2_length. lia. }
  pose proof defBuf_big as DB.
  assert (D1 : forall x b p t s, is1 b x -> getr false s = at_ file defBuf p (b ++ t) ->
     ev (decode1 (E := E) false) s (Ok x) (setr false (at_ file defBuf (p + length b) t) s) none) by (intros; eapply ev_decode1; eauto).
  assert (D2 : forall x b p t s, is2 b x -> getr false s = at_ file defBuf p (b ++ t) ->
     ev (decode2 (E := E) false) s (Ok x) (setr false (at_ file defBuf (p + length b) t) s) none) by (intros; eapply ev_decode2; eauto).
  assert (W2 : wrap64 (64 + wrap64 (2 * Z.of_nat N - 1) * 64) = Z.of_nat (64 + 64 * (2 * N - 1))).
  { rewrite (wrap64_small (2 * _ - 1)) by (unfold two63; lia). rewrite wrap64_small; unfold two63; lia. }
  assert (W3 : wrap64 (Z.of_nat (64 + 64 * (2 * N - 1)) + Z.of_nat N * 128) = Z.of_nat (64 + 64 * (2 * N - 1) + 128 * N)).
  { rewrite wrap64_small; unfold two63; lia. }
  assert (W4 : wrap64 (Z.of_nat (64 + 64 * (2 * N - 1) + 128 * N) + Z.of_nat N * 64) = Z.of_nat (64 + 64 * (2 * N - 1) + 128 * N + 64 * N)).
  { rewrite wrap64_small; unfold two63; lia. }
  assert (W5 : wrap64 (Z.of_nat (64 + 64 * (2 * N - 1) + 128 * N + 64 * N) + Z.of_nat N * 64) = Z.of_nat (64 + 64 * (2 * N - 1) + 128 * N + 64 * N + 64 * N)).
  { rewrite wrap64_small; unfold two63; lia. }
  unfold opened in G. fold file in G.
  destruct (transform_section_ev (decode1 false) is1 g1c file 64 64 _ _ _ s _ _ _ (Z.of_nat (2 * M - 1)) D1 G eq_refl K1 (are1_raw _)) as [s1 [p1 [T1 G1]]].
  { cbn [cut tau1] in C1. fold M in C1. now rewrite C1. }
  destruct (transform_section_ev (decode1 false) is1 g1c file _ _ _ _ _ _ _ _ _ (Z.of_nat M) D1 G1 eq_refl K2 (are1_raw _)) as [s2 [p2 [T2 G2]]].
  { cbn [cut alpha1] in C2. fold M in C2. now rewrite C2. }
  destruct (transform_section_ev (decode1 false) is1 g1c file _ _ _ _ _ _ _ _ _ (Z.of_nat M) D1 G2 eq_refl K3 (are1_raw _)) as [s3 [p3 [T3 G3]]].
  { cbn [cut beta1] in C3. fold M in C3. now rewrite C3. }
  destruct (transform_section_ev (decode2 false) is2 g2c file _ _ _ _ _ _ _ _ _ (Z.of_nat M) D2 G3 eq_refl K4 (are2_raw _)) as [s4 [p4 [T4 G4]]].
  { cbn [cut tau2] in C4. fold M in C4. now rewrite C4. }
  destruct (transform_section_ev (decode2 false) is2 g2c file _ _ _ _ _ _ _ _ _ 1 D2 G4 eq_refl K5 (are2_raw _)) as [s5 [p5 [T5 G5]]].
  { reflexivity. }
  eexists. unfold transform, file1, srs_bytes, recs_bytes. cbn [flat_map length].
  eapply evw; [apply ev_write_header|]. cbv beta zeta. rewrite Ea, Eb, Ct, W2, W3, W4, W5.
  repeat rewrite <- app_assoc. cbn [cut tau1 alpha1 beta1 tau2 beta2]. fold M.
  eapply evw; [exact T1|]. eapply evw; [exact T2|]. eapply evw; [exact T3|]. eapply evw; [exact T4|].
  cbn [flat_map] in T5. exact T5.
Qed.

Lemma firstn_seq k n : k <= n -> firstn k (seq 0 n) = seq 0 k.
Proof. intros H. replace n with (k + (n - k))%nat by lia. rewrite seq_app, firstn_app, seq_length, Nat.sub_diag. cbn. rewrite app_nil_r. apply firstn_all2. rewrite seq_length. lia. Qed.
Lemma cut_srs_of a b (T A B : E) : b <= a -> cut b (srs_of a T A B) = srs_of b T A B.
Proof.
  intros H. pose proof (Nat.pow_le_mono_r 2 b a ltac:(lia) H). unfold cut, srs_of. cbn [tau1 alpha1 beta1 tau2 beta2].
  rewrite !firstn_map, !firstn_seq by lia. reflexivity.
Qed.
End Trans.
