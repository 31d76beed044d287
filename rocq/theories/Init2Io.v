(* Init2Io.v -- evaluation of the stages of phase-2 initialisation on well-formed inputs. *)
From Coq Require Import ZifyNat ZifyN.
From Verif Require Import Base Fld Conc Parallel BitRev FFT Poly IO Ext Spec1 Phase1 Phase1Io Phase1Trans Gob GobLemmas Circuit Spec2 Spec3 Fs Init2 Init2Pure.
Local Open Scope fld_scope.

Lemma be32_length n : length (be32 n) = 4. Proof. reflexivity. Qed.
Lemma be32_val n : (n < 4294967296)%N -> be_val 0 (be32 n) = n.
Proof.
  intros H. unfold be32. cbn [be_val]. rewrite !bN_b8.
  assert (A1 : (n / 65536 = n / 256 / 256)%N) by (now rewrite N.div_div).
  assert (A2 : (n / 16777216 = n / 256 / 256 / 256)%N) by (now rewrite !N.div_div).
  rewrite A1, A2. set (a := (n / 256)%N). set (b := (a / 256)%N). set (c := (b / 256)%N).
  pose proof (N.div_mod n 256 ltac:(lia)). pose proof (N.div_mod a 256 ltac:(lia)).
  pose proof (N.div_mod b 256 ltac:(lia)).
  fold a in H0. fold b in H1. fold c in H2.
  rewrite (N.mod_small c) by lia. lia.
Qed.

Section Slices.
Context {E : Ext2}.

Lemma concat_map_g1c (l : list E) : concat (map g1c l) = enc1 l.
Proof. unfold enc1. now rewrite flat_map_concat_map. Qed.
Lemma concat_map_g2c (l : list E) : concat (map g2c l) = enc2 l.
Proof. unfold enc2. now rewrite flat_map_concat_map. Qed.
Lemma ev_enc1 o (l : list E) s : ev (encodes o (map g1c l)) s (Ok tt) s (on o (enc1 l)).
Proof. rewrite <- concat_map_g1c. apply ev_encodes. Qed.
Lemma ev_enc2 o (l : list E) s : ev (encodes o (map g2c l)) s (Ok tt) s (on o (enc2 l)).
Proof. rewrite <- concat_map_g2c. apply ev_encodes. Qed.
Lemma ev_write_slice1 o (l : list E) s : ev (write_slice1 o l) s (Ok tt) s (on o (slice1 l)).
Proof. unfold write_slice1, write_slice, slice1. rewrite map_length. eapply evw; [apply ev_write|apply ev_enc1]. Qed.
Lemma ev_write_slice2 o (l : list E) s : ev (write_slice2 o l) s (Ok tt) s (on o (slice2 l)).
Proof. unfold write_slice2, write_slice, slice2. rewrite map_length. eapply evw; [apply ev_write|apply ev_enc2]. Qed.

Definition small (l : list E) : Prop := (N.of_nat (length l) < 4294967296)%N.
Lemma slice1_length (l : list E) : length (slice1 l) = (4 + 32 * length l)%nat.
Proof. unfold slice1. now rewrite app_length, be32_length, enc1_length. Qed.
Lemma slice2_length (l : list E) : length (slice2 l) = (4 + 64 * length l)%nat.
Proof. unfold slice2. now rewrite app_length, be32_length, enc2_length. Qed.

Lemma ev_read_slice1 h file cap p (l : list E) t s : bigcap cap -> small l ->
  getr h s = at_ file cap p (slice1 l ++ t) ->
  ev (read_slice1 h) s (Ok l) (setr h (at_ file cap (p + length (slice1 l)) t) s) none.
Proof.
  intros Hc Hs G. unfold read_slice1. unfold slice1 in G. rewrite <- app_assoc in G.
  eapply evb; [eapply readfull_ok; [apply (be32_length (N.of_nat (length l)))|apply (bigcap_le cap 4); [exact Hc|lia]|exact G]|].
  rewrite be32_val by exact Hs. rewrite Nat2N.id. apply ev_set2.
  replace (p + length (slice1 l))%nat with (p + 4 + length (enc1 l))%nat
    by (rewrite slice1_length, enc1_length; lia).
  eapply ev_decodes1; [auto|apply are1_enc|]. now rewrite getr_setr.
Qed.
Lemma ev_read_slice2 h file cap p (l : list E) t s : bigcap cap -> small l ->
  getr h s = at_ file cap p (slice2 l ++ t) ->
  ev (read_slice2 h) s (Ok l) (setr h (at_ file cap (p + length (slice2 l)) t) s) none.
Proof.
  intros Hc Hs G. unfold read_slice2. unfold slice2 in G. rewrite <- app_assoc in G.
  eapply evb; [eapply readfull_ok; [apply (be32_length (N.of_nat (length l)))|apply (bigcap_le cap 4); [exact Hc|lia]|exact G]|].
  rewrite be32_val by exact Hs. rewrite Nat2N.id. apply ev_set2.
  replace (p + length (slice2 l))%nat with (p + 4 + length (enc2 l))%nat
    by (rewrite slice2_length, enc2_length; lia).
  eapply ev_decodes2; [auto|apply are2_enc|]. now rewrite getr_setr.
Qed.
Lemma rd_fwd_at file p rest n : rd_fwd n (at_ file 0 p rest) = at_ file 0 0 (skipn n rest).
Proof. reflexivity. Qed.
Lemma ev_fwd {X} h n (q : io X) s file p rest r s' d : getr h s = at_ file 0 p rest ->
  ev q (setr h (at_ file 0 0 (skipn n rest)) s) r s' d -> ev (Fwd h n q) s r s' d.
Proof. intros G [w [R H]]. exists w. split; [|auto]. cbn [run]. now rewrite G, rd_fwd_at. Qed.
End Slices.

Section Stages.
Context {E : Ext2}.
Add Field Kfld : (f_th E).

(* ---- header ---- *)
Lemma ev_process_header (cs : r1cs E) nb p c0 c1 F st d :
  p <= 62 -> next_pow2 nb = Some d -> (nb <= Z.of_nat (2 ^ p))%Z ->
  getr false st = opened (b8 (N.of_nat p) :: c0 :: c1 :: F) ->
  exists st', ev (process_header cs nb) st (Ok (b8 (N.of_nat p), header2_of cs nb d)) st'
    (on 0 (gob_hdr (header2_of cs nb d))).
Proof.
  intros Hp Hd Hn G. unfold process_header. rewrite Hd. cbn [orBoom].
  eexists. eapply evb; [eapply ev_read_header; exact G|].
  cbn beta iota. rewrite pow2_small by auto. destruct (Z.ltb_spec (Z.of_nat (2 ^ p)) nb); [lia|].
  eapply ev_ext; [eapply ev_bind; [apply ev_write_hdr|apply ev_ret]|]. apply cat_none_r.
Qed.

(* ---- where things are ---- *)
Lemma skipn_sec (pre b t : bytes) n : n = length pre -> skipn n (pre ++ b ++ t) = b ++ t.
Proof. intros ->. apply skipn_app_exact. Qed.
Lemma enc1_cut k (l : list E) : enc1 l = enc1 (firstn k l) ++ enc1 (skipn k l).
Proof. now rewrite <- enc1_app, firstn_skipn. Qed.
Lemma enc2_cut k (l : list E) : enc2 l = enc2 (firstn k l) ++ enc2 (skipn k l).
Proof. now rewrite <- enc2_app, firstn_skipn. Qed.
Lemma srs_bytes_eq (S0 : srs E) : srs_bytes S0 = enc1 (tau1 S0) ++ enc1 (alpha1 S0) ++ enc1 (beta1 S0) ++ enc2 (tau2 S0) ++ g2c (beta2 S0).
Proof. reflexivity. Qed.

Definition off_alpha (p : nat) : nat := (3 + 32 * (2 * 2 ^ p - 1))%nat.
Definition off_beta (p : nat) : nat := (off_alpha p + 32 * 2 ^ p)%nat.
Definition off_tau2 (p : nat) : nat := (off_beta p + 32 * 2 ^ p)%nat.
Definition off_beta2 (p : nat) : nat := (off_tau2 p + 64 * 2 ^ p)%nat.

Lemma at_tau p c0 c1 (S0 : srs E) tail : exists t, skipn 3 (phase1_file p c0 c1 S0 tail) = enc1 (tau1 S0) ++ t.
Proof. unfold phase1_file. rewrite srs_bytes_eq, <- !app_assoc. cbn [skipn]. eauto. Qed.
Lemma at_alpha p c0 c1 (S0 : srs E) tail : sized p S0 ->
  exists t, skipn (off_alpha p) (phase1_file p c0 c1 S0 tail) = enc1 (alpha1 S0) ++ t.
Proof.
  intros [Z1 _]. unfold phase1_file. rewrite srs_bytes_eq, <- !app_assoc. eexists.
  replace (b8 (N.of_nat p) :: c0 :: c1 :: enc1 (tau1 S0) ++ enc1 (alpha1 S0) ++ enc1 (beta1 S0) ++ enc2 (tau2 S0) ++ g2c (beta2 S0) ++ tail)
    with ((b8 (N.of_nat p) :: c0 :: c1 :: enc1 (tau1 S0)) ++ enc1 (alpha1 S0) ++ enc1 (beta1 S0) ++ enc2 (tau2 S0) ++ g2c (beta2 S0) ++ tail)
    by reflexivity.
  apply skipn_sec. cbn [length]. rewrite enc1_length, Z1. unfold off_alpha. lia.
Qed.
Lemma at_beta p c0 c1 (S0 : srs E) tail : sized p S0 ->
  exists t, skipn (off_beta p) (phase1_file p c0 c1 S0 tail) = enc1 (beta1 S0) ++ t.
Proof.
  intros [Z1 [Z2 _]]. unfold phase1_file. rewrite srs_bytes_eq, <- !app_assoc. eexists.
  replace (b8 (N.of_nat p) :: c0 :: c1 :: enc1 (tau1 S0) ++ enc1 (alpha1 S0) ++ enc1 (beta1 S0) ++ enc2 (tau2 S0) ++ g2c (beta2 S0) ++ tail)
    with ((b8 (N.of_nat p) :: c0 :: c1 :: enc1 (tau1 S0) ++ enc1 (alpha1 S0)) ++ enc1 (beta1 S0) ++ enc2 (tau2 S0) ++ g2c (beta2 S0) ++ tail)
    by (cbn [app]; now rewrite <- app_assoc).
  apply skipn_sec. cbn [length]. rewrite app_length, !enc1_length, Z1, Z2. unfold off_beta, off_alpha. lia.
Qed.
Lemma at_tau2 p c0 c1 (S0 : srs E) tail : sized p S0 ->
  exists t, skipn (off_tau2 p) (phase1_file p c0 c1 S0 tail) = enc2 (tau2 S0) ++ t.
Proof.
  intros [Z1 [Z2 [Z3 _]]]. unfold phase1_file. rewrite srs_bytes_eq, <- !app_assoc. eexists.
  replace (b8 (N.of_nat p) :: c0 :: c1 :: enc1 (tau1 S0) ++ enc1 (alpha1 S0) ++ enc1 (beta1 S0) ++ enc2 (tau2 S0) ++ g2c (beta2 S0) ++ tail)
    with ((b8 (N.of_nat p) :: c0 :: c1 :: enc1 (tau1 S0) ++ enc1 (alpha1 S0) ++ enc1 (beta1 S0)) ++ enc2 (tau2 S0) ++ g2c (beta2 S0) ++ tail)
    by (cbn [app]; now rewrite <- !app_assoc).
  apply skipn_sec. cbn [length]. rewrite !app_length, !enc1_length, Z1, Z2, Z3. unfold off_tau2, off_beta, off_alpha. lia.
Qed.
Lemma at_beta2 p c0 c1 (S0 : srs E) tail : sized p S0 ->
  exists t, skipn (off_beta2 p) (phase1_file p c0 c1 S0 tail) = g2c (beta2 S0) ++ t.
Proof.
  intros [Z1 [Z2 [Z3 Z4]]]. unfold phase1_file. rewrite srs_bytes_eq, <- !app_assoc. eexists.
  replace (b8 (N.of_nat p) :: c0 :: c1 :: enc1 (tau1 S0) ++ enc1 (alpha1 S0) ++ enc1 (beta1 S0) ++ enc2 (tau2 S0) ++ g2c (beta2 S0) ++ tail)
    with ((b8 (N.of_nat p) :: c0 :: c1 :: enc1 (tau1 S0) ++ enc1 (alpha1 S0) ++ enc1 (beta1 S0) ++ enc2 (tau2 S0)) ++ g2c (beta2 S0) ++ tail)
    by (cbn [app]; now rewrite <- !app_assoc).
  apply skipn_sec. cbn [length]. rewrite !app_length, !enc1_length, enc2_length, Z1, Z2, Z3, Z4.
  unfold off_beta2, off_tau2, off_beta, off_alpha. lia.
Qed.

(* the parameters found at these places, whatever the length of the encodings *)
Definition seen (p : nat) (S0 : srs E) (F : bytes) : Prop :=
  (exists c0 c1 t, F = b8 (N.of_nat p) :: c0 :: c1 :: t) /\
  (exists b t, skipn 3 F = b ++ t /\ are1 b (tau1 S0)) /\
  (exists b t, skipn (off_alpha p) F = b ++ t /\ are1 b (alpha1 S0)) /\
  (exists b t, skipn (off_beta p) F = b ++ t /\ are1 b (beta1 S0)) /\
  (exists b t, skipn (off_tau2 p) F = b ++ t /\ are2 b (tau2 S0)) /\
  (exists b t, skipn (off_beta2 p) F = b ++ t /\ is2 b (beta2 S0)).
(* as many of them as a domain of size 2^k takes *)
Definition enough (k : nat) (S0 : srs E) : Prop :=
  2 * 2 ^ k - 1 <= length (tau1 S0) /\ 2 ^ k <= length (alpha1 S0) /\ 2 ^ k <= length (beta1 S0) /\ 2 ^ k <= length (tau2 S0).
Lemma sized_enough p k (S0 : srs E) : sized p S0 -> k <= p -> enough k S0.
Proof. intros [Z1 [Z2 [Z3 Z4]]] H. pose proof (Nat.pow_le_mono_r 2 k p ltac:(lia) H). unfold enough. lia. Qed.
Lemma seen_file p c0 c1 (S0 : srs E) tail : sized p S0 -> seen p S0 (phase1_file p c0 c1 S0 tail).
Proof.
  intros HS. split; [unfold phase1_file; eauto|].
  destruct (at_tau p c0 c1 S0 tail) as [x1 X1]. destruct (at_alpha p c0 c1 S0 tail HS) as [x2 X2].
  destruct (at_beta p c0 c1 S0 tail HS) as [x3 X3]. destruct (at_tau2 p c0 c1 S0 tail HS) as [x4 X4].
  destruct (at_beta2 p c0 c1 S0 tail HS) as [x5 X5].
  split; [eauto using are1_enc|]. split; [eauto using are1_enc|]. split; [eauto using are1_enc|].
  split; [eauto using are2_enc|]. eauto using is2_c.
Qed.

Lemma offsets p : p <= 54 ->
  let N := pow2 (b8 (N.of_nat p)) in
  let p1 := wrap64 (3 + wrap64 (32 * wrap64 (2 * N - 1))) in
  let p2 := wrap64 (p1 + wrap64 (32 * N)) in
  p1 = Z.of_nat (off_alpha p) /\ p2 = Z.of_nat (off_beta p) /\
  wrap64 (p2 + wrap64 (32 * N)) = Z.of_nat (off_tau2 p) /\
  wrap64 (p2 + wrap64 (96 * N)) = Z.of_nat (off_beta2 p).
Proof.
  intros H. cbv zeta. rewrite pow2_small by lia. pose proof (pow2_le p 54 H). pose proof (pow2_pos p).
  change (2 ^ Z.of_nat 54)%Z with 18014398509481984%Z in *.
  unfold off_beta2, off_tau2, off_beta, off_alpha. generalize dependent (2 ^ p)%nat. intros M ? ?.
  rewrite (wrap64_small (2 * Z.of_nat M - 1)) by (unfold two63; lia).
  rewrite (wrap64_small (32 * (2 * Z.of_nat M - 1))) by (unfold two63; lia).
  rewrite (wrap64_small (3 + _)) by (unfold two63; lia).
  rewrite (wrap64_small (32 * Z.of_nat M)) by (unfold two63; lia).
  rewrite (wrap64_small (96 * Z.of_nat M)) by (unfold two63; lia).
  rewrite (wrap64_small (_ + 32 * Z.of_nat M)) by (unfold two63; lia).
  rewrite (wrap64_small (_ + 32 * Z.of_nat M)) by (unfold two63; lia).
  rewrite (wrap64_small (_ + 96 * Z.of_nat M)) by (unfold two63; lia).
  lia.
Qed.

(* ---- Lagrange ---- *)
Lemma lagrange_section_ev dec enc (wr : list E -> io unit) file pos (n k : nat) (l b : list E) bs t cap0 p0 r0 st :
  (forall p t st, getr false st = at_ file defBuf p (bs ++ t) ->
     ev (dec (2 ^ k)%nat) st (Ok l) (setr false (at_ file defBuf (p + length bs) t) st) none) ->
  (forall st, ev (wr b) st (Ok tt) st (on 1 (enc b))) ->
  getr false st = at_ file cap0 p0 r0 -> pos = Z.of_nat n -> skipn n file = bs ++ t ->
  convert (ncpu E) (domain_of k) l = Some b ->
  exists cap' p' r' st', getr false st' = at_ file cap' p' r' /\ getr true st' = getr true st /\
    ev (lagrange_section dec wr pos k) st (Ok tt) st' (on 1 (enc b)).
Proof.
  intros Hdec Hwr G Hp Hf C. exists defBuf, (0 + length bs)%nat, t. eexists. split; [|split].
  3: { unfold lagrange_section. eapply evb; [eapply ev_seek; [exact G|exact Hp]|].
       eapply ev_newrd0; [rewrite getr_setr; reflexivity|]. apply ev_newwr, ev_with_flush.
       eapply evb; [apply Hdec; rewrite getr_setr, Hf; reflexivity|].
       rewrite C. cbn [orBoom]. apply Hwr. }
  - now rewrite getr_setr.
  - destruct st. reflexivity.
Qed.

(* what the conversion gives for the first 2^k entries *)
Definition conv (k : nat) (l b : list E) : Prop :=
  length l = (2 ^ k)%nat /\ convert (ncpu E) (domain_of k) l = Some b /\ length b = (2 ^ k)%nat /\
  lag_basis (2 ^ k) (root k) l b.
Lemma conv_ex k (l : list E) : 1 <= k <= kmax E -> 2 ^ k <= length l -> exists b, conv k (firstn (2 ^ k) l) b.
Proof.
  intros Hk Hl. assert (L : length (firstn (2 ^ k) l) = (2 ^ k)%nat) by (rewrite firstn_length; lia).
  destruct (convert_ok k _ Hk L) as [b [B1 B2]]. exists b. split; [auto|]. split; [auto|].
  split; [eapply convert_length; eauto|auto].
Qed.

Lemma lagrangeG1_ev file pos (n k : nat) (l b : list E) bs t cap0 p0 r0 st :
  getr false st = at_ file cap0 p0 r0 -> pos = Z.of_nat n -> skipn n file = bs ++ t -> are1 bs l ->
  conv k (firstn (2 ^ k) l) b ->
  exists cap' p' r' st', getr false st' = at_ file cap' p' r' /\ getr true st' = getr true st /\
    ev (lagrangeG1 (E := E) pos k) st (Ok tt) st' (on 1 (slice1 b)).
Proof.
  intros G Hp Hf Ha [L [C _]]. rewrite <- (firstn_skipn (2 ^ k) l) in Ha.
  apply parses_app_inv in Ha. destruct Ha as [b1 [b2 [-> [A1 A2]]]]. rewrite <- app_assoc in Hf.
  eapply (lagrange_section_ev (decodes1 false) slice1 (write_slice1 1)); [| |exact G|exact Hp|exact Hf|exact C].
  - intros p t' st' G'. rewrite <- L at 1. eapply ev_decodes1; [apply defBuf_big|exact A1|exact G'].
  - intros st'. apply ev_write_slice1.
Qed.
Lemma lagrangeG2_ev file pos (n k : nat) (l b : list E) bs t cap0 p0 r0 st :
  getr false st = at_ file cap0 p0 r0 -> pos = Z.of_nat n -> skipn n file = bs ++ t -> are2 bs l ->
  conv k (firstn (2 ^ k) l) b ->
  exists cap' p' r' st', getr false st' = at_ file cap' p' r' /\ getr true st' = getr true st /\
    ev (lagrangeG2 (E := E) pos k) st (Ok tt) st' (on 1 (slice2 b)).
Proof.
  intros G Hp Hf Ha [L [C _]]. rewrite <- (firstn_skipn (2 ^ k) l) in Ha.
  apply parses_app_inv in Ha. destruct Ha as [b1 [b2 [-> [A1 A2]]]]. rewrite <- app_assoc in Hf.
  eapply (lagrange_section_ev (decodes2 false) slice2 (write_slice2 1)); [| |exact G|exact Hp|exact Hf|exact C].
  - intros p t' st' G'. rewrite <- L at 1. eapply ev_decodes2; [apply defBuf_big|exact A1|exact G'].
  - intros st'. apply ev_write_slice2.
Qed.

Lemma process_lagrange_ev p k F (S0 : srs E) t a b t2 st : p <= 54 -> seen p S0 F ->
  conv k (firstn (2 ^ k) (tau1 S0)) t -> conv k (firstn (2 ^ k) (alpha1 S0)) a ->
  conv k (firstn (2 ^ k) (beta1 S0)) b -> conv k (firstn (2 ^ k) (tau2 S0)) t2 ->
  getr false st = opened F ->
  exists st', ev (process_lagrange (E := E) (b8 (N.of_nat p)) k) st (Ok tt) st' (on 1 (lag_bytes t a b t2)).
Proof.
  intros Hp HS Ct Ca Cb Ct2 G. unfold process_lagrange. cbv zeta.
  destruct (offsets p Hp) as [O1 [O2 [O3 _]]]. cbv zeta in O1, O2, O3. rewrite O1 in *. rewrite O2 in *. rewrite O3.
  destruct HS as [_ [[b1 [x1 [X1 A1]]] [[b2 [x2 [X2 A2]]] [[b3 [x3 [X3 A3]]] [[b4 [x4 [X4 A4]]] _]]]]].
  destruct (lagrangeG1_ev F 3 3 k (tau1 S0) t b1 x1 0 0 F st G eq_refl X1 A1 Ct) as [? [? [? [s1 [G1 [_ E1]]]]]].
  destruct (lagrangeG1_ev F _ _ k (alpha1 S0) a b2 x2 _ _ _ s1 G1 eq_refl X2 A2 Ca) as [? [? [? [s2 [G2 [_ E2]]]]]].
  destruct (lagrangeG1_ev F _ _ k (beta1 S0) b b3 x3 _ _ _ s2 G2 eq_refl X3 A3 Cb) as [? [? [? [s3 [G3 [_ E3]]]]]].
  destruct (lagrangeG2_ev F _ _ k (tau2 S0) t2 b4 x4 _ _ _ s3 G3 eq_refl X4 A4 Ct2) as [? [? [? [s4 [G4 [_ E4]]]]]].
  exists s4. unfold lag_bytes. eapply evw; [exact E1|]. eapply evw; [exact E2|]. eapply evw; [exact E3|exact E4].
Qed.

(* ---- evaluations ---- *)
Lemma are1_hd b (l : list E) : l <> [] -> are1 b l -> exists c t, b = c ++ t /\ is1 c (nth 0 l 0).
Proof. intros N H. destruct H as [|c x t l' P _]; [now elim N|]. exists c, t. split; [reflexivity|exact P]. Qed.
Lemma len_nonempty {X} (l : list X) n : length l = n -> 1 <= n -> l <> [].
Proof. intros H1 H2 ->. cbn in H1. lia. Qed.

Lemma process_eval_head_ev p k F (S0 : srs E) st : p <= 54 -> enough k S0 -> seen p S0 F ->
  getr false st = opened F ->
  exists st', getr true st' = getr true st /\ ev (process_eval_head (E := E) (b8 (N.of_nat p))) st (Ok tt) st'
    (on 2 (g1c (nth 0 (alpha1 S0) 0) ++ g1c (nth 0 (beta1 S0) 0) ++ g2c (beta2 S0))).
Proof.
  intros Hp HS HV G. unfold process_eval_head, read_phase1. cbv zeta.
  destruct (offsets p Hp) as [O1 [O2 [_ O4]]]. cbv zeta in O1, O2, O4. rewrite O1 in *. rewrite O2 in *. rewrite O4.
  destruct HV as [_ [_ [[b2 [x2 [X2 A2]]] [[b3 [x3 [X3 A3]]] [_ [b4 [x4 [X4 A4]]]]]]]].
  pose proof HS as [_ [Z2 [Z3 _]]]. pose proof (pow2_pos k).
  destruct (are1_hd _ (alpha1 S0) (len_nonempty (alpha1 S0) (length (alpha1 S0)) eq_refl ltac:(lia)) A2) as [d2 [y2 [Y2 I2]]].
  destruct (are1_hd _ (beta1 S0) (len_nonempty (beta1 S0) (length (beta1 S0)) eq_refl ltac:(lia)) A3) as [d3 [y3 [Y3 I3]]].
  rewrite Y2, <- app_assoc in X2. rewrite Y3, <- app_assoc in X3.
  assert (B0 : bigcap 0) by now left.
  eexists. split; [|eapply evb].
  2: { eapply evb; [eapply ev_seek; [exact G|reflexivity]|]. rewrite X2.
       eapply evb; [eapply ev_decode1; [exact B0|exact I2|rewrite getr_setr; reflexivity]|].
       rewrite setr_setr.
       eapply evb; [eapply ev_seek; [rewrite getr_setr; reflexivity|reflexivity]|]. rewrite X3, setr_setr.
       eapply evb; [eapply ev_decode1; [exact B0|exact I3|rewrite getr_setr; reflexivity]|].
       rewrite setr_setr.
       eapply evb; [eapply ev_seek; [rewrite getr_setr; reflexivity|reflexivity]|]. rewrite X4, setr_setr.
       eapply evb; [eapply ev_decode2; [exact B0|exact A4|rewrite getr_setr; reflexivity]|].
       rewrite setr_setr. apply ev_ret. }
  2: { cbn match. eapply ev_ext; [apply ev_encodes|]. intros o. cbn [concat]. now rewrite app_nil_r. }
  destruct st. reflexivity.
Qed.

Lemma process_eval_body_ev (cs : r1cs E) nb n file t a b t2 st : circuit_ok cs ->
  length t = n -> length a = n -> length b = n -> length t2 = n -> (N.of_nat n < 4294967296)%N ->
  length (r_cons cs) <= n ->
  getr true st = at_ file 0 0 (lag_bytes t a b t2) ->
  let h := header2_of cs nb (Z.of_nat n) in
  exists st', ev (process_eval_body cs (Some (r_cons cs)) h) st (Ok tt) st'
    (on 2 (slice1 (cols cs r_L t) ++ slice1 (cols cs r_R t) ++ slice2 (cols cs r_R t2))).
Proof.
  intros Hc Lt La Lb Lt2 Hn Hl G h. unfold process_eval_body, lag_bytes in *.
  assert (Hh : zeros (h_wires h) = repeat (0 : E) (wires cs)) by apply zeros_wires.
  assert (Hd : h_domain h = Z.of_nat n) by (unfold h, header2_of; now destruct (is_cmt _)).
  assert (B0 : bigcap 0) by now left.
  eexists. eapply evb.
  { eapply ev_read_slice1; [exact B0| |exact G]. unfold small. now rewrite Lt. }
  cbn [orBoom]. rewrite Hh, Hd.
  rewrite (acc_all cs r_L t) by (auto; rewrite ?repeat_length; auto; lia).
  rewrite (acc_all cs r_R t) by (auto; rewrite ?repeat_length; auto; lia).
  rewrite !padd_0 by apply cols_length. cbn [orBoom].
  eapply evw; [apply ev_write_slice1|]. eapply evw; [apply ev_write_slice1|].
  eapply ev_fwd; [rewrite getr_setr; reflexivity|]. rewrite setr_setr.
  rewrite app_assoc, skipn_len by (rewrite app_length, !slice1_length; lia).
  eapply evb.
  { eapply ev_read_slice2; [exact B0| |rewrite getr_setr; rewrite <- (app_nil_r (slice2 t2)) at 1; reflexivity].
    unfold small. now rewrite Lt2. }
  rewrite (acc_all cs r_R t2) by (auto; rewrite ?repeat_length; auto; lia).
  rewrite padd_0 by apply cols_length. cbn [orBoom]. apply ev_write_slice2.
Qed.

(* ---- delta and Z ---- *)
Lemma process_delta_z_ev p k F (S0 : srs E) h st : enough k S0 -> seen p S0 F -> k < 64 ->
  h_domain h = Z.of_nat (2 ^ k) ->
  getr false st = opened F ->
  exists st' z, is_z k (tau1 S0) z /\ ev (process_delta_z (E := E) h) st (Ok tt) st'
    (on 0 (g1c (1 : E) ++ g2c (1 : E) ++ enc1 z)).
Proof.
  intros HS HV H64 Hd G. destruct HV as [_ [[b1 [x1 [X1 A1]]] _]].
  pose proof HS as [Z1 _]. pose proof (pow2_pos k).
  set (n := (2 ^ k)%nat) in *.
  rewrite <- (firstn_skipn (2 * n - 1) (tau1 S0)) in A1.
  apply parses_app_inv in A1. destruct A1 as [b2 [b3 [-> [A1 _]]]]. rewrite <- app_assoc in X1.
  set (T := firstn (2 * n - 1) (tau1 S0)) in *.
  assert (LT : length T = (2 * n - 1)%nat) by (unfold T; rewrite firstn_length; lia).
  set (z0 := map (fun i => nth (i + n)%nat T 0 - nth i T 0) (seq 0 (n - 1)) ++ repeat (0 : E) (n - (n - 1))).
  assert (Lz : length z0 = n) by (unfold z0; rewrite app_length, map_length, seq_length, repeat_length; lia).
  destruct (bit_reverse_full k z0 H64 Lz) as [z1 [B1 [B2 [B3 [B4 _]]]]]. fold n in B2, B3, B4.
  eexists. exists (firstn (n - 1) z1). split.
  - split; [rewrite firstn_length; lia|]. fold n. intros i r Hi Hr.
    assert (r < n)%nat by (destruct Hr as [Hr _]; auto).
    rewrite nth_error_firstn. destruct (Nat.ltb_spec r (n - 1)).
    + rewrite (B3 i r) by (auto; lia). unfold z0. rewrite nth_error_app1 by (rewrite map_length, seq_length; lia).
      rewrite nth_error_map_seq_lt by lia. cbn [Nat.add]. f_equal. unfold z_at, T.
      rewrite !nth_nth_error, !nth_error_firstn.
      destruct (Nat.ltb_spec (i + n) (2 * n - 1)); [|lia]. destruct (Nat.ltb_spec i (2 * n - 1)); [|lia]. reflexivity.
    + exfalso. assert (r = n - 1)%nat by lia. subst r.
      assert (mirrors k (n - 1) (n - 1)).
      { unfold n. rewrite <- (brev_last k) at 2. apply mirrors_brev. fold n. lia. }
      assert (HB : brev k i = brev k (n - 1)).
      { rewrite <- (mirrors_unique k i (n - 1) (brev k i)); [|auto|apply mirrors_brev; fold n; lia].
        unfold n. now rewrite brev_last. }
      apply brev_inj in HB; fold n; lia.
  - unfold process_delta_z. apply ev_newwr, ev_with_flush. rewrite Hd, Nat2Z.id.
    eapply evw; [apply ev_write|]. eapply evw; [apply ev_write|].
    eapply evb; [eapply ev_seek with (n := 3%nat); [exact G|reflexivity]|].
    rewrite X1.
    eapply ev_newrd0; [rewrite getr_setr; reflexivity|]. cbv zeta. rewrite setr_setr.
    eapply evb.
    { rewrite <- LT at 1. eapply ev_decodes1; [apply defBuf_big|exact A1|rewrite getr_setr; reflexivity]. }
    fold z0. rewrite B1. cbn [orBoom]. apply ev_enc1.
Qed.

(* ---- PKK, VKK, CKK ---- *)
Section Pvckk.
Variables (cs : r1cs E) (nb : Z) (n : nat) (file : bytes) (t a b t2 : list E) (st : rds).
Hypotheses (Hc : circuit_ok cs) (Lt : length t = n) (La : length a = n) (Lb : length b = n)
  (Hn : (N.of_nat n < 4294967296)%N) (Hl : length (r_cons cs) <= n)
  (G : getr true st = at_ file 0 0 (lag_bytes t a b t2)).
Let h := header2_of cs nb (Z.of_nat n).
Let L := padd (padd (cols cs r_O t) (cols cs r_R a)) (cols cs r_L b).

Lemma process_pvckk_upto r d : (forall st, exists st', ev (orBoom (filterL L h (r_cmt cs)) (fun '(pkk, vkk, ckk) =>
    encodes 0 (map g1c pkk) ;;;
    NewWr 2 defBuf (with_flush 2 (
      write_slice1 2 vkk ;;;
      write_slice1 2 ckk ;;;
      write 2 (cmt_bytes (e := E) (r_cmt cs)))))%io) st r st' d) ->
  exists st', ev (process_pvckk cs (Some (r_cons cs)) h) st r st' d.
Proof.
  intros K. unfold process_pvckk, lag_bytes in *.
  assert (Hh : zeros (h_wires h) = repeat (0 : E) (wires cs)) by apply zeros_wires.
  destruct (K (setr true (at_ file defBuf (((0 + length (slice1 t)) + length (slice1 a)) + length (slice1 b))%nat (slice2 t2)) st)) as [st' K'].
  exists st'. eapply ev_newrd0; [exact G|]. apply ev_newwr, ev_with_flush.
  eapply evb.
  { eapply ev_read_slice1; [apply defBuf_big| |rewrite getr_setr; reflexivity]. unfold small. now rewrite Lt. }
  cbn [orBoom]. rewrite Hh. rewrite setr_setr.
  rewrite (acc_all cs r_O t) by (auto; rewrite ?repeat_length; auto; lia). cbn [orBoom].
  rewrite padd_0 by apply cols_length.
  eapply evb.
  { eapply ev_read_slice1; [apply defBuf_big| |rewrite getr_setr; reflexivity]. unfold small. now rewrite La. }
  rewrite setr_setr.
  rewrite (acc_all cs r_R a) by (auto; rewrite ?cols_length; auto; lia). cbn [orBoom].
  eapply evb.
  { eapply ev_read_slice1; [apply defBuf_big| |rewrite getr_setr; reflexivity]. unfold small. now rewrite Lb. }
  rewrite setr_setr.
  rewrite (acc_all cs r_L b) by (auto; rewrite ?padd_length, ?cols_length; auto; lia). cbn [orBoom].
  exact K'.
Qed.
Lemma process_pvckk_ev pkk vkk ckk : filterL L h (r_cmt cs) = Some (pkk, vkk, ckk) ->
  exists st', ev (process_pvckk cs (Some (r_cons cs)) h) st (Ok tt) st'
    (cat (on 0 (enc1 pkk)) (on 2 (slice1 vkk ++ slice1 ckk ++ cmt_bytes (e := E) (r_cmt cs)))).
Proof.
  intros HF. apply process_pvckk_upto. intros st0. rewrite HF. cbn [orBoom].
  eexists. eapply ev_bind; [apply ev_enc1|]. apply ev_newwr, ev_with_flush.
  eapply evw; [apply ev_write_slice1|]. eapply evw; [apply ev_write_slice1|apply ev_write].
Qed.
Lemma process_pvckk_panic : filterL L h (r_cmt cs) = None ->
  exists st', ev (process_pvckk cs (Some (r_cons cs)) h) st Panic st' none.
Proof.
  intros HF. apply process_pvckk_upto. intros st0. rewrite HF. cbn [orBoom].
  exists st0. exists []. split; [reflexivity|]. now intros [|].
Qed.
End Pvckk.
End Stages.
