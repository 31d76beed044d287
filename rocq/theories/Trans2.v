(* Trans2.v -- phase1.Transform on arbitrary bytes and with powers that are not those of the file. *)
From Coq Require Import Ring Field.
From Verif Require Import Base Fld Conc Parallel IO Ext Spec1 Phase1 Phase1Io Phase1Verify Phase1Trans Phase1Facts Phase1Inv Phase1Claims Spec21 Safe Safe2.
Local Open Scope io_scope.

Section Trans2.
Context {E : Ext}.
Lemma loop_inv (dec : io E) (P : bytes -> E -> Prop) enc file cap :
  (forall p rest s x s' d, getr false s = at_ file cap p rest -> ev dec s (Ok x) s' d ->
     exists b t, rest = b ++ t /\ P b x /\ s' = setr false (at_ file cap (p + length b) t) s /\ d 0%nat = []) ->
  forall n p rest s s' d, getr false s = at_ file cap p rest -> ev (transform_loop dec enc 0 n) s (Ok tt) s' d ->
  exists l b t p', rest = b ++ t /\ parses P b l /\ length l = n /\ s' = setr false (at_ file cap p' t) s /\ d 0%nat = flat_map enc l.
Proof.
  intros D. induction n as [|n IH]; intros p rest s s' d G H; cbn [transform_loop] in H.
  - destruct (ev_det _ _ _ _ _ _ _ _ H (ev_ret tt s)) as [_ [-> Q]]. exists [], [], rest, p. split; [reflexivity|]. split; [constructor|].
    split; [reflexivity|]. split; [now rewrite <- G, setr_getr|]. now rewrite Q.
  - apply bind_ok_inv in H as [x [s1 [d1 [d2 [H1 [H Q]]]]]].
    destruct (D _ _ _ _ _ _ G H1) as [b1 [t1 [-> [I1 [-> Q1]]]]].
    apply bind_ok_inv in H as [[] [s2 [d3 [d4 [H2 [H Q']]]]]].
    destruct (ev_det _ _ _ _ _ _ _ _ H2 (ev_write _ _ _)) as [_ [-> Q2]].
    destruct (IH _ _ _ _ _ (getr_setr _ _ _) H) as [l [b [t [p' [-> [I2 [L2 [-> Q3]]]]]]]].
    exists (x :: l), (b1 ++ b), t, p'. rewrite app_assoc. split; [reflexivity|]. split; [now constructor|]. split; [cbn; lia|].
    split; [now rewrite setr_setr|]. rewrite Q, Q1, Q', Q2, Q3. reflexivity.
Qed.
Lemma section_inv (dec : io E) (P : bytes -> E -> Prop) enc file pos n sz m s s' d cap0 p0 r0 :
  (forall p rest s x s' d, getr false s = at_ file defBuf p rest -> ev dec s (Ok x) s' d ->
     exists b t, rest = b ++ t /\ P b x /\ s' = setr false (at_ file defBuf (p + length b) t) s /\ d 0%nat = []) ->
  getr false s = at_ file cap0 p0 r0 -> pos = Z.of_nat n -> sz = Z.of_nat m ->
  ev (transform_section dec enc pos sz) s (Ok tt) s' d ->
  exists l b t p', skipn n file = b ++ t /\ parses P b l /\ length l = m /\ getr false s' = at_ file defBuf p' t /\ d 0%nat = flat_map enc l.
Proof.
  intros D G -> -> H. unfold transform_section in H. apply bind_ok_inv in H as [[] [s1 [d1 [d2 [H1 [H Q]]]]]].
  destruct (ev_det _ _ _ _ _ _ _ _ H1 (ev_seek _ _ n _ _ _ _ _ G eq_refl)) as [_ [-> Q1]]. rewrite Nat2Z.id in H.
  assert (H' : ev (transform_loop dec enc 0 m) (setr false (at_ file defBuf 0 (skipn n file)) s) (Ok tt) s' d2).
  { destruct H as [v [R1 R2]]. exists v. split; [|exact R2]. cbn [run] in R1. rewrite getr_setr, setr_setr, rd_buf_at, run_with_flush in R1. exact R1. }
  destruct (loop_inv dec P enc file defBuf D _ _ _ _ _ _ (getr_setr _ _ _) H') as [l [b [t [p' [A1 [A2 [A3 [-> A4]]]]]]]].
  exists l, b, t, p'. rewrite getr_setr, Q, Q1, A4. auto.
Qed.
Lemma dec_silent1 h file cap p rest s (x : E) s' d : bigcap cap -> getr h s = at_ file cap p rest ->
  ev (decode1 h) s (Ok x) s' d -> exists b t, rest = b ++ t /\ is1 b x /\ s' = setr h (at_ file cap (p + length b) t) s /\ d 0%nat = [].
Proof.
  intros C G H. destruct (decode1_ok_inv _ _ _ _ _ _ _ _ _ C G H) as [b [t [-> [I ->]]]]. exists b, t. repeat (split; [auto|]).
  destruct (ev_det _ _ _ _ _ _ _ _ H (ev_decode1 _ _ _ _ _ _ _ _ C I G)) as [_ [_ Q]]. now rewrite Q.
Qed.
Lemma dec_silent2 h file cap p rest s (x : E) s' d : bigcap cap -> getr h s = at_ file cap p rest ->
  ev (decode2 h) s (Ok x) s' d -> exists b t, rest = b ++ t /\ is2 b x /\ s' = setr h (at_ file cap (p + length b) t) s /\ d 0%nat = [].
Proof.
  intros C G H. destruct (decode2_ok_inv _ _ _ _ _ _ _ _ _ C G H) as [b [t [-> [I ->]]]]. exists b, t. repeat (split; [auto|]).
  destruct (ev_det _ _ _ _ _ _ _ _ H (ev_decode2 _ _ _ _ _ _ _ _ C I G)) as [_ [_ Q]]. now rewrite Q.
Qed.

(* what is written if n1 points are copied from the first section and n2 from each other one, which are at these places *)
Lemma sections_at qt qa qb qu b n1 n2 f g (O : bytes) :
  exec (write_header 0 (b8 (N.of_nat b)) 0 ;;; transformG1 (E := E) (Z.of_nat 64) (Z.of_nat n1) ;;;
      transformG1 (E := E) (Z.of_nat qa) (Z.of_nat n2) ;;; transformG1 (E := E) (Z.of_nat qb) (Z.of_nat n2) ;;;
      transformG2 (E := E) (Z.of_nat qt) (Z.of_nat n2) ;;; transformG2 (E := E) (Z.of_nat qu) (Z.of_nat 1)) f g = (Ok tt, O) <->
  exists s : srs E, (length (tau1 s) = n1 /\ length (alpha1 s) = n2 /\ length (beta1 s) = n2 /\ length (tau2 s) = n2) /\
    (at1 f 64 (tau1 s) /\ at2 f qt (tau2 s) /\ at1 f qa (alpha1 s) /\ at1 f qb (beta1 s) /\ at2 f qu [beta2 s]) /\ O = file1 b s [].
Proof.
  pose proof defBuf_big as DB. split.
  - intros H. apply exec_ev in H as [s' [D [H <-]]].
    apply bind_ok_inv in H as [[] [s0 [d0 [e0 [H0 [H Q0]]]]]].
    destruct (ev_det _ _ _ _ _ _ _ _ H0 (ev_write_header _ _ _ _)) as [_ [-> Q0']].
    assert (S1 : forall p rest s x s' d, getr false s = at_ f defBuf p rest -> ev (decode1 (E := E) false) s (Ok x) s' d ->
      exists b t, rest = b ++ t /\ is1 b x /\ s' = setr false (at_ f defBuf (p + length b) t) s /\ d 0%nat = []) by (intros; eapply dec_silent1; eauto).
    assert (S2 : forall p rest s x s' d, getr false s = at_ f defBuf p rest -> ev (decode2 (E := E) false) s (Ok x) s' d ->
      exists b t, rest = b ++ t /\ is2 b x /\ s' = setr false (at_ f defBuf (p + length b) t) s /\ d 0%nat = []) by (intros; eapply dec_silent2; eauto).
    apply bind_ok_inv in H as [[] [s1 [d1 [e1 [H1 [H Q1]]]]]].
    assert (G0 : getr false (opened f, opened g) = at_ f 0 0 f) by reflexivity.
    destruct (section_inv _ _ _ _ _ _ _ _ _ _ _ _ _ _ S1 G0 eq_refl eq_refl H1) as [l1 [b1 [t1 [p1 [A1 [B1 [C1 [G1 D1]]]]]]]].
    apply bind_ok_inv in H as [[] [s2 [d2 [e2 [H2 [H Q2]]]]]].
    destruct (section_inv _ _ _ _ _ _ _ _ _ _ _ _ _ _ S1 G1 eq_refl eq_refl H2) as [l2 [b2 [t2 [p2 [A2 [B2 [C2 [G2 D2]]]]]]]].
    apply bind_ok_inv in H as [[] [s3 [d3 [e3 [H3 [H Q3]]]]]].
    destruct (section_inv _ _ _ _ _ _ _ _ _ _ _ _ _ _ S1 G2 eq_refl eq_refl H3) as [l3 [b3 [t3 [p3 [A3 [B3 [C3 [G3 D3]]]]]]]].
    apply bind_ok_inv in H as [[] [s4 [d4 [e4 [H4 [H Q4]]]]]].
    destruct (section_inv _ _ _ _ _ _ _ _ _ _ _ _ _ _ S2 G3 eq_refl eq_refl H4) as [l4 [b4 [t4 [p4 [A4 [B4 [C4 [G4 D4]]]]]]]].
    destruct (section_inv _ _ _ _ _ _ _ _ _ _ _ _ _ _ S2 G4 eq_refl eq_refl H) as [l5 [b5 [t5 [p5 [A5 [B5 [C5 [G5 D5]]]]]]]].
    destruct l5 as [|y [|]]; try discriminate C5.
    exists (mkSrs l1 l2 l3 l4 y). split; [repeat split; assumption|]. split.
    { unfold at1, at2. cbn [tau1 alpha1 beta1 tau2 beta2]. repeat split; eauto. }
    rewrite Q0, Q0', Q1, Q2, Q3, Q4, D1, D2, D3, D4, D5. unfold file1, srs_bytes, recs_bytes, enc1, enc2.
    cbn [tau1 alpha1 beta1 tau2 beta2 flat_map on Nat.eqb length]. rewrite !app_nil_r. reflexivity.
  - intros [S0 [[Z1 [Z2 [Z3 Z4]]] [[[b1 [t1 [A1 B1]]] [[b4 [t4 [A4 B4]]] [[b2 [t2 [A2 B2]]] [[b3 [t3 [A3 B3]]] [b5 [t5 [A5 B5]]]]]]] ->]]].
    assert (D1 : forall x b p t s, is1 b x -> getr false s = at_ f defBuf p (b ++ t) ->
       ev (decode1 (E := E) false) s (Ok x) (setr false (at_ f defBuf (p + length b) t) s) none) by (intros; eapply ev_decode1; eauto).
    assert (D2 : forall x b p t s, is2 b x -> getr false s = at_ f defBuf p (b ++ t) ->
       ev (decode2 (E := E) false) s (Ok x) (setr false (at_ f defBuf (p + length b) t) s) none) by (intros; eapply ev_decode2; eauto).
    destruct (transform_section_ev (decode1 false) is1 g1c f _ _ _ _ _ (opened f, opened g) _ _ _ (Z.of_nat n1) D1 eq_refl eq_refl A1 B1 ltac:(now rewrite Z1)) as [s1 [p1 [T1 G1]]].
    destruct (transform_section_ev (decode1 false) is1 g1c f _ _ _ _ _ _ _ _ _ (Z.of_nat n2) D1 G1 eq_refl A2 B2 ltac:(now rewrite Z2)) as [s2 [p2 [T2 G2]]].
    destruct (transform_section_ev (decode1 false) is1 g1c f _ _ _ _ _ _ _ _ _ (Z.of_nat n2) D1 G2 eq_refl A3 B3 ltac:(now rewrite Z3)) as [s3 [p3 [T3 G3]]].
    destruct (transform_section_ev (decode2 false) is2 g2c f _ _ _ _ _ _ _ _ _ (Z.of_nat n2) D2 G3 eq_refl A4 B4 ltac:(now rewrite Z4)) as [s4 [p4 [T4 G4]]].
    destruct (transform_section_ev (decode2 false) is2 g2c f _ _ _ _ _ _ _ _ _ (Z.of_nat 1) D2 G4 eq_refl A5 B5 eq_refl) as [s5 [p5 [T5 G5]]].
    assert (X : ev (write_header 0 (b8 (N.of_nat b)) 0 ;;; transformG1 (E := E) (Z.of_nat 64) (Z.of_nat n1) ;;;
      transformG1 (E := E) (Z.of_nat qa) (Z.of_nat n2) ;;; transformG1 (E := E) (Z.of_nat qb) (Z.of_nat n2) ;;;
      transformG2 (E := E) (Z.of_nat qt) (Z.of_nat n2) ;;; transformG2 (E := E) (Z.of_nat qu) (Z.of_nat 1)) (opened f, opened g) (Ok tt) s5
      (on 0 (file1 b S0 []))).
    { unfold file1, srs_bytes, recs_bytes. cbn [flat_map length].
      eapply evw; [apply ev_write_header|]. cbv beta. repeat rewrite <- app_assoc.
      eapply evw; [exact T1|]. cbv beta. eapply evw; [exact T2|]. cbv beta. eapply evw; [exact T3|]. cbv beta. eapply evw; [exact T4|]. cbv beta.
      cbn [flat_map] in T5. exact T5. }
    apply ev_exec in X. exact X.
Qed.

Lemma sections_iff a b n1 n2 f g (O : bytes) :
  exec (write_header 0 (b8 (N.of_nat b)) 0 ;;; transformG1 (E := E) (Z.of_nat 64) (Z.of_nat n1) ;;;
      transformG1 (E := E) (Z.of_nat (256 * 2 ^ a)) (Z.of_nat n2) ;;; transformG1 (E := E) (Z.of_nat (320 * 2 ^ a)) (Z.of_nat n2) ;;;
      transformG2 (E := E) (Z.of_nat (128 * 2 ^ a)) (Z.of_nat n2) ;;; transformG2 (E := E) (Z.of_nat (384 * 2 ^ a)) (Z.of_nat 1)) f g = (Ok tt, O) <->
  exists s : srs E, (length (tau1 s) = n1 /\ length (alpha1 s) = n2 /\ length (beta1 s) = n2 /\ length (tau2 s) = n2) /\
    holds a f s /\ O = file1 b s [].
Proof. apply sections_at. Qed.

(* the numbers Transform computes *)
Lemma section_size (dec : io E) enc pos z : transform_section dec enc pos z = transform_section dec enc pos (Z.of_nat (Z.to_nat z)).
Proof. unfold transform_section. now rewrite Nat2Z.id. Qed.
Lemma trans_pos a pb b n1 n2 : a <= 54 -> pb = b8 (N.of_nat b) ->
  Z.to_nat (wrap64 (2 * pow2 pb - 1)) = n1 -> Z.to_nat (pow2 pb) = n2 ->
  transform (E := E) (b8 (N.of_nat a)) pb =
  (write_header 0 (b8 (N.of_nat b)) 0 ;;; transformG1 (E := E) (Z.of_nat 64) (Z.of_nat n1) ;;;
      transformG1 (E := E) (Z.of_nat (256 * 2 ^ a)) (Z.of_nat n2) ;;; transformG1 (E := E) (Z.of_nat (320 * 2 ^ a)) (Z.of_nat n2) ;;;
      transformG2 (E := E) (Z.of_nat (128 * 2 ^ a)) (Z.of_nat n2) ;;; transformG2 (E := E) (Z.of_nat (384 * 2 ^ a)) (Z.of_nat 1)).
Proof.
  intros Ha -> C1 C2. pose proof (pow2_le a 54 Ha) as NB. change (2 ^ Z.of_nat 54)%Z with 18014398509481984%Z in NB.
  assert (Ea : pow2 (b8 (N.of_nat a)) = Z.of_nat (2 ^ a)) by (apply pow2_small; lia).
  pose proof (pow2_pos a) as M1. unfold transform. cbv zeta. rewrite Ea. unfold transformG1, transformG2.
  rewrite (section_size _ _ _ (wrap64 (2 * pow2 (b8 (N.of_nat b)) - 1))), C1.
  rewrite !(section_size _ _ _ (pow2 (b8 (N.of_nat b)))), C2. set (N := (2 ^ a)%nat) in *.
  assert (W2 : wrap64 (64 + wrap64 (2 * Z.of_nat N - 1) * 64) = Z.of_nat (128 * N)).
  { rewrite (wrap64_small (2 * _ - 1)) by (unfold two63; lia). rewrite wrap64_small; unfold two63; lia. }
  assert (W3 : wrap64 (Z.of_nat (128 * N) + Z.of_nat N * 128) = Z.of_nat (256 * N)) by (rewrite wrap64_small; unfold two63; lia).
  assert (W4 : wrap64 (Z.of_nat (256 * N) + Z.of_nat N * 64) = Z.of_nat (320 * N)) by (rewrite wrap64_small; unfold two63; lia).
  assert (W5 : wrap64 (Z.of_nat (320 * N) + Z.of_nat N * 64) = Z.of_nat (384 * N)) by (rewrite wrap64_small; unfold two63; lia).
  rewrite W2, W3, W4, W5. reflexivity.
Qed.

Lemma transform_iff a b f g (O : bytes) : a <= 54 -> b <= 62 ->
  (exec (transform (E := E) (b8 (N.of_nat a)) (b8 (N.of_nat b))) f g = (Ok tt, O) <->
   exists s : srs E, sized b s /\ holds a f s /\ O = file1 b s []).
Proof.
  intros Ha Hb. assert (Eb : pow2 (b8 (N.of_nat b)) = Z.of_nat (2 ^ b)) by (apply pow2_small; lia).
  rewrite (trans_pos a _ b (2 * 2 ^ b - 1) (2 ^ b)); [apply sections_iff|assumption|reflexivity| |].
  - rewrite (count_tau b) by lia. lia.
  - rewrite Eb. lia.
Qed.
(* an output power from 63 on: the number of points is negative as an int, no section but the last is copied *)
Lemma transform_big a b f g (O : bytes) : a <= 54 -> 63 <= b <= 255 ->
  (exec (transform (E := E) (b8 (N.of_nat a)) (b8 (N.of_nat b))) f g = (Ok tt, O) <->
   exists y : E, at2 f (384 * 2 ^ a) [y] /\ O = b8 (N.of_nat b) :: be16 0 ++ g2c y).
Proof.
  intros Ha Hb. assert (Eb : pow2 (b8 (N.of_nat b)) = (- two63)%Z).
  { unfold pow2. rewrite bN_small by lia. destruct (N.ltb_spec (N.of_nat b) 63); [lia|reflexivity]. }
  rewrite (trans_pos a _ b 0 0); [|assumption|reflexivity|now rewrite Eb|now rewrite Eb]. rewrite sections_iff. split.
  - intros [s [[L1 [L2 [L3 L4]]] [H ->]]]. exists (beta2 s). split; [apply H|].
    apply length_zero_iff_nil in L1, L2, L3, L4. unfold file1, srs_bytes, recs_bytes, hdr1. rewrite L1, L2, L3, L4. cbn. now rewrite app_nil_r.
  - intros [y [H ->]]. exists (mkSrs [] [] [] [] y). split; [repeat split|]. split.
    + unfold holds, at1, at2. cbn [tau1 alpha1 beta1 tau2 beta2].
      repeat split; try exact H; eexists [], _; (split; [reflexivity|constructor]).
    + unfold file1, srs_bytes, recs_bytes, hdr1. cbn. now rewrite app_nil_r.
Qed.
Lemma transform_not_ok a b f g : (forall O, exec (transform (E := E) a b) f g <> (Ok tt, O)) ->
  exists e, fst (exec (transform (E := E) a b) f g) = Err e.
Proof.
  intros N. destruct (exec (transform (E := E) a b) f g) as [[[]|e|] O] eqn:X; [destruct (N _ eq_refl)|cbn; eauto|].
  exfalso. apply exec_ev in X as [s' [d [X _]]]. exact (safe_ev _ _ _ _ _ (safe_transform a b) X).
Qed.
Lemma at2_len f n (y : E) : at2 f n [y] -> n + 64 <= length f.
Proof.
  intros [b [t [H A]]]. inversion A as [|b1 x t1 l I A']; subst.
  assert (64 <= length b1) by (destruct I as [[-> _]|[-> _]]; lia).
  pose proof (skipn_length n f) as L. rewrite H, !app_length in L. lia.
Qed.
Lemma transform_short a b f g : a <= 54 -> b <= 255 -> length f < 384 * 2 ^ a + 64 ->
  exists e, fst (exec (transform (E := E) (b8 (N.of_nat a)) (b8 (N.of_nat b))) f g) = Err e.
Proof.
  intros Ha Hb L. apply transform_not_ok. intros O X.
  assert (exists y : E, at2 f (384 * 2 ^ a) [y]) as [y H].
  { destruct (Nat.le_gt_cases b 62).
    - apply transform_iff in X as [s [_ [X _]]]; [|assumption|assumption]. exists (beta2 s). apply X.
    - apply transform_big in X as [y [X _]]; [|assumption|lia]. now exists y. }
  apply at2_len in H. lia.
Qed.
Lemma ppot_len a h (s : srs E) junk : length h = 64 -> sized a s -> length (ppot h s junk) = 384 * 2 ^ a + 128 + length junk.
Proof.
  intros Lh [Z1 [Z2 [Z3 Z4]]]. unfold ppot. rewrite !app_length, !raw1_length, !raw2_length, g2r_len, Z1, Z2, Z3, Z4, Lh. pose proof (pow2_pos a). lia.
Qed.
Lemma transform_larger a a' b h (s : srs E) junk g : length h = 64 -> sized a s -> a < a' -> a' <= 54 -> b <= 255 ->
  length junk + 64 < 384 * (2 ^ a' - 2 ^ a) ->
  exists e, fst (exec (transform (E := E) (b8 (N.of_nat a')) (b8 (N.of_nat b))) (ppot h s junk) g) = Err e.
Proof. intros Lh SZ L1 L2 L3 J. apply transform_short; [assumption|assumption|]. rewrite (ppot_len a) by assumption. lia. Qed.
Lemma firstn_exact {X} (u t : list X) n : length u = n -> firstn n (u ++ t) = u.
Proof. intros <-. rewrite firstn_app, Nat.sub_diag, firstn_O, firstn_all. apply app_nil_r. Qed.
Lemma transform_smaller a a' b h (s : srs E) junk g : length h = 64 -> sized a s -> a' < a -> a <= 54 -> b <= 62 ->
  g2dr (e := E) (g1r (nth (2 * 2 ^ a' - 1) (tau1 s) (0 : E)%F) ++ g1r (nth (2 * 2 ^ a') (tau1 s) (0 : E)%F)) = None ->
  exists e, fst (exec (transform (E := E) (b8 (N.of_nat a')) (b8 (N.of_nat b))) (ppot h s junk) g) = Err e.
Proof.
  intros Lh SZ L1 L2 L3 NZ. apply transform_not_ok. intros O X. apply transform_iff in X as [s' [SZ' [[_ [[b0 [t0 [H A]]] _]] _]]]; [|lia|assumption].
  destruct SZ as [Z1 _]. destruct SZ' as [_ [_ [_ Z4]]]. pose proof (pow2_pos b) as PB. destruct (tau2 s') as [|z l]; [cbn in Z4; lia|].
  assert (P : 2 * 2 ^ a' <= 2 ^ a) by (change (2 * 2 ^ a') with (2 ^ (S a')); apply Nat.pow_le_mono_r; lia).
  pose proof (pow2_pos a') as PA. set (k := 2 * 2 ^ a' - 1) in *. replace (2 * 2 ^ a') with (S k) in NZ by lia.
  pose proof (firstn_skipn k (tau1 s)) as D. destruct (skipn k (tau1 s)) as [|x [|y r]] eqn:K;
    try (apply (f_equal (@length _)) in K; rewrite skipn_length, Z1 in K; cbn in K; lia).
  assert (Lk : length (firstn k (tau1 s)) = k) by (rewrite firstn_length, Z1; lia).
  assert (Nx : nth k (tau1 s) (0 : E)%F = x) by (rewrite <- D, app_nth2, Lk, Nat.sub_diag by lia; reflexivity).
  assert (Ny : nth (S k) (tau1 s) (0 : E)%F = y).
  { rewrite <- D, app_nth2, Lk by lia. replace (S k - k) with 1 by lia. reflexivity. }
  rewrite Nx, Ny in NZ. clear Nx Ny. inversion A as [|b1 z1 t1 l1 I A']; subst. clear A A'.
  unfold ppot in H. rewrite <- D in H. unfold raw1 in H. rewrite flat_map_app in H. fold (raw1 (firstn k (tau1 s))) in H.
  rewrite <- !app_assoc, (app_assoc h), skipn_len in H by (rewrite app_length, raw1_length, Lk, Lh; lia).
  cbn [flat_map] in H. rewrite <- !app_assoc in H.
  destruct I as [[J1 [J2 _]]|[J1 [_ J3]]].
  - assert (Q : compressed (g1r x) = compressed b1).
    { apply (f_equal (firstn 1)) in H. pose proof (g1r_len E x) as G. destruct (g1r x) as [|c1 u]; [discriminate G|].
      destruct b1 as [|c2 u2]; [discriminate J1|]. cbn in H. injection H as ->. reflexivity. }
    rewrite g1r_flag, J2 in Q. discriminate Q.
  - rewrite (app_assoc (g1r x)) in H.
    assert (Q : g1r x ++ g1r y = b1).
    { assert (LQ : length (g1r x ++ g1r y) = 128) by (rewrite app_length, !g1r_len; reflexivity).
      match type of H with ?c ++ ?v = b1 ++ ?w => rewrite <- (firstn_exact c v 128 LQ), <- (firstn_exact b1 w 128 J1); now rewrite H end. }
    congruence.
Qed.
(* input powers from 55 on: the offsets leave the 64-bit integers *)
Lemma section_neg (dec : io E) enc pos sz s s' d : (pos < 0)%Z -> ~ ev (transform_section dec enc pos sz) s (Ok tt) s' d.
Proof.
  intros L H. unfold transform_section in H. apply bind_ok_inv in H as [[] [s1 [d1 [d2 [H1 _]]]]].
  destruct H1 as [v [R _]]. unfold seek in R. cbn [run] in R. rewrite (proj2 (Z.ltb_lt _ _) L) in R. discriminate R.
Qed.
Lemma transform_negative a b f g : 55 <= a <= 57 ->
  exists e, fst (exec (transform (E := E) (b8 (N.of_nat a)) b) f g) = Err e.
Proof.
  intros Ha. apply transform_not_ok. intros O X. apply exec_ev in X as [s' [D [H _]]]. unfold transform in H. cbv zeta in H.
  unfold transformG1, transformG2 in H.
  apply bind_ok_inv in H as [[] [s0 [d0 [e0 [_ [H _]]]]]]. apply bind_ok_inv in H as [[] [s1 [d1 [e1 [_ [H _]]]]]].
  apply bind_ok_inv in H as [[] [s2 [d2 [e2 [H2 [H _]]]]]]. apply bind_ok_inv in H as [[] [s3 [d3 [e3 [H3 [H _]]]]]].
  apply bind_ok_inv in H as [[] [s4 [d4 [e4 [H4 _]]]]].
  assert (a = 55 \/ a = 56 \/ a = 57) as [->|[->| ->]] by lia.
  - refine (section_neg _ _ _ _ _ _ _ _ H2). vm_compute. reflexivity.
  - refine (section_neg _ _ _ _ _ _ _ _ H4). vm_compute. reflexivity.
  - refine (section_neg _ _ _ _ _ _ _ _ H3). vm_compute. reflexivity.
Qed.
Lemma wrapped_pos a : 58 <= a <= 255 -> let n := pow2 (b8 (N.of_nat a)) in
  wrap64 (64 + wrap64 (2 * n - 1) * 64) = 0%Z /\ wrap64 (0 + n * 128) = 0%Z /\ wrap64 (0 + n * 64) = 0%Z.
Proof.
  intros Ha n. assert (n = (2 ^ 58)%Z \/ n = (2 ^ 59)%Z \/ n = (2 ^ 60)%Z \/ n = (2 ^ 61)%Z \/ n = (2 ^ 62)%Z \/ n = (- two63)%Z) as K.
  { unfold n, pow2. rewrite bN_small by lia. destruct (N.ltb_spec (N.of_nat a) 63) as [L|L]; [|repeat (first [reflexivity|right])].
    assert (a = 58 \/ a = 59 \/ a = 60 \/ a = 61 \/ a = 62) as [->|[->|[->|[->| ->]]]] by lia; vm_compute; tauto. }
  destruct K as [->|[->|[->|[->|[->| ->]]]]]; vm_compute; auto.
Qed.
Lemma trans_wrapped a pb b n1 n2 : 58 <= a <= 255 -> pb = b8 (N.of_nat b) ->
  Z.to_nat (wrap64 (2 * pow2 pb - 1)) = n1 -> Z.to_nat (pow2 pb) = n2 ->
  transform (E := E) (b8 (N.of_nat a)) pb =
  (write_header 0 (b8 (N.of_nat b)) 0 ;;; transformG1 (E := E) (Z.of_nat 64) (Z.of_nat n1) ;;;
      transformG1 (E := E) (Z.of_nat 0) (Z.of_nat n2) ;;; transformG1 (E := E) (Z.of_nat 0) (Z.of_nat n2) ;;;
      transformG2 (E := E) (Z.of_nat 0) (Z.of_nat n2) ;;; transformG2 (E := E) (Z.of_nat 0) (Z.of_nat 1)).
Proof.
  intros Ha -> C1 C2. destruct (wrapped_pos a Ha) as [W1 [W2 W3]]. unfold transform. cbv zeta. rewrite W1, W2, W3, W3.
  unfold transformG1, transformG2.
  rewrite (section_size _ _ _ (wrap64 (2 * pow2 (b8 (N.of_nat b)) - 1))), C1.
  rewrite !(section_size _ _ _ (pow2 (b8 (N.of_nat b)))), C2. reflexivity.
Qed.
Lemma transform_wrapped a b f g (O : bytes) : 58 <= a <= 255 -> b <= 62 ->
  (exec (transform (E := E) (b8 (N.of_nat a)) (b8 (N.of_nat b))) f g = (Ok tt, O) <->
   exists s : srs E, sized b s /\ start_holds f s /\ O = file1 b s []).
Proof.
  intros Ha Hb. assert (Eb : pow2 (b8 (N.of_nat b)) = Z.of_nat (2 ^ b)) by (apply pow2_small; lia).
  rewrite (trans_wrapped a _ b (2 * 2 ^ b - 1) (2 ^ b)); [apply sections_at|assumption|reflexivity| |].
  - rewrite (count_tau b) by lia. lia.
  - rewrite Eb. lia.
Qed.
Lemma transform_wrapped_big a b f g (O : bytes) : 58 <= a <= 255 -> 63 <= b <= 255 ->
  (exec (transform (E := E) (b8 (N.of_nat a)) (b8 (N.of_nat b))) f g = (Ok tt, O) <->
   exists y : E, at2 f 0 [y] /\ O = b8 (N.of_nat b) :: be16 0 ++ g2c y).
Proof.
  intros Ha Hb. assert (Eb : pow2 (b8 (N.of_nat b)) = (- two63)%Z).
  { unfold pow2. rewrite bN_small by lia. destruct (N.ltb_spec (N.of_nat b) 63); [lia|reflexivity]. }
  rewrite (trans_wrapped a _ b 0 0); [|assumption|reflexivity|now rewrite Eb|now rewrite Eb]. rewrite sections_at. split.
  - intros [s [[L1 [L2 [L3 L4]]] [H ->]]]. exists (beta2 s). split; [apply H|].
    apply length_zero_iff_nil in L1, L2, L3, L4. unfold file1, srs_bytes, recs_bytes, hdr1. rewrite L1, L2, L3, L4. cbn. now rewrite app_nil_r.
  - intros [y [H ->]]. exists (mkSrs [] [] [] [] y). split; [repeat split|]. split.
    + unfold at1, at2. cbn [tau1 alpha1 beta1 tau2 beta2].
      repeat split; try exact H; eexists [], _; (split; [reflexivity|constructor]).
    + unfold file1, srs_bytes, recs_bytes, hdr1. cbn. now rewrite app_nil_r.
Qed.
End Trans2.
