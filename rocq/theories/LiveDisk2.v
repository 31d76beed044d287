(* LiveDisk2.v -- Transform and the key extraction on a disk of limited size. *)
From Coq Require String.
From Verif Require Import Base Fld Conc Parallel IO Ext Spec1 Phase1 Gob Circuit Spec2 Phase2 Spec3 Fs Init2 Spec4 Keys Phase1Io
  Phase1Verify Live LiveLemmas Sok LiveFail SokPrograms LiveCmd LiveClaims LiveMore Spec5 LiveProps LiveDisk.
Local Open Scope io_scope.

Lemma sok_chunks {X} st cap (Q : X -> Prop) (q : io X) : sok st (small0 cap) Q q -> forall s,
  Forall (fun d => d <= cap) (chunks (snd (run q s))).
Proof.
  induction q as [a|e| |h k c IH|h z c IH|h n c IH|h n c IH|o n c IH|o c IH|o d c IH]; intros A s; cbn [sok run snd] in *; try contradiction; try constructor.
  - pose proof (rd_read_len k (getr h s)) as LN. destruct (rd_read k (getr h s)) as [x r]. apply IH. now apply A.
  - destruct (z <? 0)%Z; apply IH; auto.
  - apply IH, A.
  - apply IH, A.
  - destruct A as [[-> L] [_ A]]. specialize (IH true (A true) s). destruct (run (c true) s) as [[r1 s1] W1]. cbn [snd] in *.
    change (chunks ((0, d) :: W1)) with (length d :: chunks W1). now constructor.
Qed.

(* lengths of the buffered parts of an output, the writer being flushed after each part *)
Fixpoint fits (C u : nat) (l : list nat) : bool :=
  match l with
  | [] => true
  | x :: l => (u + fl defBuf x <=? C) && fits C (Nat.min C (u + x)) l
  end.
Lemma fits_app C : forall l1 l2 u, u <= C -> fits C u (l1 ++ l2) = fits C u l1 && fits C (Nat.min C (u + list_sum l1)) l2.
Proof.
  induction l1 as [|x l1 IH]; intros l2 u U; cbn [app fits list_sum fold_right andb]; [now replace (Nat.min C (u + 0)) with u by lia|].
  rewrite IH by lia. rewrite Bool.andb_assoc. do 2 f_equal. unfold list_sum. lia.
Qed.

Section Parts.
Variables (C : nat) (p : string).
Definition parts (l : list nat) (q : io unit) : Prop :=
  (forall s s' W, run q s = (Ok tt, s', W) -> length (out 0 W) = list_sum l) /\
  forall hs w F s' W,
  apart p hs -> w_used w <= C -> w_fs w p = Some F -> run q (abss (w_fs w) hs) = (Ok tt, s', W) ->
  (fits C (w_used w) l = true -> exists hs' w', lrun (disk C) q hs w = (Ok tt, hs', w') /\
     w_fs w' p = Some (F ++ firstn (C - w_used w) (out 0 W)) /\ w_used w' = Nat.min C (w_used w + length (out 0 W)) /\
     apart p hs' /\ abss (w_fs w') hs' = s') /\
  (fits C (w_used w) l = false -> exists e hs' w', lrun (disk C) q hs w = (Err e, hs', w') /\
     w_fs w' p = Some (F ++ firstn (C - w_used w) (out 0 W)) /\ C - w_used w < length (out 0 W)).
Lemma parts_bind l1 l2 (q1 q2 : io unit) : parts l1 q1 -> parts l2 q2 -> parts (l1 ++ l2) (q1 ;;; q2).
Proof.
  intros [S1 P1] [S2 P2]. split.
  { intros s s' W R. rewrite run_bind in R. destruct (run q1 s) as [[r1 s1] W1] eqn:R1. destruct r1 as [[]|e|]; try discriminate.
    destruct (run q2 s1) as [[r2 s2] W2] eqn:R2. injection R as -> <- <-. rewrite out_app, app_length, list_sum_app.
    now rewrite (S1 _ _ _ R1), (S2 _ _ _ R2). }
  intros hs w F s' W AP U HF R. rewrite run_bind in R. rewrite lrun_bind.
  destruct (run q1 (abss (w_fs w) hs)) as [[r1 s1] W1] eqn:R1. destruct r1 as [[]|e|]; try discriminate.
  destruct (run q2 s1) as [[r2 s2] W2] eqn:R2. injection R as -> <- <-. pose proof (S1 _ _ _ R1) as L1. pose proof (S2 _ _ _ R2) as L2.
  destruct (P1 hs w F s1 W1 AP U HF R1) as [A1 B1]. rewrite fits_app by exact U. rewrite out_app, app_length.
  destruct (fits C (w_used w) l1) eqn:F1.
  - destruct (A1 eq_refl) as [hs1 [w1 [E1 [G1 [U1 [AP1 AB1]]]]]]. rewrite E1. rewrite <- AB1 in R2.
    destruct (P2 hs1 w1 _ s2 W2 AP1 ltac:(lia) G1 R2) as [A2 B2]. rewrite U1, L1 in *. cbn [andb].
    assert (EF : (F ++ firstn (C - w_used w) (out 0 W1)) ++ firstn (C - Nat.min C (w_used w + list_sum l1)) (out 0 W2) =
      F ++ firstn (C - w_used w) (out 0 W1 ++ out 0 W2)).
    { rewrite <- app_assoc. f_equal. rewrite firstn_app, L1. do 2 f_equal. lia. }
    rewrite EF in *. split.
    + intros Q. destruct (A2 Q) as [hs' [w' [E2 [G2 [U2 [AP2 AB2]]]]]]. exists hs', w'. split; [exact E2|]. split; [exact G2|]. split; [lia|]. auto.
    + intros Q. destruct (B2 Q) as [e [hs' [w' [E2 [G2 U2]]]]]. exists e, hs', w'. split; [exact E2|]. split; [exact G2|lia].
  - split; [discriminate|]. intros _. destruct (B1 eq_refl) as [e [hs1 [w1 [E1 [G1 U1]]]]]. rewrite E1. exists e, hs1, w1.
    split; [reflexivity|]. rewrite firstn_longer by lia. split; [exact G1|lia].
Qed.
(* one part: a program that returns its errors, behind a writer *)
Lemma parts_one n (q : io unit) : sok true (small0 defBuf) any q ->
  (forall s s' W, run q s = (Ok tt, s', W) -> length (out 0 W) = n) ->
  parts [n] (NewWr 0 defBuf (with_flush 0 q)).
Proof.
  intros A N. split.
  { intros s s' W R. cbn [run] in R. rewrite run_with_flush in R. rewrite (N _ _ _ R). unfold list_sum. cbn [fold_right]. lia. }
  intros hs w F s' W AP U HF R. cbn [run] in R. rewrite run_with_flush in R.
  assert (A0 : sok true only0 any q) by (eapply sok_mono; [exact A|apply small0_only0|auto]).
  pose proof (section_strict C defBuf q p hs w F (Ok tt) s' W defBuf_pos U (sok_strictly C defBuf defBuf_pos p F (w_used w) any q A0 [] 0) AP HF R) as [S1 S2].
  pose proof (sok_chunks true defBuf any q A (abss (w_fs w) hs)) as CH. rewrite R in CH. cbn [snd] in CH.
  pose proof (pass_small defBuf defBuf_pos (chunks W) 0 CH) as PS. change (fl defBuf 0) with 0 in PS. rewrite PS, chunks_sum in S1, S2.
  cbn [Nat.add] in S1, S2. rewrite (N _ _ _ R) in *. cbn [fits]. rewrite Bool.andb_true_r. split.
  - intros Q. apply Nat.leb_le in Q. exact (S1 Q).
  - intros Q. apply Nat.leb_gt in Q. destruct (S2 Q) as [e [hs' [w' [E1 [E2 E3]]]]]. exists e, hs', w'. split; [exact E1|]. split; [exact E2|].
    pose proof (fl_le defBuf n defBuf_pos). lia.
Qed.
Lemma parts_rd l h k (q : io unit) : parts l q -> parts l (NewRd h k q).
Proof.
  intros [N P]. split; [intros s s' W R; exact (N _ _ _ R)|].
  intros hs w F s' W AP U HF R. cbn [run] in R. rewrite getr_abss, <- newrd_abs, setr_abss in R.
  change (lrun (disk C) (NewRd h k q) hs w) with (lrun (disk C) q (seti h (mkI (i_path (geti h hs)) (i_pos (geti h hs)) k []) hs) w).
  apply P; [|exact U|exact HF|exact R]. apply apart_seti; [exact AP|intros _; reflexivity|reflexivity].
Qed.
Lemma parts_seek l h z (q : io unit) : parts l q -> parts l (seek h z ;;; q).
Proof.
  intros [N P]. unfold seek. split.
  { intros s s' W R. cbn [bind run] in R. destruct (z <? 0)%Z; [discriminate|]. cbn [run] in R. exact (N _ _ _ R). }
  intros hs w F s' W AP U HF R. cbn [bind run lrun] in *. destruct (z <? 0)%Z; [discriminate|].
  rewrite getr_abss, <- seek_abs, setr_abss in R.
  apply P; [|exact U|exact HF|exact R]. apply apart_seti; [exact AP|intros _; reflexivity|reflexivity].
Qed.
End Parts.

Section T.
Context {E : Ext}.
Lemma loop_len (dec : io E) (enc : E -> bytes) k : sok true nowr any dec -> (forall x, length (enc x) = k) -> forall n s s' W,
  run (transform_loop dec enc 0 n) s = (Ok tt, s', W) -> length (out 0 W) = n * k.
Proof.
  intros D L. induction n as [|n IH]; intros s s' W R; cbn [transform_loop] in R; [injection R as _ <-; reflexivity|].
  rewrite run_bind in R. pose proof (quiet_out true any dec D s 0) as Q. destruct (run dec s) as [[r1 s1] W1]. cbn [snd] in Q.
  destruct r1 as [x|e|]; try discriminate. unfold write in R. cbn [bind run] in R.
  destruct (run (transform_loop dec enc 0 n) s1) as [[r2 s2] W2] eqn:R2. injection R as -> <- <-. rewrite out_app, Q. cbn [app].
  cbn [out flat_map fst snd Nat.eqb]. rewrite app_length, L. apply IH in R2. unfold out in R2. rewrite R2. lia.
Qed.
Lemma parts_section C p (dec : io E) (enc : E -> bytes) k pos size : (forall st P, sok st P any dec) -> (forall x, length (enc x) = k) -> k <= 256 ->
  parts C p [Z.to_nat size * k] (transform_section dec enc pos size).
Proof.
  intros D L K. unfold transform_section. apply parts_seek, parts_rd, parts_one.
  - apply sok_transform_loop; [apply small0_256|apply D|intros x; rewrite L; exact K].
  - intros s s' W. apply loop_len; [apply D|exact L].
Qed.
Definition tr_parts (pout : byte) : list nat :=
  [Z.to_nat (wrap64 (2 * pow2 pout - 1)) * 32; Z.to_nat (pow2 pout) * 32; Z.to_nat (pow2 pout) * 32; Z.to_nat (pow2 pout) * 64; 64].
Lemma transform_parts C p pin pout : exists q, transform (E := E) pin pout = (write_header 0 pout 0 ;;; q) /\ parts C p (tr_parts pout) q.
Proof.
  eexists. split; [reflexivity|]. cbv zeta. unfold tr_parts, transformG1, transformG2.
  assert (D1 : forall st P, sok st P any (decode1 (E := E) false)) by (intros; apply sok_decode1).
  assert (D2 : forall st P, sok st P any (decode2 (E := E) false)) by (intros; apply sok_decode2).
  pose proof (fun pos size => parts_section C p (decode1 false) g1c 32 pos size D1 (g1c_len E) ltac:(lia)) as S1.
  pose proof (fun pos size => parts_section C p (decode2 false) g2c 64 pos size D2 (g2c_len E) ltac:(lia)) as S2.
  apply (parts_bind C p [_] [_; _; _; _]); [apply S1|]. apply (parts_bind C p [_] [_; _; _]); [apply S1|].
  apply (parts_bind C p [_] [_; _]); [apply S1|]. apply (parts_bind C p [_] [_]); [apply S2|]. apply S2.
Qed.
Lemma transform_disk C pin pout ip op f F O : ip <> op -> f ip = Some F ->
  exec (transform (E := E) pin pout) F F = (Ok tt, O) ->
  length O = 3 + list_sum (tr_parts pout) /\
  exists r w', l_transform (E := E) (disk C) pin pout ip op (start f) = (r, w') /\ w_fs w' op = Some (firstn C O) /\
    if (3 <=? C) && fits C 3 (tr_parts pout) then r = Ok tt else exists e, r = Err e.
Proof.
  intros N HF X1. destruct (exec_run _ F F (Ok tt) O X1) as [s' [W [R <-]]].
  change (l_transform (E := E) (disk C) pin pout ip op (start f)) with (l_one (disk C) (transform (E := E) pin pout) ip op (start f)).
  rewrite l_one_open by (reflexivity || congruence). unfold lstage.
  pose proof (apart_fresh ip op N) as AP. pose proof (good_fresh ip op) as G. pose proof (created_ok f op) as HF0.
  assert (NC : o_cap (h_out (fresh ip ip [op]) 0) = 0) by reflexivity. assert (U0 : w_used (created f op) = 0) by reflexivity.
  assert (R' : run (transform (E := E) pin pout) (abss (w_fs (created f op)) (fresh ip ip [op])) = (Ok tt, s', W)).
  { change (w_fs (created f op)) with (fset f op []). rewrite abss_fresh by (auto; congruence). unfold contents. now rewrite HF. }
  clear R HF X1. revert AP G NC HF0 U0 R'. generalize (created f op) as w0, (fresh ip ip [op]) as hs. intros w0 hs AP G NC HF U0 R.
  destruct (transform_parts C op pin pout) as [q [EQ [PL P]]]. rewrite EQ in *. clear EQ.
  rewrite lrun_bind. rewrite run_bind in R.
  assert (SW : sok true only0 any (write_header 0 pout 0)) by (apply sok_write_header; reflexivity).
  set (hd := write_header 0 pout 0) in *. set (s1 := abss (w_fs w0) hs) in *.
  assert (R2 : run hd s1 = (Ok tt, s1, [(0, [pout]); (0, be16 0)])) by reflexivity. rewrite R2 in R.
  destruct (run q s1) as [[r3 s3] W3] eqn:R3. injection R as -> <- EW.
  set (H3 := out 0 [(0, [pout]); (0, be16 0)]) in *.
  assert (LH : length H3 = 3) by reflexivity.
  assert (EO : out 0 W = H3 ++ out 0 W3) by (rewrite <- EW; reflexivity). rewrite EO, app_length, LH, (PL _ _ _ R3). split; [reflexivity|].
  destruct (unbuffered_full C any hd op SW hs w0 [] _ _ _ AP G NC HF R2) as [D2 D3].
  fold H3 in D2, D3. rewrite LH, U0, Nat.sub_0_r in D2, D3. cbn [app Nat.add] in D2, D3.
  destruct (Nat.leb_spec 3 C) as [Q|Q].
  - destruct (D2 Q) as [hs2 [w2 [L2 [F2 [AP2 [AB2 [HO2 U2]]]]]]]. rewrite L2. rewrite <- AB2 in R3.
    destruct (P hs2 w2 H3 s3 W3 AP2 ltac:(lia) F2 R3) as [A B]. rewrite U2 in *. cbn [andb].
    assert (EF : H3 ++ firstn (C - 3) (out 0 W3) = firstn C (H3 ++ out 0 W3)).
    { rewrite firstn_app, LH, (@firstn_all2 _ _ H3) by lia. reflexivity. }
    rewrite EF in *. destruct (fits C 3 (tr_parts pout)).
    + destruct (A eq_refl) as [hs' [w' [L3 [F3 _]]]]. rewrite L3. exists (Ok tt), w'. auto.
    + destruct (B eq_refl) as [e [hs' [w' [L3 [F3 _]]]]]. rewrite L3. exists (Err e), w'. eauto.
  - destruct (D3 Q) as [e [hs2 [w2 [L2 F2]]]]. rewrite L2. exists (Err e), w2. split; [reflexivity|]. rewrite F2.
    split; [rewrite firstn_longer by lia; reflexivity|]. cbn [andb]. eauto.
Qed.
End T.

Lemma fl_zero x : x <= defBuf -> fl defBuf x = 0.
Proof. intros H. destruct (Nat.eq_dec x 0) as [->|Z]; [reflexivity|]. rewrite (fl_unique defBuf x 0 defBuf_pos); lia. Qed.
Lemma fits_small C : forall l u, Forall (fun x => x <= defBuf) l -> u <= C -> fits C u l = true.
Proof.
  induction l as [|x l IH]; intros u H U; [reflexivity|]. apply Forall_cons_iff in H as [L H]. cbn [fits].
  rewrite fl_zero, Nat.add_0_r, (proj2 (Nat.leb_le u C)) by assumption. apply IH; [exact H|lia].
Qed.
Lemma tr_parts_small pout : (bN pout <= 6)%N \/ (63 <= bN pout)%N -> Forall (fun x => x <= defBuf) (tr_parts pout).
Proof.
  intros H. unfold tr_parts, pow2. rewrite defBuf_N. destruct (N.ltb_spec (bN pout) 63) as [L|L].
  - assert (Q : (bN pout <= 6)%N) by lia. assert (B : (2 ^ Z.of_N (bN pout) <= 2 ^ 6)%Z) by (apply Z.pow_le_mono_r; lia).
    assert (P : (0 < 2 ^ Z.of_N (bN pout))%Z) by (apply Z.pow_pos_nonneg; lia).
    change (2 ^ 6)%Z with 64%Z in B. set (n := (2 ^ Z.of_N (bN pout))%Z) in *.
    rewrite wrap64_small by (unfold two63; lia). repeat (apply Forall_cons; [lia|]). apply Forall_nil.
  - change (wrap64 (2 * - two63 - 1)) with (-1)%Z. repeat (apply Forall_cons; [unfold two63; lia|]). apply Forall_nil.
Qed.
Lemma tr_parts_big pout : (6 < bN pout < 63)%N -> exists m : Z, (2 <= m)%Z /\
  tr_parts pout = map Z.to_nat [4096 * m - 32; 2048 * m; 2048 * m; 4096 * m; 64]%Z.
Proof.
  intros H. exists (2 ^ (Z.of_N (bN pout) - 6))%Z.
  assert (B : (2 ^ 1 <= 2 ^ (Z.of_N (bN pout) - 6))%Z) by (apply Z.pow_le_mono_r; lia). split; [exact B|].
  assert (B2 : (2 ^ (Z.of_N (bN pout) - 6) <= 2 ^ 56)%Z) by (apply Z.pow_le_mono_r; lia).
  unfold tr_parts, pow2. destruct (N.ltb_spec (bN pout) 63); [|lia].
  assert (P : (2 ^ Z.of_N (bN pout) = 64 * 2 ^ (Z.of_N (bN pout) - 6))%Z).
  { change 64%Z with (2 ^ 6)%Z. rewrite <- Z.pow_add_r by lia. f_equal. lia. }
  rewrite P. set (m := (2 ^ (Z.of_N (bN pout) - 6))%Z) in *. change (2 ^ 1)%Z with 2%Z in B. change (2 ^ 56)%Z with 72057594037927936%Z in B2.
  rewrite wrap64_small by (unfold two63; lia). cbn [map]. repeat (apply f_equal2; [lia|]). reflexivity.
Qed.
Lemma fits_big C m : (2 <= m)%Z -> 3 <= C -> let l := map Z.to_nat [4096 * m - 32; 2048 * m; 2048 * m; 4096 * m; 64]%Z in
  fits C 3 l = (Z.of_nat (3 + list_sum l) <=? Z.of_nat C + 4160)%Z.
Proof.
  intros M C3. cbn [map fits list_sum fold_right]. cbv zeta.
  pose proof (fl_le defBuf (Z.to_nat (4096 * m - 32)) defBuf_pos) as F1.
  pose proof (fl_le defBuf (Z.to_nat (2048 * m)) defBuf_pos) as F2.
  assert (F4 : Z.of_nat (fl defBuf (Z.to_nat (4096 * m))) = (4096 * (m - 1))%Z).
  { rewrite (fl_unique defBuf _ (Z.to_nat (m - 1)) defBuf_pos).
    - rewrite Nat2Z.inj_mul, Z2Nat.id, defBuf_N by lia. lia.
    - apply conj; apply Nat2Z.inj_lt || apply Nat2Z.inj_le; rewrite ?Nat2Z.inj_add, ?Nat2Z.inj_mul, !Z2Nat.id, defBuf_N by lia; lia. }
  rewrite (fl_zero (Z.to_nat 64)) by (rewrite defBuf_N; lia).
  set (a := fl defBuf (Z.to_nat (4096 * m - 32))) in *. set (b := fl defBuf (Z.to_nat (2048 * m))) in *.
  set (d := fl defBuf (Z.to_nat (4096 * m))) in *.
  apply Bool.eq_iff_eq_true. rewrite !Bool.andb_true_iff, !Nat.leb_le, Z.leb_le. lia.
Qed.
Lemma c51_transform {E : Ext} pin pout ip op f F O C : ip <> op -> f ip = Some F ->
  exec (transform (E := E) pin pout) F F = (Ok tt, O) ->
  let c := l_transform (E := E) (disk C) pin pout ip op in
  after c f op = Some (firstn C O) /\
  ((bN pout <= 6)%N \/ (63 <= bN pout)%N ->
     (3 <= C -> result_of c f = Ok tt) /\ (C < 3 -> exists e, result_of c f = Err e)) /\
  ((6 < bN pout < 63)%N ->
     ((N.of_nat (length O) <= N.of_nat C + 4160)%N -> result_of c f = Ok tt) /\
     ((N.of_nat C + 4160 < N.of_nat (length O))%N -> exists e, result_of c f = Err e)).
Proof.
  intros N HF X c. destruct (transform_disk C pin pout ip op f F O N HF X) as [L [r [w' [R [A B]]]]].
  unfold c, result_of, after. rewrite R. cbn [fst snd]. split; [exact A|]. split.
  - intros S. pose proof (tr_parts_small pout S) as TS. destruct (Nat.leb_spec 3 C) as [Q|Q]; cbn [andb] in B.
    + rewrite (fits_small C (tr_parts pout) 3 TS Q) in B. split; [auto|lia].
    + split; [lia|auto].
  - intros S. destruct (tr_parts_big pout S) as [m [M TS]]. rewrite TS in *. destruct (Nat.leb_spec 3 C) as [Q|Q]; cbn [andb] in B.
    + rewrite (fits_big C m M Q) in B. rewrite <- L in B. destruct (Z.leb_spec (Z.of_nat (length O)) (Z.of_nat C + 4160)) as [K|K].
      * split; [auto|lia].
      * split; [lia|auto].
    + split; [|auto]. intros K. exfalso. rewrite L in K. unfold list_sum in K. cbn [map fold_right] in K. lia.
Qed.
Lemma c51_transform_refuted {E : Ext} pin pout ip op f F O : ip <> op -> f ip = Some F ->
  exec (transform (E := E) pin pout) F F = (Ok tt, O) -> 3 < length O ->
  exists C, C < length O /\ result_of (l_transform (E := E) (disk C) pin pout ip op) f = Ok tt /\
    after (l_transform (E := E) (disk C) pin pout ip op) f op <> Some O.
Proof.
  intros N HF X L. exists (length O - 1). split; [lia|].
  destruct (c51_transform pin pout ip op f F O (length O - 1) N HF X) as [A [B D]]. split.
  - destruct (N.leb_spec (bN pout) 6); [apply B; [auto|lia]|]. destruct (N.leb_spec 63 (bN pout)); [apply B; [auto|lia]|].
    apply D; lia.
  - rewrite A. intros Q. injection Q as Q. apply (f_equal (@length _)) in Q. rewrite firstn_length in Q. lia.
Qed.
