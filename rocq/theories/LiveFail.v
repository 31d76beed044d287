(* LiveFail.v -- failing writes: with any device the output is cut off somewhere; with a disk of
   limited size one can say where, and whether the program notices. *)
From Coq Require String.
From Verif Require Import Base IO Fs Phase1Io Live LiveLemmas Sok.
Local Open Scope io_scope.

(* inputs apart from the file p, output 0 on p *)
Definition apart (p : string) (hs : handles) : Prop :=
  isok hs /\ i_path (h_a hs) <> p /\ i_path (h_b hs) <> p /\ paths hs 0 = Some p.
Definition only0 : nat -> bytes -> Prop := fun o _ => o = 0.

Lemma apart_seti p h i hs : apart p hs -> iok i -> i_path i = i_path (geti h hs) -> apart p (seti h i hs).
Proof.
  intros [A [B [C D]]] I P. split; [now apply isok_set|]. rewrite paths_seti.
  destruct h; cbn in *; rewrite ?P; auto.
Qed.
Lemma apart_seto p x hs : apart p hs -> o_path x = Some p -> apart p (seto 0 x hs).
Proof. intros [A [B [C D]]] P. split; [exact A|]. split; [exact B|]. split; [exact C|]. unfold paths. now rewrite h_out_seto. Qed.
Lemma abss_other p f g hs : apart p hs -> (forall q, q <> p -> f q = g q) -> abss f hs = abss g hs.
Proof. intros [_ [B [C _]]] H. unfold abss. f_equal; apply absr_ext; now apply H. Qed.

Section AnyDevice.
Variable dev : device.

(* a writer that has failed *)
Lemma bad_frozen {X} st (Q : X -> Prop) (q : io X) : sok st only0 Q q -> forall hs w,
  o_cap (h_out hs 0) <> 0 -> o_bad (h_out hs 0) = true ->
  let '(_, hs', w') := lrun dev q hs w in w' = w /\ h_out hs' 0 = h_out hs 0.
Proof.
  induction q as [a|e| |h k c IH|h z c IH|h n c IH|h n c IH|o n c IH|o c IH|o d c IH]; intros A hs w NC B; cbn [sok lrun] in *; try contradiction; auto.
  - destruct (l_read k (w_fs w) (geti h hs)) as [x i] eqn:L.
    assert (H : sok st only0 Q (c x)).
    { apply A. intros b ->. eapply l_read_len. now rewrite L. }
    specialize (IH x H (seti h i hs) w). rewrite h_out_seti in IH. exact (IH NC B).
  - destruct (z <? 0)%Z; [apply IH; auto|]. match goal with |- context [lrun dev (c true) ?s w] => specialize (IH true (A true) s w) end.
    rewrite h_out_seti in IH. exact (IH NC B).
  - match goal with |- context [lrun dev c ?s w] => specialize (IH A s w) end. rewrite h_out_seti in IH. exact (IH NC B).
  - match goal with |- context [lrun dev c ?s w] => specialize (IH A s w) end. rewrite h_out_seti in IH. exact (IH NC B).
  - destruct A as [O0 [_ A]]; red in O0; subst o. unfold h_write. destruct (o_cap (h_out hs 0)) eqn:K; [congruence|]. unfold bw_write. rewrite B.
    specialize (IH false (A false) (seto 0 (h_out hs 0) hs) w). rewrite h_out_seto, Nat.eqb_refl, K in IH. exact (IH NC B).
Qed.
Lemma bad_flush x w : o_bad x = true -> snd (h_flush dev x w) = w.
Proof. intros B. unfold h_flush. destruct (o_cap x); [reflexivity|]. unfold bw_flush. now rewrite B. Qed.

(* buffered output: as long as no write fails the program does what [run] says; after that the file
   stays as it is *)
Lemma buffered_prefix {X} st (Q : X -> Prop) (q : io X) p : sok st only0 Q q -> forall hs w F r s' W,
  apart p hs -> ogood (h_out hs 0) -> o_cap (h_out hs 0) <> 0 -> w_fs w p = Some F ->
  run q (abss (w_fs w) hs) = (r, s', W) ->
  exists r' hs' w' n, lrun dev q hs w = (r', hs', w') /\
    w_fs w' p = Some (F ++ firstn n (o_buf (h_out hs 0) ++ out 0 W)) /\ paths hs' 0 = Some p /\
    ((r' = r /\ ogood (h_out hs' 0) /\ o_buf (h_out hs' 0) = skipn n (o_buf (h_out hs 0) ++ out 0 W) /\
      apart p hs' /\ abss (w_fs w') hs' = s') \/
     (o_bad (h_out hs' 0) = true /\ (st = true -> exists e, r' = Err e))) /\
    o_cap (h_out hs' 0) <> 0.
Proof.
  induction q as [a|e| |h k c IH|h z c IH|h n c IH|h n c IH|o n c IH|o c IH|o d c IH]; intros A hs w F r s' W AP G NC HF R; cbn [sok run lrun] in *; try contradiction.
  - injection R as <- <- <-. exists (Ok a), hs, w, 0. cbn. rewrite !app_nil_r. split; [auto|]. split; [auto|]. split; [apply AP|]. split; [|auto]. left; auto 10.
  - injection R as <- <- <-. exists (Err e), hs, w, 0. cbn. rewrite !app_nil_r. split; [auto|]. split; [auto|]. split; [apply AP|]. split; [|auto]. left; auto 10.
  - injection R as <- <- <-. exists Panic, hs, w, 0. cbn. rewrite !app_nil_r. split; [auto|]. split; [auto|]. split; [apply AP|]. split; [|auto]. left; auto 10.
  - pose proof (proj1 AP) as IS. pose proof (isok_get h hs IS) as IK.
    rewrite getr_abss, (l_read_abs k (w_fs w) (geti h hs) IK) in R.
    pose proof (l_read_ok k (w_fs w) (geti h hs) IK) as OK.
    pose proof (l_read_path k (w_fs w) (geti h hs)) as PA.
    pose proof (rd_read_len k (absr (w_fs w) (geti h hs))) as LN. rewrite l_read_abs in LN by exact IK.
    destruct (l_read k (w_fs w) (geti h hs)) as [x i]. cbn [fst snd] in *. rewrite setr_abss in R.
    specialize (IH x (A x LN) (seti h i hs) w F r s' W). rewrite h_out_seti in IH. apply IH; auto. now apply apart_seti.
  - destruct (z <? 0)%Z; [exact (IH false (A false) hs w F r s' W AP G NC HF R)|].
    rewrite getr_abss, <- seek_abs, setr_abss in R.
    match type of R with run _ (abss _ ?H) = _ => specialize (IH true (A true) H w F r s' W); rewrite h_out_seti in IH end.
    apply IH; auto. apply apart_seti; [exact AP|intros _; reflexivity|reflexivity].
  - rewrite getr_abss, <- fwd_abs, setr_abss in R.
    match type of R with run _ (abss _ ?H) = _ => specialize (IH A H w F r s' W); rewrite h_out_seti in IH end.
    apply IH; auto. apply apart_seti; [exact AP|intros _; reflexivity|reflexivity].
  - rewrite getr_abss, <- newrd_abs, setr_abss in R.
    match type of R with run _ (abss _ ?H) = _ => specialize (IH A H w F r s' W); rewrite h_out_seti in IH end.
    apply IH; auto. apply apart_seti; [exact AP|intros _; reflexivity|reflexivity].
  - destruct A as [O0 [TH A]]; red in O0; subst o. destruct (run (c true) (abss (w_fs w) hs)) as [[r1 s1] W1] eqn:R1. injection R as <- <- <-.
    assert (K : paths hs 0 = Some p) by apply AP.
    pose proof (h_write_moved dev p F d (h_out hs 0) w K HF G) as M.
    destruct (h_write dev d (h_out hs 0) w) as [[ok x'] w1]. destruct M as [n [A1 [A2 [A3 [A4 [A5 [A6 [A7 A8]]]]]]]].
    unfold out. cbn [flat_map fst snd Nat.eqb]. fold (out 0 W1). rewrite app_assoc. set (L := o_buf (h_out hs 0) ++ d) in *.
    destruct ok.
    + destruct (A7 eq_refl) as [B1 B2]. assert (P' : o_path x' = Some p) by (rewrite A5; exact K).
      rewrite <- (abss_other p (w_fs w1) (w_fs w) hs AP A4) in R1.
      destruct (IH true (A true) (seto 0 x' hs) w1 (F ++ firstn n L) r1 s1 W1) as [r' [hs' [w' [n' [L1 [L2 [L3 [L4 L5]]]]]]]].
      * now apply apart_seto.
      * exact B2.
      * cbn. congruence.
      * exact A2.
      * exact R1.
      * exists r', hs', w', (n + n'). split; [exact L1|]. rewrite h_out_seto, Nat.eqb_refl, B1 in L2, L4.
        assert (FS : firstn (n + n') (L ++ out 0 W1) = firstn n L ++ firstn n' (skipn n L ++ out 0 W1)).
        { rewrite <- (firstn_skipn n L) at 1. rewrite <- app_assoc, firstn_app, firstn_length.
          rewrite (@firstn_all2 _ _ (firstn n L)) by (rewrite firstn_length; lia). f_equal. f_equal. lia. }
        assert (SS : skipn (n + n') (L ++ out 0 W1) = skipn n' (skipn n L ++ out 0 W1)).
        { rewrite <- (firstn_skipn n L) at 1. rewrite <- app_assoc, skipn_app, firstn_length.
          rewrite (@skipn_all2 _ _ (firstn n L)) by (rewrite firstn_length; lia). cbn [app]. f_equal. lia. }
        split; [rewrite L2, FS, app_assoc; reflexivity|]. split; [exact L3|]. split; [|exact L5].
        destruct L4 as [[E1 [E2 [E3 E4]]]|E]; [|now right]. left. split; [exact E1|]. split; [exact E2|]. split; [|exact E4]. now rewrite E3, SS.
    + destruct (A8 eq_refl) as [B1 B2]. specialize (B2 NC).
      pose proof (bad_frozen st Q (c false) (A false) (seto 0 x' hs) w1) as BF. rewrite h_out_seto, Nat.eqb_refl, A6 in BF. specialize (BF NC B2).
      pose proof (lrun_grow dev (c false) (seto 0 x' hs) w1) as GR.
      assert (TE : st = true -> exists e, fst (fst (lrun dev (c false) (seto 0 x' hs) w1)) = Err e) by (intros S; destruct (TH S) as [e ->]; cbn; eauto).
      destruct (lrun dev (c false) (seto 0 x' hs) w1) as [[r' hs'] w']. cbn [fst] in TE. destruct BF as [-> BF]. destruct GR as [_ GP].
      exists r', hs', w1, n. split; [reflexivity|]. split.
      { rewrite A2, firstn_app. replace (n - length L) with 0 by lia. cbn [firstn]. now rewrite app_nil_r. }
      split; [rewrite GP; unfold paths; rewrite h_out_seto; cbn; rewrite A5; exact K|]. rewrite BF. split; [right; split; [exact B2|exact TE]|]. congruence.
Qed.

(* a whole section with its deferred Flush *)
Lemma section_prefix {X} st (Q : X -> Prop) (q : io X) p cap hs w F r s' W : sok st only0 Q q -> cap <> 0 ->
  apart p hs -> w_fs w p = Some F -> run q (abss (w_fs w) hs) = (r, s', W) ->
  exists r' hs' w' n, lrun dev (NewWr 0 cap (with_flush 0 q)) hs w = (r', hs', w') /\
    w_fs w' p = Some (F ++ firstn n (out 0 W)).
Proof.
  intros A NC AP HF R. cbn [lrun]. rewrite lrun_with_flush.
  set (hs0 := seto 0 _ hs). assert (K : paths hs 0 = Some p) by apply AP.
  destruct (buffered_prefix st Q q p A hs0 w F r s' W) as [r' [hs' [w' [n [L1 [L2 [L3 [L4 L5]]]]]]]];
    [apply apart_seto; [exact AP|exact K]|repeat split; cbn; auto; lia|exact NC|exact HF|exact R|].
  - rewrite L1. change (o_buf (h_out hs0 0)) with (@nil byte) in *. cbn [app] in L2, L4.
    destruct L4 as [[_ [G [B _]]]|[B _]].
    + pose proof (h_flush_moved dev p _ (h_out hs' 0) w' L3 L2 G) as M.
      destruct (h_flush dev (h_out hs' 0) w') as [[ok x] w2]. destruct M as [[n2 [_ [M _]]] _].
      exists r', (seto 0 x hs'), w2, (n + n2). split; [reflexivity|]. rewrite M, B, <- app_assoc. f_equal. f_equal.
      generalize (out 0 W) as O. clear. induction n as [|n IH]; intros O; [reflexivity|].
      destruct O as [|b O]; [cbn; now rewrite firstn_nil|]. cbn. f_equal. apply IH.
    + pose proof (bad_flush (h_out hs' 0) w' B) as M. destruct (h_flush dev (h_out hs' 0) w') as [[ok x] w2]. cbn in M. subst w2.
      exists r', (seto 0 x hs'), w', n. split; [reflexivity|exact L2].
Qed.

(* a result is that of the ideal run *)
Definition honest {X} (p : string) (q : io X) : Prop := forall hs w a hs' w',
  apart p hs -> ogood (h_out hs 0) -> o_cap (h_out hs 0) <> 0 -> w_fs w p <> None ->
  lrun dev q hs w = (Ok a, hs', w') -> exists s' W, run q (abss (w_fs w) hs) = (Ok a, s', W).
Lemma honest_bind {X Y} p (Q : X -> Prop) (q : io X) (f : X -> io Y) :
  sok true only0 Q q -> (forall a, honest p (f a)) -> honest p (bind q f).
Proof.
  intros A H hs w b hs' w' AP G NC HF R. rewrite lrun_bind in R. rewrite run_bind.
  destruct (w_fs w p) as [F|] eqn:EF; [|congruence].
  destruct (run q (abss (w_fs w) hs)) as [[r1 s1] W1] eqn:R1.
  destruct (buffered_prefix true Q q p A hs w F r1 s1 W1 AP G NC EF R1) as [r' [hs1 [w1 [n [L1 [L2 [L3 [L4 L5]]]]]]]].
  rewrite L1 in R. destruct L4 as [[-> [G1 [B1 [AP1 AB]]]]|[_ ER]].
  - destruct r1 as [a|e|]; try discriminate. destruct (H a hs1 w1 b hs' w' AP1 G1 L5) as [s' [W2 R2]]; [rewrite L2; discriminate|exact R|].
    rewrite AB in R2. rewrite R2. eauto.
  - destruct (ER eq_refl) as [e ->]. discriminate.
Qed.
Lemma honest_newrd {X} p h n (q : io X) : honest p q -> honest p (NewRd h n q).
Proof.
  intros H hs w b hs' w' AP G NC HF R. cbn [run lrun] in *. rewrite getr_abss, <- newrd_abs, setr_abss.
  apply H in R; [exact R|apply apart_seti; [exact AP|intros _; reflexivity|reflexivity]| | |exact HF]; now rewrite h_out_seti.
Qed.
Lemma honest_end {X} p (q : io unit) (v : X) :
  (forall s, exists W, run q s = (Ok tt, s, W)) -> honest p (try q ;;; Ret v).
Proof.
  intros H hs w b hs' w' AP G NC HF R. rewrite lrun_bind in R. rewrite run_bind, run_try.
  destruct (H (abss (w_fs w) hs)) as [W R1]. rewrite R1. cbn.
  destruct (lrun dev (try q) hs w) as [[[x|e|] hs1] w1]; try discriminate. cbn in R. injection R as <- _ _. eauto.
Qed.
Lemma section_honest {X} (q : io X) p cap hs w a hs' w' : honest p q -> cap <> 0 ->
  apart p hs -> w_fs w p <> None -> lrun dev (NewWr 0 cap (with_flush 0 q)) hs w = (Ok a, hs', w') ->
  exists s' W, run q (abss (w_fs w) hs) = (Ok a, s', W).
Proof.
  intros H NC AP HF R. cbn [lrun] in R. rewrite lrun_with_flush in R. set (hs0 := seto 0 _ hs) in R.
  assert (K : paths hs 0 = Some p) by apply AP.
  destruct (lrun dev q hs0 w) as [[r1 hs1] w1] eqn:L. destruct (h_flush dev (h_out hs1 0) w1) as [[ok x] w2]. injection R as -> _ _.
  apply (H hs0 w a hs1 w1); [apply apart_seto; [exact AP|exact K]|repeat split; cbn; auto; lia|exact NC|exact HF|exact L].
Qed.

(* unbuffered output whose errors are returned *)
Lemma unbuffered_prefix {X} (Q : X -> Prop) (q : io X) p : sok true only0 Q q -> forall hs w F r s' W,
  apart p hs -> ogood (h_out hs 0) -> o_cap (h_out hs 0) = 0 -> w_fs w p = Some F ->
  run q (abss (w_fs w) hs) = (r, s', W) ->
  exists r' hs' w' n, lrun dev q hs w = (r', hs', w') /\ w_fs w' p = Some (F ++ firstn n (out 0 W)) /\
    ((r' = r /\ n = length (out 0 W) /\ apart p hs' /\ abss (w_fs w') hs' = s' /\ h_out hs' 0 = h_out hs 0) \/
     ((exists e, r' = Err e) /\ n < length (out 0 W))).
Proof.
  induction q as [a|e| |h k c IH|h z c IH|h n c IH|h n c IH|o n c IH|o c IH|o d c IH]; intros A hs w F r s' W AP G NC HF R; cbn [sok run lrun] in *; try contradiction.
  - injection R as <- <- <-. exists (Ok a), hs, w, 0. cbn. rewrite !app_nil_r. auto 10.
  - injection R as <- <- <-. exists (Err e), hs, w, 0. cbn. rewrite !app_nil_r. auto 10.
  - injection R as <- <- <-. exists Panic, hs, w, 0. cbn. rewrite !app_nil_r. auto 10.
  - pose proof (proj1 AP) as IS. pose proof (isok_get h hs IS) as IK.
    rewrite getr_abss, (l_read_abs k (w_fs w) (geti h hs) IK) in R.
    pose proof (l_read_ok k (w_fs w) (geti h hs) IK) as OK.
    pose proof (l_read_path k (w_fs w) (geti h hs)) as PA.
    pose proof (rd_read_len k (absr (w_fs w) (geti h hs))) as LN. rewrite l_read_abs in LN by exact IK.
    destruct (l_read k (w_fs w) (geti h hs)) as [x i]. cbn [fst snd] in *. rewrite setr_abss in R.
    specialize (IH x (A x LN) (seti h i hs) w F r s' W). rewrite h_out_seti in IH. apply IH; auto. now apply apart_seti.
  - destruct (z <? 0)%Z; [exact (IH false (A false) hs w F r s' W AP G NC HF R)|].
    rewrite getr_abss, <- seek_abs, setr_abss in R.
    match type of R with run _ (abss _ ?H) = _ => specialize (IH true (A true) H w F r s' W); rewrite h_out_seti in IH end.
    apply IH; auto. apply apart_seti; [exact AP|intros _; reflexivity|reflexivity].
  - rewrite getr_abss, <- fwd_abs, setr_abss in R.
    match type of R with run _ (abss _ ?H) = _ => specialize (IH A H w F r s' W); rewrite h_out_seti in IH end.
    apply IH; auto. apply apart_seti; [exact AP|intros _; reflexivity|reflexivity].
  - rewrite getr_abss, <- newrd_abs, setr_abss in R.
    match type of R with run _ (abss _ ?H) = _ => specialize (IH A H w F r s' W); rewrite h_out_seti in IH end.
    apply IH; auto. apply apart_seti; [exact AP|intros _; reflexivity|reflexivity].
  - destruct A as [O0 [TH A]]; red in O0; subst o. destruct (run (c true) (abss (w_fs w) hs)) as [[r1 s1] W1] eqn:R1. injection R as <- <- <-.
    assert (K : paths hs 0 = Some p) by apply AP.
    unfold h_write. rewrite NC. destruct (os_write_moved dev p F d w HF) as [n [w1 [WR [N [F1 [U F2]]]]]].
    assert (K' : o_path (h_out hs 0) = Some p) by exact K. rewrite K', WR.
    unfold out. cbn [flat_map fst snd Nat.eqb]. fold (out 0 W1).
    destruct (Nat.eqb_spec n (length d)) as [E|E].
    + rewrite E, firstn_all in F1. rewrite <- (abss_other p (w_fs w1) (w_fs w) hs AP F2) in R1.
      specialize (IH true (A true) (seto 0 (h_out hs 0) hs) w1 (F ++ d) r1 s1 W1). rewrite h_out_seto, Nat.eqb_refl in IH.
      destruct IH as [r' [hs' [w' [n' [L1 [L2 L3]]]]]]; [now apply apart_seto|exact G|exact NC|exact F1|exact R1|].
      exists r', hs', w', (length d + n'). split; [exact L1|]. split.
      { rewrite L2, firstn_app, (@firstn_all2 _ _ d) by lia. replace (length d + n' - length d) with n' by lia. now rewrite app_assoc. }
      rewrite app_length. destruct L3 as [[B1 [B2 [B3 [B4 B5]]]]|[B1 B2]]; [left|right; split; [auto|lia]].
      split; [auto|]. split; [lia|]. auto.
    + destruct (TH eq_refl) as [e ->]. cbn [lrun]. exists (Err e), (seto 0 (h_out hs 0) hs), w1, n. split; [reflexivity|]. split.
      { rewrite F1, firstn_app. replace (n - length d) with 0 by lia. cbn [firstn]. now rewrite app_nil_r. }
      right. split; [eauto|]. rewrite app_length. lia.
Qed.
End AnyDevice.

(* ---- a disk with C bytes left ---- *)
(* bytes that a writer of size cap has passed on after n bytes were written in pieces of at most cap:
   the buffer is emptied only when the next piece does not fit *)
Definition fl (cap n : nat) : nat := if n =? 0 then 0 else cap * ((n - 1) / cap).
Lemma fl_spec cap n : cap <> 0 -> n <> 0 -> fl cap n < n <= fl cap n + cap.
Proof.
  intros C N. unfold fl. destruct (Nat.eqb_spec n 0); [lia|].
  pose proof (Nat.div_mod (n - 1) cap C). pose proof (Nat.mod_upper_bound (n - 1) cap C). lia.
Qed.
Lemma fl_le cap n : cap <> 0 -> fl cap n <= n.
Proof. intros C. destruct (Nat.eq_dec n 0) as [->|N]; [reflexivity|]. pose proof (fl_spec cap n C N). lia. Qed.
Lemma fl_unique cap n j : cap <> 0 -> cap * j < n <= cap * j + cap -> fl cap n = cap * j.
Proof.
  intros C H. unfold fl. destruct (Nat.eqb_spec n 0); [lia|]. f_equal. symmetry.
  apply Nat.div_unique with (r := n - 1 - cap * j); lia.
Qed.
Lemma fl_mult cap n : exists j, fl cap n = cap * j.
Proof. unfold fl. destruct (n =? 0); [exists 0; lia|eauto]. Qed.
Lemma fl_mono cap n m : cap <> 0 -> n <= m -> fl cap n <= fl cap m.
Proof.
  intros C H. unfold fl. destruct (Nat.eqb_spec n 0); [lia|]. destruct (Nat.eqb_spec m 0); [lia|].
  apply Nat.mul_le_mono_l. apply Nat.div_le_mono; lia.
Qed.
Lemma fl_small cap n : cap <> 0 -> n <= cap -> fl cap n = 0.
Proof.
  intros C H. destruct (Nat.eq_dec n 0) as [->|N]; [reflexivity|]. pose proof (fl_unique cap n 0 C). lia.
Qed.
Lemma fl_stay cap n k : cap <> 0 -> n - fl cap n + k <= cap -> fl cap (n + k) = fl cap n.
Proof.
  intros C H. destruct (Nat.eq_dec (n + k) 0) as [Z|Z]; [now replace (n + k) with n by lia|].
  destruct (fl_mult cap n) as [j J]. rewrite J. apply fl_unique; [auto|]. rewrite <- J.
  destruct (Nat.eq_dec n 0) as [->|N]; [cbn; cbn in H; lia|]. pose proof (fl_spec cap n C N). lia.
Qed.
Lemma fl_step cap n k : cap <> 0 -> k <= cap -> cap < n - fl cap n + k -> fl cap (n + k) = fl cap n + cap.
Proof.
  intros C K H. destruct (fl_mult cap n) as [j J]. rewrite J.
  replace (cap * j + cap) with (cap * S j) by lia. apply fl_unique; [auto|].
  destruct (Nat.eq_dec n 0) as [->|N]; [cbn in *; lia|]. pose proof (fl_spec cap n C N). lia.
Qed.

Lemma firstn_longer {X} n (l l' : list X) : n <= length l -> firstn n (l ++ l') = firstn n l.
Proof. intros H. rewrite firstn_app. replace (n - length l) with 0 by lia. cbn. apply app_nil_r. Qed.
Lemma unbuffered_full {X} C (Q : X -> Prop) (q : io X) p : sok true only0 Q q -> forall hs w F r s' W,
  apart p hs -> ogood (h_out hs 0) -> o_cap (h_out hs 0) = 0 -> w_fs w p = Some F ->
  run q (abss (w_fs w) hs) = (r, s', W) ->
  (length (out 0 W) <= C - w_used w ->
   exists hs' w', lrun (disk C) q hs w = (r, hs', w') /\ w_fs w' p = Some (F ++ out 0 W) /\
     apart p hs' /\ abss (w_fs w') hs' = s' /\ h_out hs' 0 = h_out hs 0 /\ w_used w' = w_used w + length (out 0 W)) /\
  (C - w_used w < length (out 0 W) ->
   exists e hs' w', lrun (disk C) q hs w = (Err e, hs', w') /\ w_fs w' p = Some (F ++ firstn (C - w_used w) (out 0 W))).
Proof.
  induction q as [a|e| |h k c IH|h z c IH|h n c IH|h n c IH|o n c IH|o c IH|o d c IH]; intros A hs w F r s' W AP G NC HF R; cbn [sok run lrun] in *; try contradiction.
  - injection R as <- <- <-. cbn [out flat_map length]. split; [|lia]. intros _. exists hs, w. rewrite app_nil_r, Nat.add_0_r. auto 10.
  - injection R as <- <- <-. cbn [out flat_map length]. split; [|lia]. intros _. exists hs, w. rewrite app_nil_r, Nat.add_0_r. auto 10.
  - injection R as <- <- <-. cbn [out flat_map length]. split; [|lia]. intros _. exists hs, w. rewrite app_nil_r, Nat.add_0_r. auto 10.
  - pose proof (proj1 AP) as IS. pose proof (isok_get h hs IS) as IK.
    rewrite getr_abss, (l_read_abs k (w_fs w) (geti h hs) IK) in R.
    pose proof (l_read_ok k (w_fs w) (geti h hs) IK) as OK.
    pose proof (l_read_path k (w_fs w) (geti h hs)) as PA.
    pose proof (rd_read_len k (absr (w_fs w) (geti h hs))) as LN. rewrite l_read_abs in LN by exact IK.
    destruct (l_read k (w_fs w) (geti h hs)) as [x i]. cbn [fst snd] in *. rewrite setr_abss in R.
    specialize (IH x (A x LN) (seti h i hs) w F r s' W). rewrite h_out_seti in IH. apply IH; auto. now apply apart_seti.
  - destruct (z <? 0)%Z; [exact (IH false (A false) hs w F r s' W AP G NC HF R)|].
    rewrite getr_abss, <- seek_abs, setr_abss in R.
    match type of R with run _ (abss _ ?H) = _ => specialize (IH true (A true) H w F r s' W); rewrite h_out_seti in IH end.
    apply IH; auto. apply apart_seti; [exact AP|intros _; reflexivity|reflexivity].
  - rewrite getr_abss, <- fwd_abs, setr_abss in R.
    match type of R with run _ (abss _ ?H) = _ => specialize (IH A H w F r s' W); rewrite h_out_seti in IH end.
    apply IH; auto. apply apart_seti; [exact AP|intros _; reflexivity|reflexivity].
  - rewrite getr_abss, <- newrd_abs, setr_abss in R.
    match type of R with run _ (abss _ ?H) = _ => specialize (IH A H w F r s' W); rewrite h_out_seti in IH end.
    apply IH; auto. apply apart_seti; [exact AP|intros _; reflexivity|reflexivity].
  - destruct A as [O0 [TH A]]; red in O0; subst o. destruct (run (c true) (abss (w_fs w) hs)) as [[r1 s1] W1] eqn:R1. injection R as <- <- <-.
    assert (K : paths hs 0 = Some p) by apply AP.
    unfold h_write. rewrite NC. destruct (os_write_moved (disk C) p F d w HF) as [n [w1 [WR [N [F1 [U F2]]]]]].
    assert (K' : o_path (h_out hs 0) = Some p) by exact K. rewrite K', WR. unfold disk in N; cbn [takes] in N.
    unfold out. cbn [flat_map fst snd Nat.eqb]. fold (out 0 W1). rewrite app_length.
    destruct (Nat.eqb_spec n (length d)) as [E|E].
    + rewrite E, firstn_all in F1. rewrite <- (abss_other p (w_fs w1) (w_fs w) hs AP F2) in R1.
      specialize (IH true (A true) (seto 0 (h_out hs 0) hs) w1 (F ++ d) r1 s1 W1). rewrite h_out_seto, Nat.eqb_refl in IH.
      destruct IH as [I1 I2]; [now apply apart_seto|exact G|exact NC|exact F1|exact R1|]. split.
      * intros Q1. destruct I1 as [hs' [w' [L1 [L2 [L3 [L4 [L5 L6]]]]]]]; [lia|]. exists hs', w'. rewrite app_assoc.
        split; [exact L1|]. split; [exact L2|]. split; [exact L3|]. split; [exact L4|]. split; [exact L5|]. lia.
      * intros Q1. destruct I2 as [e [hs' [w' [L1 L2]]]]; [lia|]. exists e, hs', w'. split; [exact L1|].
        rewrite L2, firstn_app, (@firstn_all2 _ _ d) by lia. rewrite app_assoc. f_equal. f_equal. f_equal. lia.
    + split; [lia|]. intros _. destruct (TH eq_refl) as [e ->]. cbn [lrun].
      exists e, (seto 0 (h_out hs 0) hs), w1. split; [reflexivity|].
      rewrite F1, firstn_longer by lia. f_equal. f_equal. f_equal. lia.
Qed.

Lemma sok_run {X} st P (Q : X -> Prop) (q : io X) : sok st P Q q -> forall s,
  match fst (fst (run q s)) with Ok a => Q a | _ => True end.
Proof.
  induction q as [a|e| |h k c IH|h z c IH|h n c IH|h n c IH|o n c IH|o c IH|o d c IH]; intros A s; cbn [sok run fst] in *; try contradiction; auto.
  - pose proof (rd_read_len k (getr h s)) as LN. destruct (rd_read k (getr h s)) as [x r]. apply IH. now apply A.
  - destruct (z <? 0)%Z; apply IH; auto.
  - apply IH, A.
  - apply IH, A.
  - destruct A as [_ [_ A]]. specialize (IH true (A true) s). destruct (run (c true) s) as [[r1 s1] W1]. exact IH.
Qed.

Lemma quiet_out {X} st (Q : X -> Prop) (q : io X) : sok st nowr Q q -> forall s o, out o (snd (run q s)) = [].
Proof.
  induction q as [a|e| |h k c IH|h z c IH|h n c IH|h n c IH|o n c IH|o c IH|o d c IH]; intros A s o'; cbn [sok run snd] in *; try contradiction; auto.
  - pose proof (rd_read_len k (getr h s)) as LN. destruct (rd_read k (getr h s)) as [x r]. apply IH. now apply A.
  - destruct (z <? 0)%Z; apply IH; auto.
  - destruct A as [[] _].
Qed.

Section Full.
Context (C cap : nat) (capN : cap <> 0) (p : string) (base : bytes) (u0 : nat).
Notation R := (C - u0).
(* L was written to the writer; everything the writer passed on was taken *)
Definition good (L : bytes) (hs : handles) (w : world) : Prop :=
  apart p hs /\ u0 <= C /\ fl cap (length L) <= R /\
  w_fs w p = Some (base ++ firstn (fl cap (length L)) L) /\ w_used w = u0 + fl cap (length L) /\
  h_out hs 0 = mkO (Some p) cap (skipn (fl cap (length L)) L) false.
(* the disk is full and the writer knows *)
Definition full (L : bytes) (hs : handles) (w : world) : Prop :=
  R < length L /\ w_fs w p = Some (base ++ firstn R L) /\ o_cap (h_out hs 0) = cap /\ o_bad (h_out hs 0) = true.

Definition small0 : nat -> bytes -> Prop := fun o d => o = 0 /\ length d <= cap.
Lemma small0_only0 : forall o d, small0 o d -> only0 o d.
Proof. now intros o d []. Qed.

Lemma good_write L hs w d : good L hs w -> length d <= cap ->
  (fl cap (length L + length d) <= R ->
   exists x w', h_write (disk C) d (h_out hs 0) w = (true, x, w') /\ good (L ++ d) (seto 0 x hs) w' /\
     forall q, q <> p -> w_fs w' q = w_fs w q) /\
  (R < fl cap (length L + length d) ->
   exists x w', h_write (disk C) d (h_out hs 0) w = (false, x, w') /\ full (L ++ d) (seto 0 x hs) w').
Proof.
  intros [AP [UC [FR [HF [HU HO]]]]] LD. rewrite HO. unfold h_write. cbn [o_cap]. destruct cap as [|cap'] eqn:EC; [congruence|]. rewrite <- EC in *.
  unfold bw_write. cbn [o_bad o_cap o_buf o_path].
  set (n := length L) in *. set (B := skipn (fl cap n) L).
  assert (LB : length B = n - fl cap n) by apply skipn_length.
  pose proof (fl_le cap n capN) as FN.
  destruct (Nat.leb_spec (length d) (cap - length B)) as [Q|Q].
  - assert (LBc : length B <= cap).
    { rewrite LB. destruct (Nat.eq_dec n 0) as [->|N]; [cbn; lia|]. pose proof (fl_spec cap n capN N). lia. }
    assert (ST : fl cap (n + length d) = fl cap n) by (apply fl_stay; [auto|lia]).
    split; [|lia]. intros _. eexists _, _. split; [reflexivity|]. split; [|auto].
    split; [now apply apart_seto|]. split; [auto|]. rewrite app_length. fold n. rewrite ST. split; [auto|].
    split; [|split; [auto|]].
    + rewrite HF, firstn_app. fold n. replace (fl cap n - n) with 0 by lia. cbn [firstn]. now rewrite app_nil_r.
    + rewrite h_out_seto. cbn [Nat.eqb]. f_equal. rewrite skipn_app. fold n. replace (fl cap n - n) with 0 by lia. reflexivity.
  - assert (N0 : n <> 0).
    { intros Z. rewrite Z in LB. cbn in LB. lia. }
    pose proof (fl_spec cap n capN N0) as FS.
    assert (ST : fl cap (n + length d) = fl cap n + cap) by (apply fl_step; [auto|auto|lia]).
    destruct B as [|b0 B0] eqn:EB; [cbn in LB; lia|]. rewrite <- EB in *. clear b0 B0 EB.
    unfold bw_flush. cbn [o_bad o_buf o_cap o_path].
    assert (LFD : length (B ++ firstn (cap - length B) d) = cap) by (rewrite app_length, firstn_length; lia).
    destruct (B ++ firstn (cap - length B) d) as [|f0 fr] eqn:EF; [cbn in LFD; lia|]. rewrite <- EF in *. clear f0 fr EF.
    destruct (os_write_moved (disk C) p _ (B ++ firstn (cap - length B) d) w HF) as [k [w' [WR [K [F1 [U1 F2]]]]]].
    rewrite WR. rewrite LFD in *. unfold disk in K; cbn [takes] in K. rewrite HU in K.
    assert (LL : L = firstn (fl cap n) L ++ B) by (unfold B; now rewrite firstn_skipn).
    assert (LF : length (firstn (fl cap n) L) = fl cap n) by (rewrite firstn_length; fold n; lia).
    destruct (Nat.eqb_spec k cap) as [E|E].
    + split; [|lia]. intros _. cbn [o_cap o_path]. assert (LS : length (skipn (cap - length B) d) <= cap) by (rewrite skipn_length; lia).
      destruct (Nat.leb_spec (length (skipn (cap - length B) d)) cap); [|lia].
      eexists _, _. split; [reflexivity|]. split; [|exact F2]. split; [now apply apart_seto|]. split; [auto|].
      rewrite app_length. fold n. rewrite ST. split; [lia|].
      assert (LFD' : length (firstn (fl cap n) L ++ B ++ firstn (cap - length B) d) = fl cap n + cap) by (rewrite app_length, LFD, LF; reflexivity).
      assert (SP : L ++ d = (firstn (fl cap n) L ++ B ++ firstn (cap - length B) d) ++ skipn (cap - length B) d).
      { rewrite <- !app_assoc, firstn_skipn, app_assoc, <- LL. reflexivity. }
      split; [|split; [lia|]].
      * rewrite F1, (@firstn_all2 _ k) by lia. rewrite <- app_assoc. f_equal. f_equal.
        rewrite SP, firstn_app, LFD', Nat.sub_diag. cbn [firstn]. rewrite <- LFD' at 1. rewrite firstn_all. now rewrite app_nil_r.
      * rewrite h_out_seto. cbn [Nat.eqb]. f_equal. rewrite SP, skipn_app, LFD', Nat.sub_diag. cbn [skipn]. rewrite <- LFD' at 1. rewrite skipn_all. reflexivity.
    + split; [lia|]. intros _. eexists _, _. split; [reflexivity|]. split; [rewrite app_length; fold n; lia|].
      split; [|rewrite h_out_seto; auto].
      rewrite F1, <- app_assoc. f_equal. f_equal. assert (KR : k = R - fl cap n) by lia. rewrite KR.
      rewrite <- (firstn_split (fl cap n) R (L ++ d) FR). f_equal; [symmetry; apply firstn_longer; fold n; lia|].
      rewrite skipn_app. fold n. replace (fl cap n - n) with 0 by lia. cbn [skipn]. fold B.
      rewrite !firstn_app, firstn_firstn. f_equal. f_equal. lia.
Qed.
Lemma full_more L L' hs w : full L hs w -> full (L ++ L') hs w.
Proof.
  intros [A [B D]]. split; [rewrite app_length; lia|]. split; [|exact D]. rewrite firstn_longer by lia. exact B.
Qed.

(* a program that returns its write errors at once *)
Lemma strict_full {X} (Q : X -> Prop) (q : io X) : sok true small0 Q q -> forall L hs w r s' W,
  good L hs w -> run q (abss (w_fs w) hs) = (r, s', W) ->
  (fl cap (length (L ++ out 0 W)) <= R ->
   exists hs' w', lrun (disk C) q hs w = (r, hs', w') /\ good (L ++ out 0 W) hs' w' /\ abss (w_fs w') hs' = s' /\
     match r with Ok a => Q a | _ => True end) /\
  (R < fl cap (length (L ++ out 0 W)) ->
   exists e hs' w', lrun (disk C) q hs w = (Err e, hs', w') /\ full (L ++ out 0 W) hs' w').
Proof.
  induction q as [a|e| |h k c IH|h z c IH|h n c IH|h n c IH|o n c IH|o c IH|o d c IH]; intros A L hs w r s' W G RR; cbn [sok run lrun] in *; try contradiction.
  - injection RR as <- <- <-. cbn [out flat_map]. rewrite app_nil_r. pose proof G as [_ [_ [FR _]]]. split; [|lia]. intros _. eauto 10.
  - injection RR as <- <- <-. cbn [out flat_map]. rewrite app_nil_r. pose proof G as [_ [_ [FR _]]]. split; [|lia]. intros _. eauto 10.
  - injection RR as <- <- <-. cbn [out flat_map]. rewrite app_nil_r. pose proof G as [_ [_ [FR _]]]. split; [|lia]. intros _. eauto 10.
  - pose proof G as [AP _]. pose proof (isok_get h hs (proj1 AP)) as IK.
    rewrite getr_abss, (l_read_abs k (w_fs w) (geti h hs) IK) in RR.
    pose proof (l_read_ok k (w_fs w) (geti h hs) IK) as OK.
    pose proof (l_read_path k (w_fs w) (geti h hs)) as PA.
    pose proof (l_read_len k (w_fs w) (geti h hs)) as LN.
    destruct (l_read k (w_fs w) (geti h hs)) as [x i]. cbn [fst snd] in *. rewrite setr_abss in RR.
    apply (IH x (A x LN) L (seti h i hs) w r s' W); [|exact RR].
    destruct G as [_ G]. split; [now apply apart_seti|]. now rewrite h_out_seti.
  - destruct (z <? 0)%Z; [exact (IH false (A false) L hs w r s' W G RR)|].
    rewrite getr_abss, <- seek_abs, setr_abss in RR. apply (IH true (A true) L _ w r s' W); [|exact RR].
    destruct G as [AP G]. split; [apply apart_seti; [exact AP|intros _; reflexivity|reflexivity]|]. now rewrite h_out_seti.
  - rewrite getr_abss, <- fwd_abs, setr_abss in RR. apply (IH A L _ w r s' W); [|exact RR].
    destruct G as [AP G]. split; [apply apart_seti; [exact AP|intros _; reflexivity|reflexivity]|]. now rewrite h_out_seti.
  - rewrite getr_abss, <- newrd_abs, setr_abss in RR. apply (IH A L _ w r s' W); [|exact RR].
    destruct G as [AP G]. split; [apply apart_seti; [exact AP|intros _; reflexivity|reflexivity]|]. now rewrite h_out_seti.
  - destruct A as [[O0 LD] [TH A]]; subst o. destruct (run (c true) (abss (w_fs w) hs)) as [[r1 s1] W1] eqn:R1. injection RR as <- <- <-.
    cbn [out flat_map fst snd Nat.eqb]. fold (out 0 W1).
    destruct (good_write L hs w d G LD) as [H1 H2].
    destruct (Nat.le_gt_cases (fl cap (length L + length d)) R) as [Q1|Q1].
    + destruct (H1 Q1) as [x [w' [E [G' FO]]]]. rewrite E.
      rewrite <- (abss_other p (w_fs w') (w_fs w) hs (proj1 G) FO) in R1.
      rewrite app_assoc. apply (IH true (A true) (L ++ d) (seto 0 x hs) w' r1 s1 W1 G' R1).
    + assert (MO : fl cap (length L + length d) <= fl cap (length (L ++ d ++ out 0 W1))) by (apply fl_mono; [auto|rewrite !app_length; lia]).
      split; [lia|]. intros _. destruct (H2 Q1) as [x [w' [E F']]]. rewrite E. destruct (TH eq_refl) as [e ->]. cbn [lrun].
      exists e, (seto 0 x hs), w'. split; [reflexivity|]. rewrite app_assoc. now apply full_more.
Qed.

Lemma full_frozen {X} st (Q : X -> Prop) (q : io X) L L' hs w : sok st small0 Q q -> full L hs w ->
  let '(_, hs', w') := lrun (disk C) q hs w in full (L ++ L') hs' w'.
Proof.
  intros A F. pose proof F as [_ [_ [NC B]]].
  assert (A' : sok st only0 Q q) by (eapply sok_mono; [exact A|exact small0_only0|auto]).
  pose proof (bad_frozen (disk C) st Q q A' hs w) as H. rewrite NC in H. specialize (H capN B).
  destruct (lrun (disk C) q hs w) as [[r hs'] w']. destruct H as [-> H]. destruct (full_more L L' hs w F) as [F1 [F2 F3]].
  split; [exact F1|]. split; [exact F2|]. now rewrite H.
Qed.
(* the deferred Flush: the file ends where the disk is full, and nobody is told *)
Lemma flush_cut L hs w : good L hs w \/ full L hs w ->
  let '(_, x, w') := h_flush (disk C) (h_out hs 0) w in w_fs w' p = Some (base ++ firstn R L).
Proof.
  intros [[AP [UC [FR [HF [HU HO]]]]]|[F1 [F2 [F3 F4]]]].
  - rewrite HO. unfold h_flush. cbn [o_cap]. destruct cap as [|cap'] eqn:EC; [congruence|]. rewrite <- EC in *.
    unfold bw_flush. cbn [o_bad o_buf o_path o_cap]. set (n := length L) in *. pose proof (fl_le cap n capN) as FN.
    assert (LB : length (skipn (fl cap n) L) = n - fl cap n) by apply skipn_length.
    destruct (skipn (fl cap n) L) as [|b0 B0] eqn:EB.
    + rewrite HF. f_equal. f_equal. cbn in LB. rewrite !firstn_all2; auto; fold n; lia.
    + rewrite <- EB in *. clear b0 B0 EB. destruct (os_write_moved (disk C) p _ (skipn (fl cap n) L) w HF) as [k [w' [WR [K [F1 [U1 F2]]]]]].
      rewrite WR, F1, <- app_assoc. f_equal. f_equal. unfold disk in K; cbn [takes] in K. rewrite HU, LB in K.
      rewrite <- (firstn_split (fl cap n) R L FR). f_equal. destruct (Nat.leb_spec n R); [rewrite !firstn_all2; auto; fold n; lia|f_equal; lia].
  - unfold h_flush. destruct (o_cap (h_out hs 0)) eqn:E; [congruence|]. unfold bw_flush. rewrite F4. exact F2.
Qed.

(* a program whose last K bytes are written without looking at errors *)
Definition tailcap {X} (K : nat) (q : io X) : Prop :=
  (forall s a s' W, run q s = (Ok a, s', W) -> K <= length (out 0 W)) /\
  forall L hs w a s' W, good L hs w -> run q (abss (w_fs w) hs) = (Ok a, s', W) ->
    let n := length (L ++ out 0 W) - K in
    (fl cap n <= R -> exists hs' w', lrun (disk C) q hs w = (Ok a, hs', w') /\
       (good (L ++ out 0 W) hs' w' \/ full (L ++ out 0 W) hs' w')) /\
    (R < fl cap n -> exists e hs' w', lrun (disk C) q hs w = (Err e, hs', w') /\ full (L ++ out 0 W) hs' w').
Lemma tailcap_bind {X Y} K (Q : X -> Prop) (q : io X) (f : X -> io Y) :
  sok true small0 Q q -> (forall a, Q a -> tailcap K (f a)) -> tailcap K (bind q f).
Proof.
  intros A T. assert (KW : forall s a s' W, run (bind q f) s = (Ok a, s', W) -> K <= length (out 0 W)).
  { intros s b s' W H. rewrite run_bind in H. destruct (run q s) as [[r1 s1] W1] eqn:R1.
    pose proof (sok_run true small0 Q q A s) as QA. rewrite R1 in QA. destruct r1 as [a|e|]; try discriminate.
    destruct (run (f a) s1) as [[r2 s2] W2] eqn:R2. injection H as -> <- <-. rewrite out_app, app_length.
    pose proof (proj1 (T a QA) _ _ _ _ R2). lia. }
  split; [exact KW|]. intros L hs w b s' W G RR. pose proof (KW _ _ _ _ RR) as KK.
  rewrite run_bind in RR. destruct (run q (abss (w_fs w) hs)) as [[r1 s1] W1] eqn:R1.
  pose proof (sok_run true small0 Q q A (abss (w_fs w) hs)) as QA. rewrite R1 in QA.
  destruct (strict_full Q q A L hs w r1 s1 W1 G R1) as [S1 S2].
  destruct r1 as [a|e|]; try discriminate. destruct (T a QA) as [T1 T2].
  destruct (run (f a) s1) as [[r2 s2] W2] eqn:R2. injection RR as -> <- <-. pose proof (T1 _ _ _ _ R2) as K2. rewrite out_app, app_assoc.
  rewrite lrun_bind. destruct (Nat.le_gt_cases (fl cap (length (L ++ out 0 W1))) R) as [Q1|Q1].
  - destruct (S1 Q1) as [hs1 [w1 [E1 [G1 [AB _]]]]]. rewrite E1. rewrite <- AB in R2. exact (T2 _ _ _ _ _ _ G1 R2).
  - destruct (S2 Q1) as [e [hs1 [w1 [E1 F1]]]]. rewrite E1. cbv zeta. split.
    + intros Q2. assert (fl cap (length (L ++ out 0 W1)) <= fl cap (length ((L ++ out 0 W1) ++ out 0 W2) - K)) by (apply fl_mono; [auto|rewrite (app_length (L ++ out 0 W1)); lia]). lia.
    + intros _. exists e, hs1, w1. split; [reflexivity|]. now apply full_more.
Qed.
Lemma tailcap_newrd {X} K h n (q : io X) : tailcap K q -> tailcap K (NewRd h n q).
Proof.
  intros [T1 T2]. split.
  - intros s a s' W H. exact (T1 _ _ _ _ H).
  - intros L hs w a s' W G RR. cbn [run lrun] in *. rewrite getr_abss, <- newrd_abs, setr_abss in RR.
    refine (T2 L _ w a s' W _ RR). destruct G as [AP G].
    split; [apply apart_seti; [exact AP|intros _; reflexivity|reflexivity]|]. now rewrite h_out_seti.
Qed.
(* the end: a program whose error is dropped *)
Lemma tailcap_end {X} K (q : io unit) (v : X) : sok true small0 any q ->
  (forall s, exists W, run q s = (Ok tt, s, W) /\ length (out 0 W) = K) -> tailcap K (try q ;;; Ret v).
Proof.
  intros A H. split.
  - intros s a s' W RR. rewrite run_bind, run_try in RR. destruct (H s) as [W1 [R1 LK]]. rewrite R1 in RR. cbn in RR.
    injection RR as _ _ <-. rewrite out_app, app_length. lia.
  - intros L hs w a s' W G RR. rewrite run_bind, run_try in RR. destruct (H (abss (w_fs w) hs)) as [W1 [R1 LK]]. rewrite R1 in RR. cbn in RR.
    injection RR as <- _ <-. rewrite out_app. cbn [out flat_map]. rewrite app_nil_r. cbv zeta.
    rewrite app_length, LK. replace (length L + K - K) with (length L) by lia.
    pose proof G as [_ [_ [FR _]]]. split; [|lia]. intros _.
    destruct (strict_full any q A L hs w _ _ _ G R1) as [S1 S2]. rewrite lrun_bind, lrun_try.
    destruct (Nat.le_gt_cases (fl cap (length (L ++ out 0 W1))) R) as [Q1|Q1].
    + destruct (S1 Q1) as [hs1 [w1 [E1 [G1 _]]]]. rewrite E1. exists hs1, w1. split; [reflexivity|now left].
    + destruct (S2 Q1) as [e [hs1 [w1 [E1 F1]]]]. rewrite E1. exists hs1, w1. split; [reflexivity|now right].
Qed.
End Full.

(* such a program behind a writer, with its deferred Flush *)
Lemma section_cap {X} C cap (q : io X) K p hs w F a s' W : cap <> 0 -> w_used w <= C ->
  tailcap C cap p F (w_used w) K q -> apart p hs -> w_fs w p = Some F ->
  run q (abss (w_fs w) hs) = (Ok a, s', W) ->
  exists r hs' w', lrun (disk C) (NewWr 0 cap (with_flush 0 q)) hs w = (r, hs', w') /\
    w_fs w' p = Some (F ++ firstn (C - w_used w) (out 0 W)) /\
    (w_used w + fl cap (length (out 0 W) - K) <= C -> r = Ok a) /\
    (C < w_used w + fl cap (length (out 0 W) - K) -> exists e, r = Err e).
Proof.
  intros NC UC [_ T] AP HF R. cbn [lrun]. rewrite lrun_with_flush. set (hs0 := seto 0 _ hs).
  assert (K0 : paths hs 0 = Some p) by apply AP.
  assert (G : good C cap p F (w_used w) [] hs0 w).
  { split; [apply apart_seto; [exact AP|exact K0]|]. split; [exact UC|]. cbn. rewrite app_nil_r, Nat.add_0_r.
    split; [lia|]. split; [exact HF|]. split; [reflexivity|]. f_equal. exact K0. }
  destruct (T [] hs0 w a s' W G R) as [T1 T2]. cbn [app] in T1, T2.
  destruct (Nat.le_gt_cases (fl cap (length (out 0 W) - K)) (C - w_used w)) as [Q1|Q1].
  - destruct (T1 Q1) as [hs1 [w1 [E1 GF]]]. rewrite E1. pose proof (flush_cut C cap NC p F (w_used w) (out 0 W) hs1 w1 GF) as FC.
    destruct (h_flush (disk C) (h_out hs1 0) w1) as [[ok x] w2]. exists (Ok a), (seto 0 x hs1), w2.
    split; [reflexivity|]. split; [exact FC|]. split; [reflexivity|lia].
  - destruct (T2 Q1) as [e [hs1 [w1 [E1 GF]]]]. rewrite E1. pose proof (flush_cut C cap NC p F (w_used w) (out 0 W) hs1 w1 (or_intror GF)) as FC.
    destruct (h_flush (disk C) (h_out hs1 0) w1) as [[ok x] w2]. exists (Err e), (seto 0 x hs1), w2.
    split; [reflexivity|]. split; [exact FC|]. split; [lia|eauto].
Qed.
