(* Sok.v -- a syntactic class of programs and what the lower level (Live.v) does with them. *)
From Coq Require String.
From Verif Require Import Base IO Fs Phase1Io Live LiveLemmas.
Local Open Scope io_scope.

(* Neither creates nor flushes a writer; every write satisfies P; if [st], every write error is
   returned at once; results satisfy Q. *)
Fixpoint sok {X} (st : bool) (P : nat -> bytes -> Prop) (Q : X -> Prop) (p : io X) : Prop :=
  match p with
  | Ret a => Q a
  | Throw _ | Boom => True
  | Rd _ k c => forall x, (forall b, x = Some b -> length b <= k) -> sok st P Q (c x)
  | Seek _ _ c => forall x, sok st P Q (c x)
  | Fwd _ _ c => sok st P Q c
  | NewRd _ _ c => sok st P Q c
  | NewWr _ _ _ => False
  | Flush _ _ => False
  | Wr o d c => P o d /\ (st = true -> exists e, c false = Throw e) /\ forall x, sok st P Q (c x)
  end.
Definition any {X} : X -> Prop := fun _ => True.
Definition nowr : nat -> bytes -> Prop := fun _ _ => False.

Section Rules.
Context (st : bool) (P : nat -> bytes -> Prop).

Lemma sok_ret {X} (Q : X -> Prop) a : Q a -> sok st P Q (Ret a). Proof. auto. Qed.
Lemma sok_throw {X} (Q : X -> Prop) e : sok st P Q (Throw e). Proof. exact I. Qed.
Lemma sok_boom {X} (Q : X -> Prop) : sok st P Q Boom. Proof. exact I. Qed.
Lemma sok_bind {X Y} (Q : X -> Prop) (R : Y -> Prop) (p : io X) (f : X -> io Y) :
  sok st P Q p -> (forall a, Q a -> sok st P R (f a)) -> sok st P R (bind p f).
Proof.
  induction p as [a|e| |h k c IH|h z c IH|h n c IH|h n c IH|o n c IH|o c IH|o d c IH]; cbn [bind sok]; intros A F; auto.
  - destruct A as [A1 [A2 A3]]. split; [auto|]. split; [|auto]. intros S. destruct (A2 S) as [e ->]. cbn. eauto.
Qed.
Lemma sok_seq {X Y} (R : Y -> Prop) (p : io X) (f : X -> io Y) :
  sok st P any p -> (forall a, sok st P R (f a)) -> sok st P R (bind p f).
Proof. intros A F. eapply sok_bind; [exact A|]. intros a _. apply F. Qed.
Lemma sok_mono {X} (P0 P' : nat -> bytes -> Prop) (Q Q' : X -> Prop) (p : io X) :
  sok st P0 Q p -> (forall o d, P0 o d -> P' o d) -> (forall a, Q a -> Q' a) -> sok st P' Q' p.
Proof.
  intros A HP HQ. induction p as [a|e| |h k c IH|h z c IH|h n c IH|h n c IH|o n c IH|o c IH|o d c IH]; cbn [sok] in *; auto.
  - destruct A as [A1 [A2 A3]]. auto.
Qed.
Lemma sok_any {X} (Q : X -> Prop) (p : io X) : sok st P Q p -> sok st P any p.
Proof. intros A. eapply sok_mono; [exact A|auto|intros; exact I]. Qed.
(* the error of a program that writes nothing may be dropped *)
Lemma sok_try_quiet {X} (Q : X -> Prop) (p : io X) : sok st nowr Q p ->
  sok st P (fun o => match o with Some a => Q a | None => True end) (try p).
Proof.
  induction p as [a|e| |h k c IH|h z c IH|h n c IH|h n c IH|o n c IH|o c IH|o d c IH]; cbn [try sok]; intros A; auto.
  - destruct A as [[] _].
Qed.
Lemma sok_quiet {X} (Q : X -> Prop) (p : io X) : sok st nowr Q p -> sok st P Q p.
Proof. intros A. eapply sok_mono; [exact A|intros o d []|auto]. Qed.
Lemma sok_write o d : P o d -> sok st P any (write o d).
Proof. intros H. split; [auto|]. split; [intros _; exists EWrite; reflexivity|]. intros []; exact I. Qed.
Lemma sok_readfull_loop h : forall fuel k acc, sok st P any (rf_loop fuel k h acc).
Proof.
  induction fuel as [|fuel IH]; intros k acc; cbn [rf_loop sok]; auto.
  intros [b|] _; cbn; auto. destruct (length b =? k); cbn; auto. exact I.
Qed.
Lemma sok_readfull h k : sok st P any (readfull h k).
Proof. unfold readfull. destruct (k =? 0); [exact I|apply sok_readfull_loop]. Qed.
Lemma sok_seek h z : sok st P any (seek h z).
Proof. unfold seek. cbn. now intros []. Qed.
End Rules.
Lemma sok_weak {X} st P (Q : X -> Prop) (p : io X) : sok true P Q p -> sok st P Q p.
Proof.
  induction p as [a|e| |h k c IH|h z c IH|h n c IH|h n c IH|o n c IH|o c IH|o d c IH]; cbn [sok] in *; intros A; auto.
  - destruct A as [A1 [A2 A3]]. split; [auto|]. split; [destruct st; auto; discriminate|auto].
Qed.
Lemma sok_try {X} P (Q : X -> Prop) (p : io X) : sok false P Q p -> sok false P any (try p).
Proof.
  induction p as [a|e| |h k c IH|h z c IH|h n c IH|h n c IH|o n c IH|o c IH|o d c IH]; cbn [try sok]; intros A; auto; try exact I.
  - destruct A as [A1 [_ A3]]. split; [auto|]. split; [discriminate|auto].
Qed.
Lemma sok_write_ (P : nat -> bytes -> Prop) o d : P o d -> sok false P any (write_ o d).
Proof. intros H. split; [auto|]. split; [discriminate|]. intros []; exact I. Qed.

Lemma rd_read_len k r b : fst (rd_read k r) = Some b -> length b <= k.
Proof.
  unfold rd_read, rd_take. intros H.
  destruct (r_cap r =? 0); [|destruct (r_avail r =? 0)].
  - destruct (r_rest r); cbn [fst] in H; [discriminate|]. injection H as <-. rewrite firstn_length. lia.
  - destruct (r_rest r); cbn [fst] in H; [discriminate|]. destruct (r_cap r <=? k); injection H as <-; rewrite firstn_length; lia.
  - injection H as <-. rewrite firstn_length. lia.
Qed.

(* ---- agreement with [run] when nothing fails ---- *)
(* what is known of an output: nothing; no writer on it; its writer is empty; its writer may hold bytes *)
Inductive cls := Free | Un | Cl | Di.
Definition cset (m : nat -> cls) (o : nat) (x : cls) : nat -> cls := fun o' => if o =? o' then x else m o'.
Definition classed (m : nat -> cls) (hs : handles) : Prop := forall o,
  match m o with
  | Free => True
  | Un => paths hs o <> None /\ o_cap (h_out hs o) = 0
  | Cl => paths hs o <> None /\ o_buf (h_out hs o) = []
  | Di => paths hs o <> None /\ o_cap (h_out hs o) <> 0
  end.
Definition sane (hs : handles) (w : world) : Prop :=
  isok hs /\
  (forall k p h, paths hs k = Some p -> i_path (geti h hs) <> p) /\
  (forall k k' p, paths hs k = Some p -> paths hs k' = Some p -> k = k') /\
  (forall k p, paths hs k = Some p -> w_fs w p <> None) /\
  (forall k, ogood (h_out hs k)).
(* what has been written to output k, whether it has reached the file or not *)
Definition logical (hs : handles) (w : world) (k : nat) (p : string) : bytes :=
  contents (w_fs w) p ++ o_buf (h_out hs k).

Definition agrees {X} (m : nat -> cls) (p : io X) (m' : nat -> cls) : Prop :=
  (forall o, (m' o = Di -> m o = Di) /\ (m o = Free <-> m' o = Free)) /\
  (forall s k, m k = Free -> out k (snd (run p s)) = []) /\
  forall hs w r s' W, sane hs w -> classed m hs -> run p (abss (w_fs w) hs) = (r, s', W) ->
  exists hs' w', lrun no_limit p hs w = (r, hs', w') /\ sane hs' w' /\ abss (w_fs w') hs' = s' /\
    (forall k, paths hs' k = paths hs k) /\
    (forall k p, paths hs k = Some p -> logical hs' w' k p = logical hs w k p ++ out k W) /\
    match r with
    | Ok _ => classed m' hs'
    | _ => forall o, m o <> Di -> m o <> Free -> o_buf (h_out hs' o) = []
    end.

Lemma sane_seti h i hs w : sane hs w -> iok i -> i_path i = i_path (geti h hs) -> sane (seti h i hs) w.
Proof.
  intros [A [B [C [D F]]]] I P. split; [now apply isok_set|]. split; [|split; [|split]].
  - intros k p h' K. specialize (B k p h'). assert (Q : paths hs k = Some p) by (destruct h; exact K).
    specialize (B Q). destruct h, h'; cbn in *; congruence.
  - destruct h; exact C.
  - destruct h; exact D.
  - destruct h; exact F.
Qed.
Lemma paths_seti h i hs k : paths (seti h i hs) k = paths hs k.
Proof. now destruct h. Qed.
Lemma logical_seti h i hs w k p : logical (seti h i hs) w k p = logical hs w k p.
Proof. now destruct h. Qed.
Lemma classed_seti m h i hs : classed m hs -> classed m (seti h i hs).
Proof. intros H o. specialize (H o). destruct h; exact H. Qed.
Lemma h_out_seto o x hs k : h_out (seto o x hs) k = if o =? k then x else h_out hs k.
Proof. reflexivity. Qed.
Lemma h_out_seti h i hs k : h_out (seti h i hs) k = h_out hs k.
Proof. now destruct h. Qed.
Lemma paths_seto o x hs k : o_path x = o_path (h_out hs o) -> paths (seto o x hs) k = paths hs k.
Proof. intros H. unfold paths. rewrite h_out_seto. destruct (Nat.eqb_spec o k) as [->|]; auto. Qed.

Lemma agrees_ext {X} m m1 (p : io X) m2 m' : (forall o, m o = m1 o) -> (forall o, m2 o = m' o) -> agrees m p m2 -> agrees m1 p m'.
Proof.
  intros H1 H2 [D [Z A]]. split; [|split].
  - intros o. rewrite <- H1, <- H2. apply D.
  - intros s k K. apply Z. now rewrite H1.
  - intros hs w r s' W S C R.
    destruct (A hs w r s' W S) as [hs' [w' [L [S' [AB [PT [LG CL]]]]]]]; [|exact R|].
    { intros o. rewrite H1. apply C. }
    exists hs', w'. split; [exact L|]. split; [exact S'|]. split; [exact AB|]. split; [exact PT|]. split; [exact LG|].
    destruct r; [intros o; rewrite <- H2; apply CL| |]; intros o; rewrite <- H1; apply CL.
Qed.
Lemma agrees_bind {X Y} m1 m2 m3 (p : io X) (f : X -> io Y) :
  agrees m1 p m2 -> (forall a, agrees m2 (f a) m3) -> (forall o, (m3 o = Di -> m2 o = Di) /\ (m2 o = Free <-> m3 o = Free)) -> agrees m1 (bind p f) m3.
Proof.
  intros [D1 [Z A]] F D2. split; [intros o; destruct (D1 o), (D2 o); tauto|]. split.
  { intros s k K. rewrite run_bind. specialize (Z s k K). destruct (run p s) as [[[a|e|] s1] W1]; auto. cbn [snd] in Z.
    destruct (F a) as [_ [Z2 _]]. specialize (Z2 s1 k (proj1 (proj2 (D1 k)) K)). destruct (run (f a) s1) as [[r2 s2] W2]. cbn [snd] in *.
    now rewrite out_app, Z, Z2. }
  intros hs w r s' W S C R. rewrite run_bind in R.
  destruct (run p (abss (w_fs w) hs)) as [[r1 s1] W1] eqn:R1.
  destruct (A hs w r1 s1 W1 S C R1) as [hs1 [w1 [L [S1 [AB [PT [LG CL]]]]]]]. rewrite lrun_bind, L.
  destruct r1 as [a|e|].
  - destruct (run (f a) s1) as [[r2 s2] W2] eqn:R2. injection R as <- <- <-. rewrite <- AB in R2.
    destruct (F a) as [_ [_ B]]. destruct (B hs1 w1 r2 s2 W2 S1 CL R2) as [hs2 [w2 [L2 [S2 [AB2 [PT2 [LG2 CL2]]]]]]].
    exists hs2, w2. split; [exact L2|]. split; [exact S2|]. split; [exact AB2|]. split; [intros k; now rewrite PT2, PT|].
    split; [intros k p' K; rewrite LG2 by (now rewrite PT); rewrite LG, out_app by auto; now rewrite app_assoc|].
    destruct r2; [exact CL2| |]; intros o N1 N2; destruct (D1 o) as [D3 D4]; apply CL2; tauto.
  - injection R as <- <- <-. eauto 10.
  - injection R as <- <- <-. eauto 10.
Qed.

(* one write *)
Lemma no_limit_ok op d w : fst (fst (os_write no_limit op d w)) = true.
Proof. destruct op; [|reflexivity]. cbn. unfold no_limit. rewrite Nat.min_id. apply Nat.eqb_refl. Qed.
Lemma bw_flush_ok x w : o_bad x = false -> fst (fst (bw_flush no_limit x w)) = true.
Proof.
  intros B. unfold bw_flush. rewrite B. destruct (o_buf x) as [|b l]; [reflexivity|].
  pose proof (no_limit_ok (o_path x) (b :: l) w) as H. now destruct (os_write no_limit (o_path x) (b :: l) w) as [[[] n] w'].
Qed.
Lemma bw_direct_ok d x w : fst (fst (bw_direct no_limit d x w)) = true.
Proof.
  unfold bw_direct. pose proof (no_limit_ok (o_path x) d w) as H.
  now destruct (os_write no_limit (o_path x) d w) as [[ok n] w'].
Qed.
Lemma bw_write_ok d x w : o_bad x = false -> fst (fst (bw_write no_limit d x w)) = true.
Proof.
  intros B. unfold bw_write. rewrite B. destruct (length d <=? _); [reflexivity|].
  destruct (o_buf x) as [|b l]; [apply bw_direct_ok|].
  match goal with |- context [bw_flush no_limit ?y w] => pose proof (bw_flush_ok y w eq_refl) as H; destruct (bw_flush no_limit y w) as [[ok y'] w'] end.
  cbn in H. subst ok. destruct (length _ <=? o_cap y'); [reflexivity|]. apply bw_direct_ok.
Qed.
Lemma h_write_ok d x w : o_bad x = false -> fst (fst (h_write no_limit d x w)) = true.
Proof.
  intros B. unfold h_write. destruct (o_cap x); [|now apply bw_write_ok].
  pose proof (no_limit_ok (o_path x) d w) as H. now destruct (os_write no_limit (o_path x) d w) as [[ok n] w'].
Qed.
Lemma h_flush_ok x w : o_bad x = false -> fst (fst (h_flush no_limit x w)) = true.
Proof. intros B. unfold h_flush. destruct (o_cap x); [reflexivity|now apply bw_flush_ok]. Qed.

(* the state after a successful move of bytes on output o *)
Lemma moved_state hs w o p F L x' w' : sane hs w -> paths hs o = Some p -> w_fs w p = Some F ->
  moved p F L (h_out hs o) w true x' w' ->
  sane (seto o x' hs) w' /\ abss (w_fs w') (seto o x' hs) = abss (w_fs w) hs /\
  (forall k, paths (seto o x' hs) k = paths hs k) /\
  F ++ L = contents (w_fs w') p ++ o_buf x' /\
  (forall k q, k <> o -> paths hs k = Some q -> logical (seto o x' hs) w' k q = logical hs w k q) /\
  o_cap x' = o_cap (h_out hs o).
Proof.
  intros S P H [n [A1 [A2 [A3 [A4 [A5 [A6 [A7 A8]]]]]]]]. destruct (A7 eq_refl) as [B1 B2].
  destruct S as [S1 [S2 [S3 [S4 S5]]]].
  assert (PT : forall k, paths (seto o x' hs) k = paths hs k) by (intros k; now apply paths_seto).
  split; [|split; [|split; [exact PT|split; [|split; [|exact A6]]]]].
  - split; [exact S1|]. split; [intros k q h K; rewrite PT in K; exact (S2 k q h K)|].
    split; [intros k k' q K K'; rewrite PT in K, K'; exact (S3 k k' q K K')|]. split.
    + intros k q K. rewrite PT in K. destruct (String.eqb_spec q p) as [->|N]; [rewrite A2; discriminate|].
      rewrite A4 by auto. exact (S4 k q K).
    + intros k. rewrite h_out_seto. destruct (o =? k); [exact B2|apply S5].
  - rewrite abss_seto. unfold abss. f_equal; apply absr_ext; apply A4.
    + exact (S2 o p false P).
    + exact (S2 o p true P).
  - unfold contents. rewrite A2, B1, <- app_assoc. now rewrite firstn_skipn.
  - intros k q N K. unfold logical. rewrite h_out_seto. destruct (Nat.eqb_spec o k); [congruence|].
    f_equal. unfold contents. rewrite A4; [reflexivity|]. intros ->. apply N. eapply S3; eauto.
Qed.

Lemma replay_apart q : forall l f, (forall o, In o l -> exists p d, o = OApp p d /\ p <> q) -> replay l f q = f q.
Proof.
  induction l as [|o l IH]; intros f H; [reflexivity|]. destruct (H o (or_introl eq_refl)) as [p [d [-> N]]].
  change (replay (OApp p d :: l) f) with (replay l (fset f p (contents f p ++ d))). rewrite IH; [now apply fset_other|].
  intros o' I. apply H. now right.
Qed.
Lemma sok_silent {X} st P (Q : X -> Prop) (p : io X) : sok st P Q p -> forall k, (forall d, ~ P k d) -> forall s, out k (snd (run p s)) = [].
Proof.
  intros A k N. induction p as [a|e| |h j c IH|h z c IH|h n c IH|h n c IH|o n c IH|o c IH|o d c IH]; intros s; cbn [sok run] in *; try contradiction; auto.
  - pose proof (rd_read_len j (getr h s)) as L. destruct (rd_read j (getr h s)) as [x r]. apply IH. apply A. exact L.
  - destruct (z <? 0)%Z; auto.
  - destruct A as [A1 [_ A3]]. specialize (IH true (A3 true) s). destruct (run (c true) s) as [[r1 s1] W1]. cbn [snd] in *.
    unfold out. cbn [flat_map fst snd]. fold (out k W1). rewrite IH. destruct (Nat.eqb_spec o k) as [->|]; [elim (N d A1)|reflexivity].
Qed.
Lemma agrees_sok {X} st P (Q : X -> Prop) (p : io X) m : sok st P Q p ->
  (forall o d, P o d -> m o = Un \/ m o = Di) -> agrees m p m.
Proof.
  intros A HP. split; [split; [auto|reflexivity]|]. split.
  { intros s k K. apply (sok_silent st P Q p A). intros d HD. destruct (HP k d HD); congruence. }
  revert A.
  induction p as [a|e| |h k c IH|h z c IH|h n c IH|h n c IH|o n c IH|o c IH|o d c IH]; intros A hs w r s' W S C R; cbn [sok run lrun] in *; try contradiction.
  - injection R as <- <- <-. exists hs, w. repeat (split; [first [exact S|reflexivity|intros k q K; cbn; now rewrite app_nil_r]|]). exact C.
  - injection R as <- <- <-. exists hs, w. repeat (split; [first [exact S|reflexivity|intros k q K; cbn; now rewrite app_nil_r]|]).
    intros o N1 N2. specialize (C o). destruct S as [_ [_ [_ [_ G]]]]. destruct (G o) as [_ [Z _]]. destruct (m o); try tauto; try congruence.
  - injection R as <- <- <-. exists hs, w. repeat (split; [first [exact S|reflexivity|intros k q K; cbn; now rewrite app_nil_r]|]).
    intros o N1 N2. specialize (C o). destruct S as [_ [_ [_ [_ G]]]]. destruct (G o) as [_ [Z _]]. destruct (m o); try tauto; try congruence.
  - rewrite getr_abss, (l_read_abs k (w_fs w) (geti h hs) (isok_get h hs (proj1 S))) in R.
    pose proof (l_read_ok k (w_fs w) (geti h hs) (isok_get h hs (proj1 S))) as OK.
    pose proof (l_read_path k (w_fs w) (geti h hs)) as PA.
    pose proof (rd_read_len k (absr (w_fs w) (geti h hs))) as LN. rewrite l_read_abs in LN by apply (isok_get h hs (proj1 S)).
    destruct (l_read k (w_fs w) (geti h hs)) as [x i]. cbn [fst snd] in *. rewrite setr_abss in R.
    destruct (IH x (A x LN) (seti h i hs) w r s' W) as [hs' [w' [L [S' [AB [PT [LG CL]]]]]]]; [now apply sane_seti|now apply classed_seti|exact R|].
    exists hs', w'. split; [exact L|]. split; [exact S'|]. split; [exact AB|].
    split; [intros j; now rewrite PT, paths_seti|].
    split; [intros j q K; rewrite LG by (now rewrite paths_seti); now rewrite logical_seti|exact CL].
  - destruct (z <? 0)%Z; [exact (IH false (A false) hs w r s' W S C R)|].
    rewrite getr_abss, <- seek_abs, setr_abss in R.
    match type of R with run _ (abss _ ?H) = _ => destruct (IH true (A true) H w r s' W) as [hs' [w' [L [S' [AB [PT [LG CL]]]]]]];
      [apply sane_seti; [exact S|intros _; reflexivity|reflexivity]|now apply classed_seti|exact R|] end.
    exists hs', w'. split; [exact L|]. split; [exact S'|]. split; [exact AB|].
    split; [intros j; now rewrite PT, paths_seti|].
    split; [intros j q K; rewrite LG by (now rewrite paths_seti); now rewrite logical_seti|exact CL].
  - rewrite getr_abss, <- fwd_abs, setr_abss in R.
    match type of R with run _ (abss _ ?H) = _ => destruct (IH A H w r s' W) as [hs' [w' [L [S' [AB [PT [LG CL]]]]]]];
      [apply sane_seti; [exact S|intros _; reflexivity|reflexivity]|now apply classed_seti|exact R|] end.
    exists hs', w'. split; [exact L|]. split; [exact S'|]. split; [exact AB|].
    split; [intros j; now rewrite PT, paths_seti|].
    split; [intros j q K; rewrite LG by (now rewrite paths_seti); now rewrite logical_seti|exact CL].
  - rewrite getr_abss, <- newrd_abs, setr_abss in R.
    match type of R with run _ (abss _ ?H) = _ => destruct (IH A H w r s' W) as [hs' [w' [L [S' [AB [PT [LG CL]]]]]]];
      [apply sane_seti; [exact S|intros _; reflexivity|reflexivity]|now apply classed_seti|exact R|] end.
    exists hs', w'. split; [exact L|]. split; [exact S'|]. split; [exact AB|].
    split; [intros j; now rewrite PT, paths_seti|].
    split; [intros j q K; rewrite LG by (now rewrite paths_seti); now rewrite logical_seti|exact CL].
  - destruct A as [A1 [_ A3]]. destruct (run (c true) (abss (w_fs w) hs)) as [[r1 s1] W1] eqn:R1. injection R as <- <- <-.
    assert (PO : paths hs o <> None) by (specialize (C o); destruct (HP o d A1) as [M|M]; rewrite M in C; tauto).
    destruct (paths hs o) as [p|] eqn:K; [|congruence]. clear PO.
    pose proof S as [S1 [S2 [S3 [S4 S5]]]]. specialize (S4 o p K). destruct (w_fs w p) as [F|] eqn:FF; [|congruence].
    pose proof (h_write_moved no_limit p F d (h_out hs o) w K FF (S5 o)) as M.
    pose proof (h_write_ok d (h_out hs o) w (proj1 (S5 o))) as O.
    destruct (h_write no_limit d (h_out hs o) w) as [[ok x'] w']. cbn in O. subst ok.
    destruct (moved_state hs w o p F _ x' w' S K FF M) as [T1 [T2 [T3 [T4 [T5 T6]]]]]. rewrite <- T2 in R1.
    assert (C' : classed m (seto o x' hs)).
    { intros k. specialize (C k). unfold classed in C. rewrite T3, h_out_seto.
      destruct (Nat.eqb_spec o k) as [<-|N]; [|exact C]. destruct (HP o d A1) as [-> | ->] in C |- *; rewrite T6; exact C. }
    destruct (IH true (A3 true) (seto o x' hs) w' r1 s1 W1 T1 C' R1) as [hs' [w'' [L [S' [AB [PT [LG CL]]]]]]].
    exists hs', w''. split; [exact L|]. split; [exact S'|]. split; [exact AB|]. split; [intros j; now rewrite PT, T3|].
    split; [|exact CL]. intros j q J. rewrite LG by (now rewrite T3). unfold out. cbn [flat_map fst snd]. fold (out j W1).
    rewrite app_assoc. f_equal. destruct (Nat.eqb_spec o j) as [<-|N].
    + assert (q = p) by congruence. subst q. unfold logical. rewrite h_out_seto, Nat.eqb_refl, <- T4.
      unfold contents. rewrite FF. now rewrite app_assoc.
    + rewrite app_nil_r. apply T5; auto.
Qed.

Lemma agrees_newrd {X} m h n (p : io X) m' : agrees m p m' -> agrees m (NewRd h n p) m'.
Proof.
  intros [D [Z A]]. split; [exact D|]. split; [intros s k K; cbn [run]; apply Z; exact K|]. intros hs w r s' W S C R. cbn [run lrun] in *.
  rewrite getr_abss, <- newrd_abs, setr_abss in R.
  match type of R with run _ (abss _ ?H) = _ => destruct (A H w r s' W) as [hs' [w' [L [S' [AB [PT [LG CL]]]]]]];
      [apply sane_seti; [exact S|intros _; reflexivity|reflexivity]|now apply classed_seti|exact R|] end.
  exists hs', w'. split; [exact L|]. split; [exact S'|]. split; [exact AB|].
  split; [intros j; now rewrite PT, paths_seti|].
  split; [intros j q K; rewrite LG by (now rewrite paths_seti); now rewrite logical_seti|exact CL].
Qed.
(* a section written through a bufio.Writer with a deferred Flush leaves nothing behind *)
Lemma agrees_buffered {X} m o n (p : io X) m1 : n <> 0 -> m o = Un \/ m o = Cl ->
  agrees (cset m o Di) p m1 -> m1 o = Di -> agrees m (NewWr o n (with_flush o p)) (cset m1 o Cl).
Proof.
  intros N MO [D [Z A]] M1. split.
  { intros k. unfold cset. destruct (Nat.eqb_spec o k) as [<-|NE].
    { split; [discriminate|]. split; [|discriminate]. destruct MO; congruence. }
    specialize (D k). unfold cset in D. destruct (Nat.eqb_spec o k); [congruence|exact D]. }
  split.
  { intros s k K. cbn [run]. rewrite run_with_flush. apply Z. unfold cset. destruct (Nat.eqb_spec o k) as [<-|NE]; [|exact K]. destruct MO; congruence. }
  intros hs w r s' W S C R. cbn [run lrun] in *. rewrite run_with_flush in R. rewrite lrun_with_flush.
  set (x0 := mkO (o_path (h_out hs o)) n [] false). set (hs0 := seto o x0 hs).
  assert (PT0 : forall k, paths hs0 k = paths hs k) by (intros k; now apply paths_seto).
  assert (BO : o_buf (h_out hs o) = []).
  { specialize (C o). destruct S as [_ [_ [_ [_ G]]]]. destruct (G o) as [_ [Z0 _]]. destruct MO as [-> | ->] in C; tauto. }
  assert (PO : paths hs o <> None) by (specialize (C o); destruct MO as [-> | ->] in C; tauto).
  assert (S0 : sane hs0 w).
  { destruct S as [S1 [S2 [S3 [S4 S5]]]]. split; [exact S1|].
    split; [intros k q h K; rewrite PT0 in K; exact (S2 k q h K)|].
    split; [intros k k' q K K'; rewrite PT0 in K, K'; exact (S3 k k' q K K')|].
    split; [intros k q K; rewrite PT0 in K; exact (S4 k q K)|]. intros k. unfold hs0. rewrite h_out_seto.
    destruct (o =? k); [split; [reflexivity|cbn; split; [auto|lia]]|apply S5]. }
  assert (C0 : classed (cset m o Di) hs0).
  { intros k. specialize (C k). unfold cset. rewrite PT0. unfold hs0. rewrite h_out_seto.
    destruct (Nat.eqb_spec o k) as [<-|]; [split; [exact PO|exact N]|exact C]. }
  assert (R0 : run p (abss (w_fs w) hs0) = (r, s', W)) by exact R.
  destruct (A hs0 w r s' W S0 C0 R0) as [hs1 [w1 [L [S1 [AB [PT [LG CL]]]]]]]. rewrite L.
  destruct (paths hs o) as [pp|] eqn:K; [|congruence]. clear PO.
  assert (K1 : paths hs1 o = Some pp) by now rewrite PT, PT0.
  pose proof S1 as [T1 [T2 [T3 [T4 T5]]]]. pose proof (T4 o pp K1) as FN. destruct (w_fs w1 pp) as [F|] eqn:FF; [|congruence].
  pose proof (h_flush_moved no_limit pp F (h_out hs1 o) w1 K1 FF (T5 o)) as M.
  pose proof (h_flush_ok (h_out hs1 o) w1 (proj1 (T5 o))) as O.
  destruct (h_flush no_limit (h_out hs1 o) w1) as [[ok x'] w']. cbn in O. subst ok. destruct M as [M BE]. specialize (BE eq_refl).
  destruct (moved_state hs1 w1 o pp F _ x' w' S1 K1 FF M) as [U1 [U2 [U3 [U4 [U5 U6]]]]].
  exists (seto o x' hs1), w'. split; [reflexivity|]. split; [exact U1|]. split; [now rewrite U2|].
  split; [intros k; now rewrite U3, PT, PT0|]. split.
  - intros k q Kq. assert (Kq1 : paths hs1 k = Some q) by now rewrite PT, PT0.
    assert (LK : logical hs1 w1 k q = logical hs w k q ++ out k W).
    { rewrite LG by (now rewrite PT0). f_equal. unfold logical, hs0. rewrite h_out_seto.
      destruct (Nat.eqb_spec o k) as [<-|]; [cbn; now rewrite BO|reflexivity]. }
    rewrite <- LK. destruct (Nat.eq_dec k o) as [->|NE]; [|now apply U5].
    assert (q = pp) by congruence. subst q. unfold logical at 1. rewrite h_out_seto, Nat.eqb_refl, <- U4.
    unfold logical, contents. now rewrite FF.
  - destruct r as [a|e|].
    + intros k. specialize (CL k). unfold cset. rewrite U3, h_out_seto.
      destruct (Nat.eqb_spec o k) as [<-|NE]; [split; [now rewrite PT, PT0, K|exact BE]|exact CL].
    + intros k N1 N2. rewrite h_out_seto. destruct (Nat.eqb_spec o k) as [<-|NE]; [exact BE|].
      apply CL; unfold cset; (destruct (Nat.eqb_spec o k); [congruence|auto]).
    + intros k N1 N2. rewrite h_out_seto. destruct (Nat.eqb_spec o k) as [<-|NE]; [exact BE|].
      apply CL; unfold cset; (destruct (Nat.eqb_spec o k); [congruence|auto]).
Qed.

(* the whole program on fresh handles: the files hold what [run] says *)
Lemma lstage_at_stage {X} (p : io X) m m' a b ps outs : agrees m p m' ->
  (forall k, match m k with Free => ps k = None | Un => ps k <> None /\ ps k = nth_error outs k | _ => False end) ->
  NoDup outs -> (forall k, ps k <> Some a /\ ps k <> Some b) ->
  forall f w, (forall q, w_fs w q = f q) -> (forall q, In q outs -> f q <> None) ->
  fst (lstage_at no_limit p a b ps w) = fst (stage p a b outs f) /\
  forall q, w_fs (snd (lstage_at no_limit p a b ps w)) q = snd (stage p a b outs f) q.
Proof.
  intros [D [ZF A]] MD ND NI f w WF EX. unfold stage, lstage_at.
  assert (CO : forall q, contents f q = contents (w_fs w) q) by (intros q; unfold contents; now rewrite WF). rewrite !CO.
  destruct (run p (opened (contents (w_fs w) a), opened (contents (w_fs w) b))) as [[r s'] W] eqn:R.
  set (hs := fresh_at a b ps). assert (PS : forall k, paths hs k = ps k) by reflexivity.
  assert (PN : forall k q, ps k = Some q -> nth_error outs k = Some q).
  { intros k q K. specialize (MD k). destruct (m k); try congruence; try contradiction. destruct MD; congruence. }
  destruct (A hs w r s' W) as [hs' [w' [L [S' [AB [PT [LG CL]]]]]]].
  - split; [split; intros _; reflexivity|]. split; [intros k q [] K Q; rewrite PS in K; cbn in Q; subst q; destruct (NI k); congruence|].
    split; [intros k k' q K K'; eapply NoDup_nth_error; [exact ND| |]; rewrite PS in K, K'; apply PN in K, K'; [apply nth_error_Some; congruence|congruence]|].
    split; [intros k q K; rewrite WF; apply EX; eapply nth_error_In; apply PN; exact K|]. intros k. repeat split; cbn; auto.
  - intros k. specialize (MD k). destruct (m k); try contradiction; [exact I|]. split; [rewrite PS; apply MD|reflexivity].
  - exact R.
  - rewrite L. cbn [fst snd]. split; [reflexivity|]. intros q.
    destruct (In_dec String.string_dec q outs) as [I|I].
    + destruct (In_nth_error _ _ I) as [k K]. assert (Fq : f q <> None) by auto.
      rewrite (wapply_at outs W f k q ND K Fq), CO.
      destruct (m k) eqn:MK; pose proof (MD k) as MDk; rewrite MK in MDk; try contradiction.
      * assert (OE : out k W = []) by (pose proof (ZF (opened (contents (w_fs w) a), opened (contents (w_fs w) b)) k MK) as Z; rewrite R in Z; exact Z).
        rewrite OE, app_nil_r.
        pose proof (lrun_grow no_limit p hs w) as G. rewrite L in G.
        destruct G as [[l [_ [G1 G2]]] _]. rewrite G1, replay_apart; [unfold contents; rewrite WF; destruct (f q); congruence|].
        intros o O. destruct (G2 o O) as [j [p' [d [-> P']]]]. exists p', d. split; [auto|]. intros ->. rewrite PS in P'.
        assert (j = k) by (eapply NoDup_nth_error; [exact ND| |rewrite K; apply PN; exact P']; apply nth_error_Some; rewrite (PN _ _ P'); discriminate).
        congruence.
      * destruct MDk as [PK1 PK2]. assert (K0 : paths hs k = Some q) by (rewrite PS; congruence).
        specialize (LG k q K0). assert (BE : o_buf (h_out hs' k) = []).
        { destruct r as [x|e|].
          - specialize (CL k). destruct S' as [_ [_ [_ [_ G]]]]. destruct (G k) as [_ [Z _]]. destruct (D k) as [D1 D2]. destruct (m' k) eqn:MK'; try tauto.
            + assert (m k = Free) by tauto. congruence.
            + specialize (D1 eq_refl). congruence.
          - apply CL; congruence.
          - apply CL; congruence. }
        unfold logical in LG. rewrite BE, app_nil_r in LG. cbn in LG. rewrite app_nil_r in LG.
        destruct S' as [_ [_ [_ [EX' _]]]]. assert (paths hs' k = Some q) as K' by now rewrite PT.
        specialize (EX' k q K'). unfold contents in LG at 1. destruct (w_fs w' q); congruence.
    + rewrite wapply_other by auto. pose proof (lrun_grow no_limit p hs w) as G. rewrite L in G.
      destruct G as [[l [_ [G1 G2]]] _]. rewrite G1, replay_apart; [apply WF|].
      intros o O. destruct (G2 o O) as [k [p' [d [-> P']]]]. exists p', d. split; [auto|]. intros ->. apply I.
      eapply nth_error_In. apply PN. exact P'.
Qed.
