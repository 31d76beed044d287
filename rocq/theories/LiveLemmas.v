(* LiveLemmas.v -- facts about Live.v: reads, which files can change, agreement with [run]. *)
From Coq Require String.
From Verif Require Import Base IO Fs Phase1Io Live.

(* ---- reading ---- *)
Definition absr (f : fs) (i : ihandle) : rd :=
  let F := contents f (i_path i) in
  mkRd F (i_buf i ++ skipn (i_pos i) F) (i_cap i) (length (i_buf i)).
Definition abss (f : fs) (hs : handles) : rds := (absr f (h_a hs), absr f (h_b hs)).
Definition iok (i : ihandle) : Prop := i_cap i = 0 -> i_buf i = [].
Definition isok (hs : handles) : Prop := iok (h_a hs) /\ iok (h_b hs).

Lemma getr_abss f h hs : getr h (abss f hs) = absr f (geti h hs).
Proof. now destruct h. Qed.
Lemma setr_abss f h i hs : setr h (absr f i) (abss f hs) = abss f (seti h i hs).
Proof. now destruct h. Qed.
Lemma isok_get h hs : isok hs -> iok (geti h hs).
Proof. intros [A B]. now destruct h. Qed.
Lemma isok_set h i hs : isok hs -> iok i -> isok (seti h i hs).
Proof. intros [A B] I. destruct h; split; auto. Qed.
Lemma abss_seto f o x hs : abss f (seto o x hs) = abss f hs.
Proof. reflexivity. Qed.

Lemma firstn_min {X} n (l : list X) : firstn (Nat.min n (length l)) l = firstn n l.
Proof.
  destruct (Nat.leb_spec n (length l)); [now rewrite Nat.min_l|].
  rewrite Nat.min_r by lia. now rewrite !firstn_all2 by lia.
Qed.
Lemma skipn_min {X} n (l : list X) : skipn (Nat.min n (length l)) l = skipn n l.
Proof.
  destruct (Nat.leb_spec n (length l)); [now rewrite Nat.min_l|].
  rewrite Nat.min_r by lia. now rewrite !skipn_all2 by lia.
Qed.
Lemma skipn_add {X} a b (l : list X) : skipn (a + b) l = skipn b (skipn a l).
Proof. revert l. induction a as [|a IH]; intros [|x l]; cbn; auto. now rewrite skipn_nil. Qed.
Lemma skip_take {X} k (l : list X) : skipn (length (firstn k l)) l = skipn k l.
Proof. rewrite firstn_length. apply skipn_min. Qed.

Lemma l_read_ok k f i : iok i -> iok (snd (l_read k f i)).
Proof.
  unfold iok, l_read. intros H. destruct i as [p pos cap buf]; cbn in *.
  destruct cap as [|cap]; cbn.
  - destruct (skipn pos (contents f p)); cbn; auto.
  - destruct buf; [|cbn; discriminate]. destruct (skipn pos (contents f p)); [cbn; auto|].
    destruct k as [|k]; [cbn; discriminate|]. destruct (cap <=? k); cbn; discriminate.
Qed.
Lemma l_read_path k f i : i_path (snd (l_read k f i)) = i_path i.
Proof.
  unfold l_read. destruct i as [p pos cap buf]; cbn.
  destruct cap as [|cap]; cbn.
  - destruct (skipn pos (contents f p)); cbn; auto.
  - destruct buf; [|auto]. destruct (skipn pos (contents f p)); [auto|].
    destruct k as [|k]; [auto|]. destruct (cap <=? k); auto.
Qed.
Lemma l_read_len k f i b : fst (l_read k f i) = Some b -> length b <= k.
Proof.
  assert (L : forall (l : bytes), length (firstn k l) <= k) by (intros l; rewrite firstn_length; lia).
  unfold l_read. destruct i as [p pos cap buf]. cbn [i_path i_pos i_cap i_buf].
  destruct cap as [|cap]; [|destruct buf as [|b0 buf]].
  - destruct (skipn pos (contents f p)); cbn [fst]; intros H; [discriminate|]. injection H as <-. apply L.
  - destruct (skipn pos (contents f p)); cbn [fst]; intros H; [discriminate|].
    destruct (S cap <=? k); cbn [fst] in H; injection H as <-; apply L.
  - cbn [fst]. intros H. injection H as <-. apply L.
Qed.
Lemma l_read_abs k f i : iok i ->
  rd_read k (absr f i) = (fst (l_read k f i), absr f (snd (l_read k f i))).
Proof.
  unfold iok. intros H. destruct i as [p pos cap buf]. cbn [i_cap i_buf] in H.
  unfold absr, l_read, rd_read. cbn [i_path i_pos i_cap i_buf r_cap r_rest r_avail r_file].
  set (F := contents f p). set (rest := skipn pos F).
  assert (D : forall c, rd_take k 0 (mkRd F rest c 0) =
    (Some (firstn k rest), mkRd F ([] ++ skipn (pos + length (firstn k rest)) F) c 0)).
  { intros c. unfold rd_take. cbn. f_equal. f_equal. rewrite skipn_add. symmetry. apply skip_take. }
  destruct cap as [|cap].
  - rewrite (H eq_refl). cbn [app length Nat.eqb]. destruct rest eqn:R; [subst rest; cbn [fst snd i_path i_pos i_cap i_buf app]; fold F; now rewrite R|].
    rewrite D. reflexivity.
  - cbn [Nat.eqb]. destruct buf as [|b buf].
    + cbn [app length Nat.eqb]. destruct rest eqn:R; [subst rest; cbn [fst snd i_path i_pos i_cap i_buf app]; fold F; now rewrite R|]. rewrite <- R in *.
      destruct (S cap <=? k); [rewrite D; reflexivity|].
      cbn [fst snd i_path i_pos i_cap i_buf].
      set (C := firstn (S cap) rest). assert (L : length C = Nat.min (S cap) (length rest)) by apply firstn_length.
      rewrite <- L. unfold rd_take. cbn [r_rest r_file r_cap].
      assert (S1 : skipn (length C) rest = skipn (pos + length C) F) by (rewrite skipn_add; reflexivity).
      assert (S2 : rest = C ++ skipn (pos + length C) F).
      { rewrite <- S1. unfold C at 2. rewrite skip_take. symmetry. apply firstn_skipn. }
      f_equal.
      * f_equal. rewrite S2 at 1. rewrite firstn_app.
        replace (Nat.min k (length C) - length C)%nat with 0%nat by lia. cbn [firstn]. rewrite app_nil_r. apply firstn_min.
      * f_equal.
        -- rewrite S2 at 1. rewrite skipn_app.
           replace (Nat.min k (length C) - length C)%nat with 0%nat by lia. cbn [skipn]. f_equal. apply skipn_min.
        -- rewrite skipn_length. lia.
    + cbn [length Nat.eqb fst snd i_path i_pos i_cap i_buf]. set (B := b :: buf). change (S (length buf)) with (length B).
      unfold rd_take. cbn [r_rest r_file r_cap]. f_equal.
      * f_equal. rewrite firstn_app. replace (Nat.min k (length B) - length B)%nat with 0%nat by lia.
        cbn [firstn]. rewrite app_nil_r. apply firstn_min.
      * f_equal.
        -- rewrite skipn_app. replace (Nat.min k (length B) - length B)%nat with 0%nat by lia.
           cbn [skipn]. f_equal. apply skipn_min.
        -- rewrite skipn_length. lia.
Qed.
Lemma seek_abs f i n : absr f (mkI (i_path i) n 0 []) = rd_seek n (absr f i).
Proof. reflexivity. Qed.
Lemma fwd_abs f i n : absr f (mkI (i_path i) (i_pos i + n) 0 []) = rd_fwd n (absr f i).
Proof.
  unfold absr, rd_fwd. cbn. f_equal. rewrite skipn_app.
  rewrite (skipn_all2 (i_buf i)) by lia. replace (length (i_buf i) + n - length (i_buf i))%nat with n by lia.
  now rewrite skipn_add.
Qed.
Lemma newrd_abs f i n : absr f (mkI (i_path i) (i_pos i) n []) = rd_buf n (absr f i).
Proof.
  unfold absr, rd_buf. cbn. f_equal. rewrite skipn_app, skipn_all, Nat.sub_diag. reflexivity.
Qed.
Lemma absr_ext f g i : f (i_path i) = g (i_path i) -> absr f i = absr g i.
Proof. intros H. unfold absr, contents. now rewrite H. Qed.

(* ---- which files change, and how ---- *)
Lemma replay_app l1 l2 f : replay (l1 ++ l2) f = replay l2 (replay l1 f).
Proof. unfold replay. apply fold_left_app. Qed.
Lemma op_do_ext o f g : (forall q, f q = g q) -> forall q, op_do f o q = op_do g o q.
Proof.
  intros H q. destruct o; unfold op_do, fset, contents; rewrite ?H; destruct (String.eqb p q); auto.
Qed.
Lemma replay_ext l : forall f g, (forall q, f q = g q) -> forall q, replay l f q = replay l g q.
Proof.
  induction l as [|o l IH]; intros f g H q; [apply H|].
  change (replay l (op_do f o) q = replay l (op_do g o) q). apply IH. intros. now apply op_do_ext.
Qed.
(* only appending to p *)
Definition apps (p : string) (l : list osop) : Prop := forall o, In o l -> exists d, o = OApp p d.
Definition data (l : list osop) : bytes := flat_map (fun o => match o with OApp _ d => d | OTrunc _ => [] end) l.
Lemma replay_apps p l : forall f, apps p l ->
  (forall q, q <> p -> replay l f q = f q) /\ (f p <> None -> replay l f p = Some (contents f p ++ data l)).
Proof.
  induction l as [|o l IH]; intros f A.
  - split; [reflexivity|]. intros H. cbn. unfold contents. rewrite app_nil_r. now destruct (f p).
  - destruct (A o) as [d ->]; [now left|]. assert (A' : apps p l) by (intros x X; apply A; now right).
    change (replay (OApp p d :: l) f) with (replay l (fset f p (contents f p ++ d))).
    destruct (IH (fset f p (contents f p ++ d)) A') as [H1 H2]. split.
    + intros q Q. rewrite H1 by auto. apply fset_other. auto.
    + intros H. rewrite H2 by (rewrite fset_same; discriminate). rewrite contents_same. cbn. now rewrite app_assoc.
Qed.

Section Ops.
Variable dev : device.

(* the events added by a step on the output x *)
Definition grows (op : option string) (w w' : world) : Prop :=
  exists l, w_ops w' = w_ops w ++ l /\ (forall q, w_fs w' q = replay l (w_fs w) q) /\
    forall o, In o l -> exists p d, o = OApp p d /\ op = Some p.
Lemma grows_refl op w : grows op w w.
Proof. exists []. rewrite app_nil_r. split; [auto|]. split; [auto|]. intros o []. Qed.
Lemma grows_trans op w1 w2 w3 : grows op w1 w2 -> grows op w2 w3 -> grows op w1 w3.
Proof.
  intros [l [A [B C]]] [l' [A' [B' C']]]. exists (l ++ l'). split; [now rewrite A', A, app_assoc|]. split.
  - intros q. rewrite B', replay_app. now apply replay_ext.
  - intros o H. apply in_app_or in H as [H|H]; auto.
Qed.
Lemma os_write_grows p d w : grows p w (snd (os_write dev p d w)).
Proof.
  unfold os_write. destruct p as [p|]; [|apply grows_refl]. cbn [snd].
  exists [OApp p (firstn (Nat.min (length d) (dev (w_used w) (w_calls w) (length d))) d)]. cbn.
  split; [auto|]. split; [auto|]. intros o [<-|[]]. eauto.
Qed.
Lemma bw_flush_grows x w : grows (o_path x) w (snd (bw_flush dev x w)) /\ o_path (snd (fst (bw_flush dev x w))) = o_path x.
Proof.
  unfold bw_flush. destruct (o_bad x); [split; [apply grows_refl|auto]|].
  destruct (o_buf x) as [|b l]; [split; [apply grows_refl|auto]|].
  pose proof (os_write_grows (o_path x) (b :: l) w) as H. destruct (os_write dev (o_path x) (b :: l) w) as [[ok n] w']. cbn in *. auto.
Qed.
Lemma bw_direct_grows d x w : grows (o_path x) w (snd (bw_direct dev d x w)) /\ o_path (snd (fst (bw_direct dev d x w))) = o_path x.
Proof.
  unfold bw_direct. pose proof (os_write_grows (o_path x) d w) as H. destruct (os_write dev (o_path x) d w) as [[ok n] w']. cbn in *. auto.
Qed.
Lemma bw_write_grows d x w : grows (o_path x) w (snd (bw_write dev d x w)) /\ o_path (snd (fst (bw_write dev d x w))) = o_path x.
Proof.
  unfold bw_write. destruct (o_bad x); [split; [apply grows_refl|auto]|].
  destruct (length d <=? _); [split; [apply grows_refl|auto]|].
  destruct (o_buf x) as [|b l]; [apply bw_direct_grows|].
  match goal with |- context [bw_flush dev ?y w] => pose proof (bw_flush_grows y w) as [G P]; destruct (bw_flush dev y w) as [[ok y'] w'] end.
  cbn [fst snd o_path] in *. destruct ok; [|cbn; auto].
  destruct (length _ <=? o_cap y'); [cbn; auto|].
  destruct (bw_direct_grows (skipn (o_cap x - length (b :: l)) d) y' w') as [G' P']. rewrite P in *. split; [|auto].
  eapply grows_trans; eauto.
Qed.
Lemma h_write_grows d x w : grows (o_path x) w (snd (h_write dev d x w)) /\ o_path (snd (fst (h_write dev d x w))) = o_path x.
Proof.
  unfold h_write. destruct (o_cap x); [|apply bw_write_grows].
  pose proof (os_write_grows (o_path x) d w) as H. destruct (os_write dev (o_path x) d w) as [[ok n] w']. cbn in *. auto.
Qed.
Lemma h_flush_grows x w : grows (o_path x) w (snd (h_flush dev x w)) /\ o_path (snd (fst (h_flush dev x w))) = o_path x.
Proof. unfold h_flush. destruct (o_cap x); [split; [apply grows_refl|auto]|apply bw_flush_grows]. Qed.

(* events on one of the outputs *)
Definition grow_outs (paths : nat -> option string) (w w' : world) : Prop :=
  exists l, w_ops w' = w_ops w ++ l /\ (forall q, w_fs w' q = replay l (w_fs w) q) /\
    forall o, In o l -> exists k p d, o = OApp p d /\ paths k = Some p.
Lemma grow_refl ps w : grow_outs ps w w.
Proof. exists []. rewrite app_nil_r. split; [auto|]. split; [auto|]. intros o []. Qed.
Lemma grow_one ps k w w' : grows (ps k) w w' -> grow_outs ps w w'.
Proof. intros [l [A [B C]]]. exists l. split; [auto|]. split; [auto|]. intros o H. destruct (C o H) as [p [d [D F]]]. eauto. Qed.
Lemma grow_trans ps w1 w2 w3 : grow_outs ps w1 w2 -> grow_outs ps w2 w3 -> grow_outs ps w1 w3.
Proof.
  intros [l [A [B C]]] [l' [A' [B' C']]]. exists (l ++ l'). split; [now rewrite A', A, app_assoc|]. split.
  - intros q. rewrite B', replay_app. now apply replay_ext.
  - intros o H. apply in_app_or in H as [H|H]; auto.
Qed.
Lemma grow_ext ps ps' w w' : (forall k, ps k = ps' k) -> grow_outs ps w w' -> grow_outs ps' w w'.
Proof.
  intros E [l [A [B C]]]. exists l. split; [auto|]. split; [auto|]. intros o H. destruct (C o H) as [k [p [d [D F]]]].
  exists k, p, d. now rewrite <- E.
Qed.

(* a program changes only its outputs, by appending; its handles stay on the same paths *)
Definition paths (hs : handles) (k : nat) : option string := o_path (h_out hs k).
Lemma lrun_grow {X} (p : io X) : forall hs w,
  let '(_, hs', w') := lrun dev p hs w in
  grow_outs (paths hs) w w' /\ (forall k, paths hs' k = paths hs k).
Proof.
  induction p as [a|e| |h k c IH|h z c IH|h n c IH|h n c IH|o n c IH|o c IH|o d c IH]; intros hs w; cbn [lrun];
    try (split; [apply grow_refl|auto]; fail).
  - destruct (l_read k (w_fs w) (geti h hs)) as [x i]. specialize (IH x (seti h i hs) w).
    destruct (lrun dev (c x) (seti h i hs) w) as [[r hs'] w']. destruct h; apply IH.
  - destruct (z <? 0)%Z; [apply IH|]. match goal with |- context [lrun dev (c true) ?s w] => specialize (IH true s w); destruct (lrun dev (c true) s w) as [[r hs'] w'] end.
    destruct h; apply IH.
  - match goal with |- context [lrun dev c ?s w] => specialize (IH s w); destruct (lrun dev c s w) as [[r hs'] w'] end. destruct h; apply IH.
  - match goal with |- context [lrun dev c ?s w] => specialize (IH s w); destruct (lrun dev c s w) as [[r hs'] w'] end. destruct h; apply IH.
  - match goal with |- context [lrun dev c ?s w] => specialize (IH s w); destruct (lrun dev c s w) as [[r hs'] w'] end.
    destruct IH as [G P].
    assert (Q : forall k, paths (seto o (mkO (o_path (h_out hs o)) n [] false) hs) k = paths hs k).
    { intros k. unfold paths, seto. cbn. destruct (Nat.eqb_spec o k) as [->|]; auto. }
    split; [|intros k; now rewrite P, Q]. eapply grow_ext; eauto.
  - destruct (h_flush_grows (h_out hs o) w) as [G0 P0]. destruct (h_flush dev (h_out hs o) w) as [[ok x] w1]. cbn [fst snd] in *.
    specialize (IH ok (seto o x hs) w1). destruct (lrun dev (c ok) (seto o x hs) w1) as [[r hs'] w']. destruct IH as [G P].
    assert (Q : forall k, paths (seto o x hs) k = paths hs k).
    { intros k. unfold paths, seto. cbn. destruct (Nat.eqb_spec o k) as [->|]; auto. }
    split; [|intros k; now rewrite P, Q]. eapply grow_trans; [eapply (grow_one _ o); exact G0|]. eapply grow_ext; eauto.
  - destruct (h_write_grows d (h_out hs o) w) as [G0 P0]. destruct (h_write dev d (h_out hs o) w) as [[ok x] w1]. cbn [fst snd] in *.
    specialize (IH ok (seto o x hs) w1). destruct (lrun dev (c ok) (seto o x hs) w1) as [[r hs'] w']. destruct IH as [G P].
    assert (Q : forall k, paths (seto o x hs) k = paths hs k).
    { intros k. unfold paths, seto. cbn. destruct (Nat.eqb_spec o k) as [->|]; auto. }
    split; [|intros k; now rewrite P, Q]. eapply grow_trans; [eapply (grow_one _ o); exact G0|]. eapply grow_ext; eauto.
Qed.

Lemma lrun_bind {X Y} (p : io X) (f : X -> io Y) : forall hs w,
  lrun dev (bind p f) hs w =
  let '(r, hs1, w1) := lrun dev p hs w in
  match r with
  | Ok a => lrun dev (f a) hs1 w1
  | Err e => (Err e, hs1, w1)
  | Panic => (Panic, hs1, w1)
  end.
Proof.
  induction p as [a|e| |h k c IH|h z c IH|h n c IH|h n c IH|o n c IH|o c IH|o d c IH]; intros hs w; cbn [bind lrun]; auto.
  - destruct (l_read k (w_fs w) (geti h hs)) as [x r]. apply IH.
  - destruct (z <? 0)%Z; apply IH.
  - destruct (h_flush dev (h_out hs o) w) as [[ok x] w1]. apply IH.
  - destruct (h_write dev d (h_out hs o) w) as [[ok x] w1]. apply IH.
Qed.
Lemma lrun_try {X} (p : io X) : forall hs w,
  lrun dev (try p) hs w =
  let '(r, hs1, w1) := lrun dev p hs w in
  (match r with Ok a => Ok (Some a) | Err _ => Ok None | Panic => Panic end, hs1, w1).
Proof.
  induction p as [a|e| |h k c IH|h z c IH|h n c IH|h n c IH|o n c IH|o c IH|o d c IH]; intros hs w; cbn [try lrun]; auto.
  - destruct (l_read k (w_fs w) (geti h hs)) as [x r]. apply IH.
  - destruct (z <? 0)%Z; apply IH.
  - destruct (h_flush dev (h_out hs o) w) as [[ok x] w1]. apply IH.
  - destruct (h_write dev d (h_out hs o) w) as [[ok x] w1]. apply IH.
Qed.
Lemma lrun_with_flush {X} o (p : io X) : forall hs w,
  lrun dev (with_flush o p) hs w =
  let '(r, hs1, w1) := lrun dev p hs w in
  let '(_, x, w2) := h_flush dev (h_out hs1 o) w1 in (r, seto o x hs1, w2).
Proof.
  induction p as [a|e| |h k c IH|h z c IH|h n c IH|h n c IH|o' n c IH|o' c IH|o' d c IH]; intros hs w; cbn [with_flush lrun]; auto.
  - destruct (l_read k (w_fs w) (geti h hs)) as [x r]. apply IH.
  - destruct (z <? 0)%Z; apply IH.
  - destruct (h_flush dev (h_out hs o') w) as [[ok x] w1]. apply IH.
  - destruct (h_write dev d (h_out hs o') w) as [[ok x] w1]. apply IH.
Qed.
End Ops.

(* ---- one write ---- *)
Definition ogood (x : ohandle) : Prop :=
  o_bad x = false /\ (o_cap x = 0 -> o_buf x = []) /\ length (o_buf x) <= o_cap x.

(* what a write or flush of the bytes L = buffered ++ new does to a file holding F: the first n reach
   the file, the rest stays in the buffer *)
Definition moved (p : string) (F L : bytes) (x : ohandle) (w : world) (ok : bool) (x' : ohandle) (w' : world) : Prop :=
  exists n, n <= length L /\ w_fs w' p = Some (F ++ firstn n L) /\ w_used w' = w_used w + n /\
    (forall q, q <> p -> w_fs w' q = w_fs w q) /\
    o_path x' = o_path x /\ o_cap x' = o_cap x /\
    (ok = true -> o_buf x' = skipn n L /\ ogood x') /\
    (ok = false -> n < length L /\ (o_cap x <> 0 -> o_bad x' = true)).

Section Write.
Variable dev : device.

Lemma os_write_moved p F d w : w_fs w p = Some F ->
  exists n w', os_write dev (Some p) d w = (n =? length d, n, w') /\ n = Nat.min (length d) (dev (w_used w) (w_calls w) (length d)) /\
    w_fs w' p = Some (F ++ firstn n d) /\ w_used w' = w_used w + n /\ forall q, q <> p -> w_fs w' q = w_fs w q.
Proof.
  intros H. eexists _, _. split; [reflexivity|]. split; [reflexivity|]. cbn [w_fs w_used].
  split; [rewrite fset_same; unfold contents; now rewrite H|]. split; [auto|].
  intros q Q. apply fset_other. auto.
Qed.

Lemma moved_stay p F x w x' : w_fs w p = Some F -> o_path x' = o_path x -> o_cap x' = o_cap x -> ogood x' ->
  moved p F (o_buf x') x w true x' w.
Proof.
  intros H P C G. exists 0. rewrite app_nil_r. repeat split; auto; try lia; try discriminate; apply G.
Qed.
Lemma bw_flush_moved p F x w : o_path x = Some p -> w_fs w p = Some F -> ogood x -> o_cap x <> 0 ->
  let '(ok, x', w') := bw_flush dev x w in moved p F (o_buf x) x w ok x' w' /\ (ok = true -> o_buf x' = []).
Proof.
  intros P H G NC. unfold bw_flush. destruct G as [B [Z L]]. rewrite B. destruct (o_buf x) as [|b l] eqn:X.
  - split; [|auto]. rewrite <- X. apply moved_stay; auto. split; [auto|]. rewrite X. split; [auto|lia].
  - destruct (os_write_moved p F (b :: l) w H) as [n [w' [W [N [F1 [U F2]]]]]]. rewrite P, W. split; [|now intros ->].
    exists n. split; [lia|]. split; [auto|]. split; [auto|]. split; [auto|]. cbn [o_path o_cap]. split; [auto|]. split; [auto|].
    destruct (Nat.eqb_spec n (length (b :: l))) as [E|E]; (split; [|intros; try discriminate]); try discriminate.
    + intros _. cbn [o_buf]. subst. rewrite E, skipn_all. split; [auto|]. split; [auto|]. cbn. split; [auto|lia].
    + split; [lia|auto].
Qed.
Lemma bw_direct_moved p F d x w : o_path x = Some p -> w_fs w p = Some F ->
  let '(ok, x', w') := bw_direct dev d x w in moved p F d x w ok x' w'.
Proof.
  intros P H. unfold bw_direct. destruct (os_write_moved p F d w H) as [n [w' [W [N [F1 [U F2]]]]]]. rewrite P, W.
  exists n. split; [lia|]. split; [auto|]. split; [auto|]. split; [auto|]. cbn [o_path o_cap]. split; [auto|]. split; [auto|].
  destruct (Nat.eqb_spec n (length d)) as [E|E]; (split; [|intros; try discriminate]); try discriminate.
  - intros _. cbn [o_buf]. subst. rewrite E, skipn_all. split; [auto|]. split; [auto|]. cbn. split; [auto|lia].
  - split; [lia|auto].
Qed.
Lemma moved_cont p F L1 L2 x w x1 w1 ok x2 w2 : moved p F L1 x w true x1 w1 -> o_buf x1 = [] ->
  moved p (F ++ L1) L2 x1 w1 ok x2 w2 -> moved p F (L1 ++ L2) x w ok x2 w2.
Proof.
  intros [n [A1 [A2 [A3 [A4 [A5 [A6 [A7 _]]]]]]]] B [m [C1 [C2 [C3 [C4 [C5 [C6 [C7 C8]]]]]]]].
  destruct (A7 eq_refl) as [D1 D2]. rewrite B in D1.
  assert (n = length L1) by (apply (f_equal (@length _)) in D1; rewrite skipn_length in D1; cbn in D1; lia).
  exists (length L1 + m). rewrite app_length. split; [lia|]. split.
  { rewrite C2, firstn_app. replace (length L1 + m - length L1) with m by lia. rewrite (@firstn_all2 _ _ L1) by lia. now rewrite app_assoc. }
  split; [lia|]. split; [intros q Q; now rewrite C4, A4|]. split; [congruence|]. split; [congruence|]. split.
  - intros O. destruct (C7 O) as [X Y]. split; [|auto]. rewrite X, skipn_app.
    replace (length L1 + m - length L1) with m by lia. rewrite (skipn_all2 L1) by lia. reflexivity.
  - intros O. destruct (C8 O) as [X Y]. split; [lia|]. intros Q. apply Y. congruence.
Qed.
Lemma bw_write_moved p F d x w : o_path x = Some p -> w_fs w p = Some F -> ogood x -> o_cap x <> 0 ->
  let '(ok, x', w') := bw_write dev d x w in moved p F (o_buf x ++ d) x w ok x' w'.
Proof.
  intros P H G NC. unfold bw_write. pose proof G as [B [Z L]]. rewrite B.
  destruct (Nat.leb_spec (length d) (o_cap x - length (o_buf x))) as [Q|Q].
  - change (o_buf x ++ d) with (o_buf (mkO (o_path x) (o_cap x) (o_buf x ++ d) false)) at 1. apply moved_stay; auto.
    split; [auto|]. cbn. split; [lia|]. rewrite app_length. lia.
  - destruct (o_buf x) as [|b l] eqn:X.
    + now apply bw_direct_moved.
    + set (room := o_cap x - length (b :: l)) in *.
      set (x1 := mkO (o_path x) (o_cap x) ((b :: l) ++ firstn room d) false).
      assert (G1 : ogood x1).
      { split; [auto|]. unfold x1. cbn [o_cap o_buf]. split; [lia|]. rewrite app_length, firstn_length. lia. }
      pose proof (bw_flush_moved p F x1 w P H G1 NC) as M. destruct (bw_flush dev x1 w) as [[ok x2] w2]. destruct M as [M E].
      assert (SL : (b :: l) ++ d = o_buf x1 ++ skipn room d).
      { unfold x1. cbn [o_buf]. rewrite <- app_assoc. now rewrite firstn_skipn. }
      destruct ok.
      * specialize (E eq_refl). destruct M as [n M']. destruct M' as [A1 [A2 [A3 [A4 [A5 [A6 [A7 A8]]]]]]].
        destruct (A7 eq_refl) as [D1 D2]. rewrite E in D1.
        assert (NL : n = length (o_buf x1)) by (apply (f_equal (@length _)) in D1; rewrite skipn_length in D1; cbn [length] in D1; lia).
        assert (M1 : moved p F (o_buf x1) x w true x2 w2).
        { exists n. repeat split; auto; try apply D2; try discriminate. now rewrite E, D1. }
        rewrite NL, firstn_all in A2. rewrite SL.
        destruct (Nat.leb_spec (length (skipn room d)) (o_cap x2)) as [Q2|Q2].
        -- eapply moved_cont; [exact M1|exact E|].
           change (skipn room d) with (o_buf (mkO (o_path x2) (o_cap x2) (skipn room d) false)) at 1.
           apply moved_stay; auto. split; [auto|]. cbn. split; [|auto]. rewrite A6. unfold x1; cbn. lia.
        -- pose proof (bw_direct_moved p (F ++ o_buf x1) (skipn room d) x2 w2) as BD.
           destruct (bw_direct dev (skipn room d) x2 w2) as [[ok x3] w3]. eapply moved_cont; [exact M1|exact E|].
           apply BD; auto. now rewrite A5.
      * destruct M as [n [A1 [A2 [A3 [A4 [A5 [A6 [A7 A8]]]]]]]]. exists n. rewrite SL.
        destruct (A8 eq_refl) as [D1 D2]. rewrite app_length. split; [lia|].
        split; [rewrite A2, firstn_app; replace (n - length (o_buf x1)) with 0 by lia; cbn [firstn]; now rewrite app_nil_r|].
        split; [auto|]. split; [auto|]. split; [auto|]. split; [auto|]. split; [discriminate|]. intros _. split; [lia|auto].
Qed.
Lemma h_write_moved p F d x w : o_path x = Some p -> w_fs w p = Some F -> ogood x ->
  let '(ok, x', w') := h_write dev d x w in moved p F (o_buf x ++ d) x w ok x' w'.
Proof.
  intros P H G. unfold h_write. destruct (o_cap x) eqn:C.
  - destruct (os_write_moved p F d w H) as [n [w' [W [N [F1 [U F2]]]]]]. rewrite P, W.
    pose proof G as [B [Z L]]. rewrite (Z C). cbn [app]. exists n.
    split; [lia|]. split; [auto|]. split; [auto|]. split; [auto|]. split; [auto|]. split; [auto|].
    destruct (Nat.eqb_spec n (length d)) as [E|E]; (split; [|intros; try discriminate]); try discriminate.
    + intros _. rewrite E, skipn_all, (Z C). auto.
    + split; [lia|]. intros. congruence.
  - apply bw_write_moved; auto. lia.
Qed.
Lemma h_flush_moved p F x w : o_path x = Some p -> w_fs w p = Some F -> ogood x ->
  let '(ok, x', w') := h_flush dev x w in moved p F (o_buf x) x w ok x' w' /\ (ok = true -> o_buf x' = []).
Proof.
  intros P H G. unfold h_flush. destruct (o_cap x) eqn:C.
  - pose proof G as [B [Z L]]. split; [|intros; now apply Z]. apply moved_stay; auto.
  - apply bw_flush_moved; auto. lia.
Qed.
End Write.
