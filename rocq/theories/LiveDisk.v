(* LiveDisk.v -- full disks, for writes of any size: how much of its input a bufio.Writer has passed on
   before the deferred Flush, and whether the program learns that the disk is full. *)
From Coq Require String.
From Verif Require Import Base IO Fs Phase1Io Live LiveLemmas Sok LiveFail.
Local Open Scope io_scope.

(* n of l bytes have been passed on; the next write has d bytes *)
Definition pass1 (cap n l d : nat) : nat :=
  let b := l - n in
  if d <=? cap - b then n
  else if b =? 0 then l + d
  else if d - (cap - b) <=? cap then n + cap else l + d.
Fixpoint pass (cap n l : nat) (ds : list nat) : nat :=
  match ds with [] => n | d :: ds => pass cap (pass1 cap n l d) (l + d) ds end.
Definition chunks (W : list (nat * bytes)) : list nat :=
  map (fun x => length (snd x)) (filter (fun x => fst x =? 0) W).

Lemma chunks_app W1 W2 : chunks (W1 ++ W2) = chunks W1 ++ chunks W2.
Proof. unfold chunks. now rewrite filter_app, map_app. Qed.
Lemma pass_app cap : forall a b n l, pass cap n l (a ++ b) = pass cap (pass cap n l a) (l + list_sum a) b.
Proof.
  induction a as [|d a IH]; intros b n l; cbn [pass app list_sum fold_right]; [now rewrite Nat.add_0_r|].
  rewrite IH. f_equal. unfold list_sum. lia.
Qed.
Lemma chunks_sum W : list_sum (chunks W) = length (out 0 W).
Proof.
  induction W as [|[o d] W IH]; [reflexivity|]. unfold chunks, out in *. cbn [filter flat_map fst snd].
  rewrite app_length, <- IH. now destruct (o =? 0).
Qed.
Lemma pass1_ge cap n l d : n <= l -> n <= pass1 cap n l d <= l + d /\ (l - n <= cap -> l + d - pass1 cap n l d <= cap).
Proof.
  intros L. unfold pass1. cbv zeta. destruct (Nat.leb_spec d (cap - (l - n))); [lia|].
  destruct (Nat.eqb_spec (l - n) 0); [lia|]. destruct (Nat.leb_spec (d - (cap - (l - n))) cap); lia.
Qed.
Lemma pass_ge cap : forall ds n l, n <= l -> n <= pass cap n l ds <= l + list_sum ds.
Proof.
  induction ds as [|d ds IH]; intros n l L; cbn [pass list_sum fold_right]; [lia|]. destruct (pass1_ge cap n l d L) as [A _].
  specialize (IH (pass1 cap n l d) (l + d)). unfold list_sum in *. lia.
Qed.
(* writes that fit into the buffer *)
Lemma pass_small cap : cap <> 0 -> forall ds l, Forall (fun d => d <= cap) ds ->
  pass cap (fl cap l) l ds = fl cap (l + list_sum ds).
Proof.
  intros N. induction ds as [|d ds IH]; intros l H; cbn [pass list_sum fold_right]; [now rewrite Nat.add_0_r|].
  apply Forall_cons_iff in H as [D H]. replace (pass1 cap (fl cap l) l d) with (fl cap (l + d)).
  - rewrite IH by exact H. unfold list_sum. now rewrite Nat.add_assoc.
  - pose proof (fl_le cap l N) as F. unfold pass1. cbv zeta. destruct (Nat.leb_spec d (cap - (l - fl cap l))) as [Q|Q].
    + apply fl_stay; [exact N|]. destruct (Nat.eq_dec l 0) as [->|Z]; [cbn in *; lia|]. pose proof (fl_spec cap l N Z). lia.
    + destruct (Nat.eq_dec l 0) as [->|Z]; [cbn in *; lia|]. pose proof (fl_spec cap l N Z) as S.
      destruct (Nat.eqb_spec (l - fl cap l) 0); [lia|]. destruct (Nat.leb_spec (d - (cap - (l - fl cap l))) cap); [|lia].
      apply fl_step; [exact N|exact D|lia].
Qed.
(* a last write of more than two buffers leaves nothing behind *)
Lemma pass_big cap ds n l d : n <= l -> cap + cap < d -> pass cap n l (ds ++ [d]) = l + list_sum ds + d.
Proof.
  intros L D. rewrite pass_app. cbn [pass]. pose proof (pass_ge cap ds n l L) as G. unfold pass1. cbv zeta.
  destruct (Nat.leb_spec d (cap - (l + list_sum ds - pass cap n l ds))); [lia|].
  destruct (Nat.eqb_spec (l + list_sum ds - pass cap n l ds) 0); [reflexivity|].
  destruct (Nat.leb_spec (d - (cap - (l + list_sum ds - pass cap n l ds))) cap); [lia|reflexivity].
Qed.

Section Full.
Context (C cap : nat) (capN : cap <> 0) (p : string) (base : bytes) (u0 : nat).
Notation R := (C - u0).
(* L was written to the writer, which passed n bytes on; these were taken *)
Definition goodn (L : bytes) (n : nat) (hs : handles) (w : world) : Prop :=
  apart p hs /\ u0 <= C /\ n <= R /\ n <= length L /\ length L - n <= cap /\
  w_fs w p = Some (base ++ firstn n L) /\ w_used w = u0 + n /\
  h_out hs 0 = mkO (Some p) cap (skipn n L) false.
Definition fulln (L : bytes) (hs : handles) (w : world) : Prop :=
  R < length L /\ w_fs w p = Some (base ++ firstn R L) /\ w_used w = C /\ u0 <= C /\ apart p hs /\
  o_cap (h_out hs 0) = cap /\ o_bad (h_out hs 0) = true.

Lemma goodn_write L n hs w d : goodn L n hs w ->
  let n' := pass1 cap n (length L) (length d) in
  (n' <= R -> exists x w', h_write (disk C) d (h_out hs 0) w = (true, x, w') /\ goodn (L ++ d) n' (seto 0 x hs) w' /\
     forall q, q <> p -> w_fs w' q = w_fs w q) /\
  (R < n' -> exists x w', h_write (disk C) d (h_out hs 0) w = (false, x, w') /\ fulln (L ++ d) (seto 0 x hs) w').
Proof.
  intros [AP [UC [NR [NL [BC [HF [HU HO]]]]]]]. rewrite HO. unfold h_write. cbn [o_cap]. destruct cap as [|cap'] eqn:EC; [congruence|]. rewrite <- EC in *. clear cap' EC.
  unfold bw_write. cbn [o_bad o_cap o_buf o_path]. unfold pass1. cbv zeta.
  assert (LB : length (skipn n L) = length L - n) by apply skipn_length. rewrite LB.
  set (b := length L - n) in *.
  destruct (Nat.leb_spec (length d) (cap - b)) as [Q|Q].
  - split; [|lia]. intros _. eexists _, _. split; [reflexivity|]. split; [|auto].
    split; [now apply apart_seto|]. split; [exact UC|]. split; [exact NR|]. rewrite app_length. split; [lia|]. split; [lia|].
    split; [now rewrite firstn_longer by lia|]. split; [exact HU|]. rewrite h_out_seto. cbn [Nat.eqb]. f_equal.
    rewrite skipn_app. replace (n - length L) with 0 by lia. reflexivity.
  - destruct (Nat.eqb_spec b 0) as [Z|Z].
    + (* the buffer is empty *)
      destruct (skipn n L) as [|b0 B0] eqn:EB; [|cbn in LB; lia]. clear EB.
      unfold bw_direct. cbn [o_path o_cap].
      destruct (os_write_moved (disk C) p _ d w HF) as [k [w' [WR [K [F1 [U1 F2]]]]]]. rewrite WR.
      unfold disk in K; cbn [takes] in K. rewrite HU in K.
      assert (LL : firstn n L = L) by (apply firstn_all2; lia). rewrite LL in *.
      destruct (Nat.eqb_spec k (length d)) as [EK|EK].
      * split; [|lia]. intros HR. eexists _, _. split; [reflexivity|]. split; [|exact F2].
        split; [now apply apart_seto|]. split; [exact UC|]. split; [exact HR|]. rewrite app_length. split; [lia|]. split; [lia|].
        split; [rewrite F1, !firstn_all2 by (rewrite ?app_length; lia); now rewrite app_assoc|]. split; [lia|].
        rewrite h_out_seto. cbn [Nat.eqb negb]. f_equal. rewrite skipn_all2; [reflexivity|rewrite app_length; lia].
      * split; [lia|]. intros _. eexists _, _. split; [reflexivity|]. split; [rewrite app_length; lia|].
        split; [rewrite F1, <- app_assoc; f_equal; f_equal; rewrite firstn_app, (@firstn_all2 _ R L) by lia; f_equal; f_equal; lia|].
        split; [lia|]. split; [exact UC|]. split; [now apply apart_seto|]. rewrite h_out_seto. auto.
    + (* fill it up and flush *)
      destruct (skipn n L) as [|b0 B0] eqn:EB; [cbn in LB; lia|]. rewrite <- EB in *. clear b0 B0 EB.
      unfold bw_flush. cbn [o_bad o_buf o_cap o_path].
      set (fd := skipn n L ++ firstn (cap - b) d) in *.
      assert (LFD : length fd = cap) by (unfold fd; rewrite app_length, firstn_length, LB; lia).
      destruct fd as [|f0 fr] eqn:EF; [cbn in LFD; lia|]. rewrite <- EF in *. clear f0 fr EF.
      destruct (os_write_moved (disk C) p _ fd w HF) as [k [w' [WR [K [F1 [U1 F2]]]]]].
      rewrite WR. rewrite LFD in *. unfold disk in K; cbn [takes] in K. rewrite HU in K.
      assert (SP : L ++ d = (firstn n L ++ fd) ++ skipn (cap - b) d).
      { unfold fd. rewrite <- !app_assoc, firstn_skipn, app_assoc, firstn_skipn. reflexivity. }
      assert (LF : length (firstn n L ++ fd) = n + cap) by (rewrite app_length, LFD, firstn_length; lia).
      assert (LS : length (skipn (cap - b) d) = length d - (cap - b)) by apply skipn_length.
      destruct (Nat.eqb_spec k cap) as [EK|EK].
      * rewrite (@firstn_all2 _ k) in F1 by lia. cbn [o_cap o_path]. rewrite LS.
        destruct (Nat.leb_spec (length d - (cap - b)) cap) as [Q2|Q2].
        -- split; [|lia]. intros HR. eexists _, _. split; [reflexivity|]. split; [|exact F2].
           split; [now apply apart_seto|]. split; [exact UC|]. split; [exact HR|]. rewrite app_length. split; [lia|]. split; [lia|].
           rewrite SP, firstn_app, skipn_app, LF, Nat.sub_diag, (@firstn_all2 _ (n + cap)), (@skipn_all2 _ (n + cap)) by lia.
           cbn [firstn skipn app]. rewrite app_nil_r.
           split; [rewrite F1; now rewrite app_assoc|]. split; [lia|]. rewrite h_out_seto. reflexivity.
        -- unfold bw_direct. cbn [o_path o_cap].
           destruct (os_write_moved (disk C) p _ (skipn (cap - b) d) w' F1) as [k2 [w2 [WR2 [K2 [F3 [U2 F4]]]]]]. rewrite WR2, LS in *.
           unfold disk in K2; cbn [takes] in K2. rewrite U1, HU in K2.
           destruct (Nat.eqb_spec k2 (length d - (cap - b))) as [EK2|EK2].
           ++ split; [|lia]. intros HR. eexists _, _. split; [reflexivity|]. split; [|intros q Hq; rewrite F4 by exact Hq; now apply F2].
              split; [now apply apart_seto|]. split; [exact UC|]. split; [exact HR|]. rewrite app_length. split; [lia|]. split; [lia|].
              rewrite (@firstn_all2 _ (length L + length d)), (@skipn_all2 _ (length L + length d)) by (rewrite app_length; lia).
              split; [rewrite F3, (@firstn_all2 _ k2) by lia; rewrite SP; now rewrite !app_assoc|]. split; [lia|]. rewrite h_out_seto. reflexivity.
           ++ split; [lia|]. intros _. eexists _, _. split; [reflexivity|]. split; [rewrite app_length; lia|].
              split; [|split; [lia|]; split; [exact UC|]; split; [now apply apart_seto|]; rewrite h_out_seto; auto].
              rewrite F3, SP, firstn_app, LF, (@firstn_all2 _ R) by lia. rewrite !app_assoc. f_equal. f_equal. f_equal. lia.
      * assert (RC : R < n + cap) by lia. assert (BIG : n + cap <= length L + length d) by lia.
        split; [destruct (Nat.leb_spec (length d - (cap - b)) cap); lia|]. intros _.
        eexists _, _. split; [reflexivity|]. split; [rewrite app_length; lia|].
        split; [|split; [lia|]; split; [exact UC|]; split; [now apply apart_seto|]; rewrite h_out_seto; auto].
        rewrite F1, SP, (firstn_longer R (firstn n L ++ fd)) by lia. rewrite firstn_app, (@firstn_all2 _ R (firstn n L)) by (rewrite firstn_length; lia).
        rewrite app_assoc. f_equal. f_equal. f_equal. rewrite firstn_length. lia.
Qed.
Lemma fulln_more L L' hs w : fulln L hs w -> fulln (L ++ L') hs w.
Proof.
  intros [A [B D]]. split; [rewrite app_length; lia|]. split; [|exact D]. rewrite firstn_longer by lia. exact B.
Qed.

(* what a program does behind the writer *)
Definition strictly {X} (L : bytes) (n : nat) (q : io X) : Prop := forall hs w r s' W,
  goodn L n hs w -> run q (abss (w_fs w) hs) = (r, s', W) ->
  let n' := pass cap n (length L) (chunks W) in
  (n' <= R -> exists hs' w', lrun (disk C) q hs w = (r, hs', w') /\ goodn (L ++ out 0 W) n' hs' w' /\ abss (w_fs w') hs' = s') /\
  (R < n' -> exists e hs' w', lrun (disk C) q hs w = (Err e, hs', w') /\ fulln (L ++ out 0 W) hs' w').

Lemma sok_strictly {X} (Q : X -> Prop) (q : io X) : sok true only0 Q q -> forall L n, strictly L n q.
Proof.
  induction q as [a|e| |h k c IH|h z c IH|h n c IH|h n c IH|o n c IH|o c IH|o d c IH]; intros A L m hs w r s' W G RR; cbn [sok run lrun] in *; try contradiction.
  - injection RR as <- <- <-. cbn [out flat_map chunks map filter pass]. rewrite app_nil_r. pose proof G as [_ [_ [FR _]]]. split; [|lia]. intros _. eauto 10.
  - injection RR as <- <- <-. cbn [out flat_map chunks map filter pass]. rewrite app_nil_r. pose proof G as [_ [_ [FR _]]]. split; [|lia]. intros _. eauto 10.
  - injection RR as <- <- <-. cbn [out flat_map chunks map filter pass]. rewrite app_nil_r. pose proof G as [_ [_ [FR _]]]. split; [|lia]. intros _. eauto 10.
  - pose proof G as [AP _]. pose proof (isok_get h hs (proj1 AP)) as IK.
    rewrite getr_abss, (l_read_abs k (w_fs w) (geti h hs) IK) in RR.
    pose proof (l_read_ok k (w_fs w) (geti h hs) IK) as OK.
    pose proof (l_read_path k (w_fs w) (geti h hs)) as PA.
    pose proof (l_read_len k (w_fs w) (geti h hs)) as LN.
    destruct (l_read k (w_fs w) (geti h hs)) as [x i]. cbn [fst snd] in *. rewrite setr_abss in RR.
    apply (IH x (A x LN) L m (seti h i hs) w r s' W); [|exact RR].
    destruct G as [_ G]. split; [now apply apart_seti|]. now rewrite h_out_seti.
  - destruct (z <? 0)%Z; [exact (IH false (A false) L m hs w r s' W G RR)|].
    rewrite getr_abss, <- seek_abs, setr_abss in RR. apply (IH true (A true) L m _ w r s' W); [|exact RR].
    destruct G as [AP G]. split; [apply apart_seti; [exact AP|intros _; reflexivity|reflexivity]|]. now rewrite h_out_seti.
  - rewrite getr_abss, <- fwd_abs, setr_abss in RR. apply (IH A L m _ w r s' W); [|exact RR].
    destruct G as [AP G]. split; [apply apart_seti; [exact AP|intros _; reflexivity|reflexivity]|]. now rewrite h_out_seti.
  - rewrite getr_abss, <- newrd_abs, setr_abss in RR. apply (IH A L m _ w r s' W); [|exact RR].
    destruct G as [AP G]. split; [apply apart_seti; [exact AP|intros _; reflexivity|reflexivity]|]. now rewrite h_out_seti.
  - destruct A as [O0 [TH A]]; red in O0; subst o. destruct (run (c true) (abss (w_fs w) hs)) as [[r1 s1] W1] eqn:R1. injection RR as <- <- <-.
    change (chunks ((0, d) :: W1)) with (length d :: chunks W1). cbn [out flat_map fst snd Nat.eqb pass]. fold (out 0 W1).
    destruct (goodn_write L m hs w d G) as [H1 H2]. cbv zeta. set (m1 := pass1 cap m (length L) (length d)) in *.
    destruct (Nat.le_gt_cases m1 R) as [Q1|Q1].
    + destruct (H1 Q1) as [x [w' [E [G' FO]]]]. rewrite E.
      rewrite <- (abss_other p (w_fs w') (w_fs w) hs (proj1 G) FO) in R1.
      rewrite app_assoc, <- app_length. apply (IH true (A true) (L ++ d) m1 (seto 0 x hs) w' r1 s1 W1 G' R1).
    + assert (MO : m1 <= pass cap m1 (length L + length d) (chunks W1)).
      { apply pass_ge. destruct G as [_ [_ [_ [G _]]]]. pose proof (pass1_ge cap m (length L) (length d) G). lia. }
      split; [lia|]. intros _. destruct (H2 Q1) as [x [w' [E F']]]. rewrite E. destruct (TH eq_refl) as [e ->]. cbn [lrun].
      exists e, (seto 0 x hs), w'. split; [reflexivity|]. rewrite app_assoc. now apply fulln_more.
Qed.
(* a first write whose error is dropped; there is none *)
Lemma first_strictly {X} (d : bytes) (q : io X) : length d <= cap -> strictly d 0 q -> strictly [] 0 (write_ 0 d ;;; q).
Proof.
  intros L S hs w r s' W G RR. unfold write_ in *. cbn [bind run lrun] in *.
  destruct (goodn_write [] 0 hs w d G) as [H1 _]. cbn [length] in H1. unfold pass1 in H1. cbv zeta in H1.
  destruct (Nat.leb_spec (length d) (cap - (0 - 0))) as [_|]; [|lia]. destruct H1 as [x [w' [E [G' FO]]]]; [lia|]. rewrite E.
  destruct (run q (abss (w_fs w) hs)) as [[r1 s1] W1] eqn:R1. injection RR as <- <- <-.
  rewrite <- (abss_other p (w_fs w') (w_fs w) hs (proj1 G) FO) in R1.
  specialize (S (seto 0 x hs) w' r1 s1 W1 G' R1). change (chunks ((0, d) :: W1)) with (length d :: chunks W1).
  cbn [pass length Nat.add]. assert (P0 : pass1 cap 0 0 (length d) = 0).
  { unfold pass1. cbv zeta. destruct (Nat.leb_spec (length d) (cap - (0 - 0))) as [_|]; lia. }
  rewrite P0. exact S.
Qed.
Lemma strictly_newrd {X} L n h k (q : io X) : strictly L n q -> strictly L n (NewRd h k q).
Proof.
  intros S hs w r s' W G RR. cbn [run lrun] in *. rewrite getr_abss, <- newrd_abs, setr_abss in RR.
  apply (S _ w r s' W); [|exact RR]. destruct G as [AP G]. split; [apply apart_seti; [exact AP|intros _; reflexivity|reflexivity]|]. now rewrite h_out_seti.
Qed.

(* the deferred Flush *)
Lemma goodn_flush L n hs w : goodn L n hs w ->
  let '(_, x, w') := h_flush (disk C) (h_out hs 0) w in
  w_fs w' p = Some (base ++ firstn R L) /\ w_used w' = Nat.min C (u0 + length L) /\
  apart p (seto 0 x hs) /\ (forall q, q <> p -> w_fs w' q = w_fs w q).
Proof.
  intros [AP [UC [NR [NL [BC [HF [HU HO]]]]]]]. rewrite HO. unfold h_flush. cbn [o_cap]. destruct cap as [|cap'] eqn:EC; [congruence|]. rewrite <- EC in *. clear cap' EC.
  unfold bw_flush. cbn [o_bad o_buf o_path o_cap].
  assert (LB : length (skipn n L) = length L - n) by apply skipn_length.
  destruct (skipn n L) as [|b0 B0] eqn:EB.
  - cbn in LB. split; [rewrite HF; f_equal; f_equal; rewrite !firstn_all2; auto; lia|]. split; [lia|].
    split; [now apply apart_seto|auto].
  - rewrite <- EB in *. clear b0 B0 EB. destruct (os_write_moved (disk C) p _ (skipn n L) w HF) as [k [w' [WR [K [F1 [U1 F2]]]]]].
    rewrite WR. unfold disk in K; cbn [takes] in K. rewrite HU, LB in K. split; [|split; [lia|]; split; [now apply apart_seto|exact F2]].
    rewrite F1, <- app_assoc. f_equal. f_equal. rewrite <- (firstn_split n R L NR). f_equal.
    destruct (Nat.leb_spec (length L) R); [rewrite !firstn_all2; auto; lia|f_equal; lia].
Qed.
Lemma fulln_flush L hs w : fulln L hs w ->
  let '(_, x, w') := h_flush (disk C) (h_out hs 0) w in w' = w /\ x = h_out hs 0.
Proof.
  intros [_ [_ [_ [_ [_ [F3 F4]]]]]]. unfold h_flush. destruct (o_cap (h_out hs 0)) eqn:K; [congruence|]. unfold bw_flush. rewrite F4. auto.
Qed.
End Full.

(* a program behind a writer, with its deferred Flush *)
Lemma section_strict {X} C cap (q : io X) p hs w F r s' W : cap <> 0 -> w_used w <= C ->
  strictly C cap p F (w_used w) [] 0 q -> apart p hs -> w_fs w p = Some F ->
  run q (abss (w_fs w) hs) = (r, s', W) ->
  let n := pass cap 0 0 (chunks W) in
  (w_used w + n <= C -> exists hs' w', lrun (disk C) (NewWr 0 cap (with_flush 0 q)) hs w = (r, hs', w') /\
     w_fs w' p = Some (F ++ firstn (C - w_used w) (out 0 W)) /\ w_used w' = Nat.min C (w_used w + length (out 0 W)) /\
     apart p hs' /\ abss (w_fs w') hs' = s') /\
  (C < w_used w + n -> exists e hs' w', lrun (disk C) (NewWr 0 cap (with_flush 0 q)) hs w = (Err e, hs', w') /\
     w_fs w' p = Some (F ++ firstn (C - w_used w) (out 0 W)) /\ w_used w' = C).
Proof.
  intros NC UC T AP HF R n. cbn [lrun]. rewrite lrun_with_flush. set (hs0 := seto 0 _ hs).
  assert (K0 : paths hs 0 = Some p) by apply AP.
  assert (G : goodn C cap p F (w_used w) [] 0 hs0 w).
  { split; [apply apart_seto; [exact AP|exact K0]|]. split; [exact UC|]. cbn. rewrite app_nil_r, Nat.add_0_r.
    split; [lia|]. split; [lia|]. split; [lia|]. split; [exact HF|]. split; [reflexivity|]. f_equal. exact K0. }
  change (abss (w_fs w) hs) with (abss (w_fs w) hs0) in R.
  destruct (T hs0 w r s' W G R) as [T1 T2]. cbn [app length] in T1, T2. fold n in T1, T2.
  split; intros Q.
  - destruct (T1 ltac:(lia)) as [hs1 [w1 [E1 [GF AB]]]]. rewrite E1. pose proof (goodn_flush C cap NC p F (w_used w) (out 0 W) n hs1 w1 GF) as FC.
    destruct (h_flush (disk C) (h_out hs1 0) w1) as [[ok x] w2]. destruct FC as [F1 [F2 [F3 F4]]]. exists (seto 0 x hs1), w2.
    split; [reflexivity|]. split; [exact F1|]. split; [exact F2|]. split; [exact F3|]. rewrite <- AB.
    change (abss (w_fs w2) (seto 0 x hs1)) with (abss (w_fs w2) hs1). apply (abss_other p); [apply GF|exact F4].
  - destruct (T2 ltac:(lia)) as [e [hs1 [w1 [E1 GF]]]]. rewrite E1. pose proof (fulln_flush C cap NC p F (w_used w) (out 0 W) hs1 w1 GF) as FC.
    destruct (h_flush (disk C) (h_out hs1 0) w1) as [[ok x] w2]. destruct FC as [-> ->]. exists e, (seto 0 (h_out hs1 0) hs1), w1.
    split; [reflexivity|]. destruct GF as [_ [F1 [F2 _]]]. split; assumption.
Qed.
