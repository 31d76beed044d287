(* LiveGrow.v -- no command truncates a file it has written to, so that a crash leaves prefixes. *)
From Coq Require String.
From Verif Require Import Base Fld Conc Parallel IO Ext Spec1 Phase1 Gob Circuit Spec2 Phase2 Fs Init2 Spec4 Keys KeysClaims Phase1Io
  Phase1Verify Live LiveLemmas Sok LiveFail SokPrograms LiveCmd LiveClaims LiveMore LiveAgree LiveTwin Spec5.

Definition op_path (o : osop) : string := match o with OTrunc p => p | OApp p _ => p end.
Definition grows (ops : list osop) : Prop :=
  forall l1 q l2, ops = l1 ++ OTrunc q :: l2 -> Forall (fun o => op_path o <> q) l1.

Lemma replay_away q : forall l f, Forall (fun o => op_path o <> q) l -> replay l f q = f q.
Proof.
  induction l as [|o l IH]; intros f H; [reflexivity|]. apply Forall_cons_iff in H as [T H].
  change (replay (o :: l) f) with (replay l (op_do f o)). rewrite IH by exact H.
  destruct o as [p|p d]; cbn [op_do op_path] in *; apply fset_other; congruence.
Qed.
Lemma replay_none q : forall l f, replay l f q = None -> f q = None.
Proof.
  induction l as [|o l IH]; intros f H; [exact H|]. change (replay (o :: l) f) with (replay l (op_do f o)) in H.
  apply IH in H. destruct o as [p|p d]; cbn [op_do] in H; unfold fset in H; destruct (String.eqb p q); congruence.
Qed.
Lemma replay_more q : forall l f b, f q = Some b -> ~ In (OTrunc q) l -> exists d, replay l f q = Some (b ++ d).
Proof.
  induction l as [|o l IH]; intros f b H N; [exists []; now rewrite app_nil_r|].
  change (replay (o :: l) f) with (replay l (op_do f o)).
  assert (N' : ~ In (OTrunc q) l) by (intros K; apply N; now right).
  destruct (String.string_dec (op_path o) q) as [Q|Q].
  - destruct o as [p|p d]; cbn [op_path] in Q; subst p; [exfalso; apply N; now left|].
    destruct (IH (op_do f (OApp q d)) (b ++ d)) as [d' D]; [cbn [op_do]; rewrite fset_same; unfold contents; now rewrite H|exact N'|].
    exists (d ++ d'). now rewrite app_assoc.
  - apply IH; [|exact N']. destruct o as [p|p d]; cbn [op_do op_path] in *; rewrite fset_other by congruence; exact H.
Qed.
Lemma trunc_dec q (l : list osop) : In (OTrunc q) l \/ ~ In (OTrunc q) l.
Proof.
  induction l as [|[p|p d] l [IH|IH]]; [right; intros []|left; now right| |left; now right|].
  - destruct (String.string_dec p q) as [->|N]; [left; now left|]. right. intros [K|K]; [congruence|auto].
  - right. intros [K|K]; [discriminate|auto].
Qed.
Lemma firstn_here {X} (a b : list X) : firstn (length a) (a ++ b) = a.
Proof. now rewrite firstn_app, Nat.sub_diag, firstn_all, firstn_O, app_nil_r. Qed.

Lemma grows_prefix q l1 l2 f : grows (l1 ++ l2) ->
  replay l1 f q = f q \/ exists O n, replay (l1 ++ l2) f q = Some O /\ replay l1 f q = Some (firstn n O).
Proof.
  intros G. destruct (trunc_dec q l2) as [T|T].
  - left. apply in_split in T as [a [b ->]]. apply replay_away.
    specialize (G (l1 ++ a) q b). rewrite app_assoc in G. specialize (G eq_refl). now apply Forall_app in G as [G _].
  - destruct (replay l1 f q) as [b|] eqn:R.
    + right. destruct (replay_more q l2 (replay l1 f) b R T) as [d D]. exists (b ++ d), (length b).
      split; [now rewrite replay_app|]. now rewrite firstn_here.
    + left. symmetry. eapply replay_none. exact R.
Qed.
Lemma grows_died q ops l' f : grows ops -> died ops l' ->
  replay l' f q = f q \/ exists O n, replay ops f q = Some O /\ replay l' f q = Some (firstn n O).
Proof.
  intros G [[l2 ->]|[l1 [p [d [t [l2 [-> ->]]]]]]]; [now apply grows_prefix|].
  destruct (String.string_dec p q) as [->|N].
  - right. rewrite replay_app.
    assert (T : ~ In (OTrunc q) l2).
    { intros T. apply in_split in T as [a [b ->]]. specialize (G (l1 ++ OApp q d :: a) q b). rewrite <- app_assoc in G.
      specialize (G eq_refl). apply Forall_app in G as [_ G]. apply Forall_cons_iff in G as [G _]. now apply G. }
    change (l1 ++ OApp q d :: l2) with (l1 ++ [OApp q d] ++ l2). rewrite !replay_app. set (h := replay l1 f).
    change (replay [OApp q d] h) with (fset h q (contents h q ++ d)).
    change (replay [OApp q (firstn t d)] h) with (fset h q (contents h q ++ firstn t d)). rewrite fset_same.
    destruct (replay_more q l2 (fset h q (contents h q ++ d)) (contents h q ++ d) (fset_same _ _ _) T) as [e X].
    exists ((contents h q ++ d) ++ e), (length (contents h q) + Nat.min t (length d)). split; [exact X|]. f_equal.
    rewrite <- app_assoc, firstn_app_2. f_equal. rewrite firstn_app.
    replace (Nat.min t (length d) - length d) with 0 by lia. rewrite firstn_O, app_nil_r.
    destruct (Nat.le_ge_cases t (length d)); [f_equal; lia|]. rewrite !firstn_all2 by lia. reflexivity.
  - rewrite replay_app. change (replay [OApp p (firstn t d)] (replay l1 f) q) with (fset (replay l1 f) p (contents (replay l1 f) p ++ firstn t d) q).
    rewrite fset_other by congruence. now apply grows_prefix.
Qed.

(* ops that truncate at most T, touch at most A, and grow *)
Definition lta {X} (T A : list string) (l : lcmd X) : Prop := forall w, exists ops,
  w_ops (snd (l w)) = w_ops w ++ ops /\ feq (w_fs (snd (l w))) (replay ops (w_fs w)) /\
  Forall (touches A) ops /\ (forall q, In (OTrunc q) ops -> In q T) /\ grows ops.
Lemma lta_skip {X} T A (l : lcmd X) : (forall w, snd (l w) = w) -> lta T A l.
Proof.
  intros H w. exists []. rewrite H, app_nil_r. split; [auto|]. split; [intros q; reflexivity|]. split; [constructor|].
  split; [intros q []|]. intros [|a l1] q l2 Q; discriminate Q.
Qed.
Lemma lta_bind {X Y} T1 A1 T2 A2 T A (l : lcmd X) (k : X -> lcmd Y) : lta T1 A1 l -> (forall x, lta T2 A2 (k x)) ->
  (forall q, In q T2 -> ~ In q A1) -> incl T1 T -> incl T2 T -> incl A1 A -> incl A2 A -> lta T A (lbind l k).
Proof.
  intros L K D I1 I2 J1 J2 w. destruct (L w) as [o1 [B1 [B2 [B3 [B4 B5]]]]]. unfold lbind. destruct (l w) as [r w1]. cbn [snd] in *.
  assert (TT : forall Z A', incl Z A' -> forall o, Forall (touches Z) o -> Forall (touches A') o).
  { intros Z A' I o F. eapply Forall_impl; [|exact F]. intros [p|p d]; cbn; apply I. }
  assert (STOP : exists ops, w_ops w1 = w_ops w ++ ops /\ feq (w_fs w1) (replay ops (w_fs w)) /\
    Forall (touches A) ops /\ (forall q, In (OTrunc q) ops -> In q T) /\ grows ops).
  { exists o1. split; [exact B1|]. split; [exact B2|]. split; [exact (TT A1 A J1 o1 B3)|]. split; [auto|exact B5]. }
  destruct r as [x|e|]; [|exact STOP|exact STOP]. clear STOP.
  destruct (K x w1) as [o2 [C1 [C2 [C3 [C4 C5]]]]]. exists (o1 ++ o2). split; [now rewrite C1, B1, app_assoc|]. split.
  { intros q. rewrite C2, replay_app. now apply replay_ext. }
  split; [apply Forall_app; split; [exact (TT A1 A J1 o1 B3)|exact (TT A2 A J2 o2 C3)]|]. split.
  { intros q Q. apply in_app_or in Q as [Q|Q]; auto. }
  intros l1 q l2 Q. apply app_eq_app in Q as [m [[Q1 Q2]|[Q1 Q2]]].
  - destruct m as [|y m].
    + rewrite app_nil_r in Q1. subst l1. cbn [app] in Q2. apply Forall_forall. intros o O P.
      apply (D q); [apply C4; rewrite <- Q2; now left|]. rewrite Forall_forall in B3. specialize (B3 o O). destruct o as [z|z d]; cbn in *; congruence.
    + injection Q2 as <- Q2. apply (B5 l1 q m Q1).
  - subst l1. apply Forall_app. split; [|apply (C5 m q l2 Q2)].
    apply Forall_forall. intros o O P. apply (D q); [apply C4; rewrite Q2; apply in_or_app; right; now left|].
    rewrite Forall_forall in B3. specialize (B3 o O). destruct o as [z|z d]; cbn in *; congruence.
Qed.
Lemma lta_open T A p : lta T A (lopen p). Proof. apply lta_skip. reflexivity. Qed.
Lemma lta_ret T A {X} (x : X) : lta T A (lret x). Proof. apply lta_skip. reflexivity. Qed.
Lemma lta_create dev T A p : In p T -> In p A -> lta T A (lcreate dev p).
Proof.
  intros I J w. unfold lcreate. destruct (can_create dev (length (w_ops w)) p).
  2: { exists []. cbn [snd]. rewrite app_nil_r. split; [reflexivity|]. split; [intros q; reflexivity|]. split; [constructor|].
       split; [intros q []|]. intros [|a l1] q l2 Q; discriminate Q. }
  exists [OTrunc p]. split; [reflexivity|]. split; [intros q; reflexivity|]. split; [constructor; [exact J|constructor]|].
  split; [intros q [Q|[]]; congruence|]. intros [|a [|b l1]] q l2 Q; [constructor|discriminate Q|discriminate Q].
Qed.
Lemma lta_stage_at dev T A {X} (p : io X) a b pt : (forall k q, pt k = Some q -> In q A) -> lta T A (lstage_at dev p a b pt).
Proof.
  intros I w. unfold lstage_at. pose proof (lrun_grow dev p (fresh_at a b pt) w) as G.
  destruct (lrun dev p (fresh_at a b pt) w) as [[r hs'] w']. destruct G as [[l [G1 [G2 G3]]] _]. exists l. cbn [snd].
  split; [exact G1|]. split; [exact G2|]. split; [|split].
  - apply Forall_forall. intros o O. destruct (G3 o O) as [k [q [d [-> K]]]]. exact (I k q K).
  - intros q Q. destruct (G3 _ Q) as [k [q' [d [K _]]]]. discriminate.
  - intros l1 q l2 Q. destruct (G3 (OTrunc q)) as [k [q' [d [K _]]]]; [rewrite Q; apply in_or_app; right; now left|discriminate].
Qed.
Lemma lta_stage dev T A {X} (p : io X) a b outs : (forall q, In q outs -> In q A) -> lta T A (lstage dev p a b outs).
Proof.
  intros I. change (lstage dev p a b outs) with (lstage_at dev p a b (nth_error outs)). apply lta_stage_at.
  intros k q K. apply I. eapply nth_error_In. exact K.
Qed.
Lemma lta_hold dev T A {X} (p : io X) a b outs : (forall q, In q outs -> In q A) -> lta T A (lhold dev p a b outs).
Proof.
  intros I w. destruct (lta_stage dev T A p a b outs I w) as [l H]. exists l. unfold lhold. unfold lstage in H.
  destruct (lrun dev p (fresh a b outs) w) as [[r hs'] w']. exact H.
Qed.
Lemma lta_res T A {X} (r : res X) : lta T A (lres r). Proof. apply lta_skip. reflexivity. Qed.
Lemma lta_flush dev T A p x : In p A -> lta T A (lflush dev p x).
Proof.
  intros I w. unfold lflush. cbn [snd]. destruct (proj1 (h_flush_grows dev (mkO (Some p) (o_cap x) (o_buf x) (o_bad x)) w)) as [l [G1 [G2 G3]]].
  exists l. split; [exact G1|]. split; [exact G2|]. split; [|split].
  - apply Forall_forall. intros o O. destruct (G3 o O) as [q [d [-> K]]]. injection K as <-. exact I.
  - intros q Q. destruct (G3 _ Q) as [q' [d [K _]]]. discriminate.
  - intros l1 q l2 Q. destruct (G3 (OTrunc q)) as [q' [d [K _]]]; [rewrite Q; apply in_or_app; right; now left|discriminate].
Qed.
(* the same as c and then d *)
Lemma lta_defer {X} T1 A1 T A (c : lcmd X) d : lta T1 A1 c -> lta [] A d -> incl T1 T -> incl A1 A -> lta T A (ldefer c d).
Proof.
  intros C D I J w.
  assert (L : lta T A (lbind (fun w => (Ok tt, snd (c w))) (fun _ => d))).
  { eapply (lta_bind T1 A1 [] A); [|intros _; exact D|intros q []|exact I|intros q []|exact J|apply incl_refl]. exact C. }
  specialize (L w). unfold ldefer. unfold lbind in L. destruct (c w) as [r w1]. exact L.
Qed.
Lemma lta_prefixes {X} T A (c : lcmd X) : lta T A c -> prefixes c.
Proof.
  intros L f g q [l [D ->]]. destruct (L (start f)) as [ops [B1 [B2 [_ [_ G]]]]]. cbn [start w_ops w_fs app] in B1, B2.
  rewrite B1 in D. destruct (grows_died q ops l f G D) as [H|[O [n [H1 H2]]]]; [now left|]. right. exists O, n. split; [|exact H2].
  unfold after. now rewrite B2.
Qed.

Lemma lta_weak {X} T A T' A' (l : lcmd X) : lta T A l -> incl T T' -> incl A A' -> lta T' A' l.
Proof.
  intros L I J w. destruct (L w) as [ops [B1 [B2 [B3 [B4 B5]]]]]. exists ops. do 2 (split; [assumption|]).
  split; [|split; [auto|exact B5]]. eapply Forall_impl; [|exact B3]. intros [p|p d]; cbn; apply J.
Qed.

Section Grow.
Context {E : Ext2}.
Variable dev : device.
Ltac lt := first [apply lta_open|apply lta_ret|apply lta_create; cbn; tauto|apply lta_stage; cbn; tauto
  |apply lta_stage_at; intros [|[|[|[|k]]]] q K; cbn in K; try discriminate; injection K as <-; cbn; tauto].
(* a step that touches nothing, or only appends, before k *)
Lemma lta_quiet {X Y} T A (l : lcmd X) (k : X -> lcmd Y) : lta [] [] l -> (forall x, lta T A (k x)) -> lta T A (lbind l k).
Proof. intros H K. eapply (lta_bind [] [] T A); [exact H|exact K| | | | |]; try (intros q []); try apply incl_refl. intros q I []. Qed.
Lemma lta_app {X Y} A (l : lcmd X) (k : X -> lcmd Y) : lta [] A l -> (forall x, lta [] A (k x)) -> lta [] A (lbind l k).
Proof. intros H K. eapply (lta_bind [] A [] A); [exact H|exact K| | | | |]; try (intros q []); apply incl_refl. Qed.
Ltac lq := eapply lta_quiet; [lt|intros ?].
Ltac la := eapply lta_app; [lt|intros ?].
Lemma grow_one {X} (p : io X) ip op : lta [op] [op] (l_one dev p ip op).
Proof.
  unfold l_one. lq. eapply (lta_bind [op] [op] [] [op]); [lt|intros _; lt|intros q []|apply incl_refl|intros q []|apply incl_refl|apply incl_refl].
Qed.
Lemma grow_initialize {E1 : Ext} pw op : lta [op] [op] (l_initialize (E := E1) dev pw op).
Proof.
  unfold l_initialize. eapply (lta_bind [op] [op] [] [op]); [lt|intros _; lt|intros q []|apply incl_refl|intros q []|apply incl_refl|apply incl_refl].
Qed.
Lemma grow_steps circuit cons nb p1 p2 : (forall T A, lta T A circuit) -> p2 <> lag_path -> p2 <> evals_path ->
  lta [lag_path; evals_path] [p2; lag_path; evals_path] (l_init_steps (E := E) dev circuit cons nb p1 p2).
Proof.
  intros C N1 N2. assert (N3 : lag_path <> evals_path) by discriminate.
  unfold l_init_steps. cbv zeta. eapply lta_quiet; [apply C|intros cs].
  eapply (lta_bind [] [p2] [lag_path; evals_path] [p2; lag_path; evals_path]); [lt| | | | | |].
  2: { intros q [<-|[<-|[]]] [I|[]]; congruence. }
  2: intros q []. 2: apply incl_refl. 2: intros q [<-|[]]; cbn; tauto. 2: apply incl_refl.
  intros [pw h]. eapply (lta_bind [lag_path] [p2; lag_path] [evals_path] [p2; lag_path; evals_path]).
  - unfold l_lagrange. destruct (new_domain (E := E) (h_domain h)); [|apply lta_skip; reflexivity].
    eapply (lta_bind [lag_path] [lag_path] [] [p2; lag_path]); [lt|intros _; lt|intros q []|apply incl_refl|intros q []|intros q [<-|[]]; cbn; tauto|apply incl_refl].
  - intros _. lq. eapply (lta_bind [evals_path] [evals_path] [] [p2; lag_path; evals_path]);
      [lt| |intros q []|apply incl_refl|intros q []|intros q [<-|[]]; cbn; tauto|apply incl_refl].
    intros _. la. eapply lta_app; [apply C|intros cs2]. do 3 la. eapply lta_app; [apply C|intros cs3]. lt.
  - intros q [<-|[]] [I|[I|[]]]; congruence.
  - intros q [<-|[]]; cbn; tauto.
  - intros q [<-|[]]; cbn; tauto.
  - intros q [<-|[<-|[]]]; cbn; tauto.
  - apply incl_refl.
Qed.
Lemma grow_p2 circuit cons nb p1 p2 : (forall T A, lta T A circuit) -> p2 <> lag_path -> p2 <> evals_path ->
  lta [p2; lag_path; evals_path] [p2; lag_path; evals_path]
    (lbind (lopen p1) (fun _ => lbind (lcreate dev p2) (fun _ => l_init_steps (E := E) dev circuit cons nb p1 p2))).
Proof.
  intros C N1 N2. lq. eapply (lta_bind [p2] [p2] [lag_path; evals_path] [p2; lag_path; evals_path]); [lt|intros _; now apply grow_steps| | | | |].
  - intros q [<-|[<-|[]]] [I|[]]; congruence.
  - intros q [<-|[]]; cbn; tauto.
  - intros q [<-|[<-|[]]]; cbn; tauto.
  - intros q [<-|[]]; cbn; tauto.
  - apply incl_refl.
Qed.
Lemma lta_p2n p1 r1 p2 : p2 <> lag_path -> p2 <> evals_path -> lta [p2; lag_path; evals_path] [p2; lag_path; evals_path] (l_p2n (E := E) dev p1 r1 p2).
Proof.
  intros N1 N2. unfold l_p2n. apply grow_p2; [|exact N1|exact N2].
  intros T A. unfold l_read_r1cs. lq. apply lta_skip. intros w. destruct (parse_r1cs _); reflexivity.
Qed.
Lemma grow_p2n p1 r1 p2 : p2 <> lag_path -> p2 <> evals_path -> prefixes (l_p2n (E := E) dev p1 r1 p2).
Proof. intros N1 N2. eapply lta_prefixes. now apply lta_p2n. Qed.
Lemma lta_p2np (cs : r1cs E) p1 p2 n : p2 <> lag_path -> p2 <> evals_path -> lta [p2; lag_path; evals_path] [p2; lag_path; evals_path] (l_p2np (E := E) dev cs p1 p2 n).
Proof. intros N1 N2. unfold l_p2np. apply grow_p2; [|exact N1|exact N2]. intros T A. apply lta_ret. Qed.
Lemma grow_p2np (cs : r1cs E) p1 p2 n : p2 <> lag_path -> p2 <> evals_path -> prefixes (l_p2np (E := E) dev cs p1 p2 n).
Proof. intros N1 N2. eapply lta_prefixes. now apply lta_p2np. Qed.

Lemma lta_keys wr (g sg : E) p : lta [pk_path; vk_path] [pk_path; vk_path] (l_keys dev wr g sg p).
Proof.
  assert (N : pk_path <> vk_path) by discriminate.
  unfold l_keys, l_pk, l_vk, l_header.
  eapply (lta_bind [pk_path] [pk_path] [vk_path] [vk_path]).
  - do 3 lq. eapply (lta_bind [pk_path] [pk_path] [] [pk_path]); [lt|intros _; lt|intros q []|apply incl_refl|intros q []|apply incl_refl|apply incl_refl].
  - intros _. do 3 lq. eapply (lta_bind [vk_path] [vk_path] [] [vk_path]); [lt|intros _|intros q []|apply incl_refl|intros q []|apply incl_refl|apply incl_refl].
    la. lt.
  - intros q [<-|[]] [I|[]]; congruence.
  - intros q [<-|[]]; cbn; tauto.
  - intros q [<-|[]]; cbn; tauto.
  - intros q [<-|[]]; cbn; tauto.
  - intros q [<-|[]]; cbn; tauto.
Qed.
Lemma grow_keys wr (g sg : E) p : prefixes (l_keys dev wr g sg p).
Proof. eapply lta_prefixes. apply lta_keys. Qed.
Lemma grow_creates A : forall names T0 (l : lcmd unit), NoDup names -> (forall q, In q names -> ~ In q T0) -> incl names A -> incl T0 A -> lta T0 T0 l ->
  lta (T0 ++ names) (T0 ++ names) (fold_left (fun c n => lbind c (fun _ => lcreate dev n)) names l).
Proof.
  induction names as [|n names IH]; intros T0 l ND D I I0 L; [now rewrite app_nil_r|]. cbn [fold_left]. inversion ND; subst.
  replace (T0 ++ n :: names) with ((T0 ++ [n]) ++ names) by (now rewrite <- app_assoc). apply IH; [assumption| | | |].
  - intros q Q K. apply in_app_or in K as [K|[<-|[]]]; [|contradiction]. apply (D q); [now right|exact K].
  - intros q Q. apply I. now right.
  - intros q Q. apply in_app_or in Q as [Q|[<-|[]]]; [auto|]. apply I. now left.
  - eapply (lta_bind T0 T0 [n] [n]); [exact L|intros _; lt| | | | |].
    + intros q [<-|[]]. apply D. now left.
    + intros q Q. apply in_or_app. auto.
    + intros q Q. apply in_or_app. auto.
    + intros q Q. apply in_or_app. auto.
    + intros q Q. apply in_or_app. auto.
Qed.
Lemma lta_split_keys wr (g sg : E) p s :
  lta (split_names s ++ [vks_path s; ckey_path s]) (split_names s ++ [vks_path s; ckey_path s]) (l_split_keys dev wr g sg p s).
Proof.
  assert (D1 : ~ In (vks_path s) (split_names s)).
  { intros Q. cbn [split_names List.map In] in Q. repeat (destruct Q as [Q|Q]; [apply save_inj in Q; discriminate Q|]). exact Q. }
  assert (D2 : ~ In (ckey_path s) (split_names s)).
  { intros Q. cbn [split_names List.map In] in Q. repeat (destruct Q as [Q|Q]; [apply save_inj in Q; discriminate Q|]). exact Q. }
  assert (D3 : vks_path s <> ckey_path s) by (intros Q; apply save_inj in Q; discriminate Q).
  set (ns := split_names s) in *. set (v := vks_path s) in *. set (c := ckey_path s) in *.
  unfold l_split_keys, l_split_pk, l_split_vk, l_header. cbv zeta. fold ns v c.
  eapply (lta_bind ns ns [v; c] [v; c]).
  - do 3 lq. eapply (lta_bind ns ns [] ns); [|intros _; apply lta_stage; auto|intros q []|apply incl_refl|intros q []|apply incl_refl|apply incl_refl].
    apply (grow_creates ns ns [] (lret tt)); [apply split_nodup|intros q _ []|apply incl_refl|intros q []|lt].
  - intros _. do 3 lq. eapply (lta_bind [v] [v] [c] [v; c]); [lt| | | | | |].
    + intros _. eapply (lta_bind [] [v] [c] [v; c]); [apply lta_hold; auto|intros y| | | | |].
      * apply (lta_defer [c] [c]); [|apply lta_flush; cbn; tauto|apply incl_refl|intros q [<-|[]]; cbn; tauto].
        eapply lta_quiet; [apply lta_res|intros ck].
        eapply (lta_bind [c] [c] [] [c]); [lt|intros _; lt|intros q []|apply incl_refl|intros q []|apply incl_refl|apply incl_refl].
      * intros q [<-|[]] [I|[]]; congruence.
      * intros q [].
      * apply incl_refl.
      * intros q [<-|[]]; cbn; tauto.
      * apply incl_refl.
    + intros q [<-|[]] [I|[]]; congruence.
    + intros q [<-|[]]; cbn; tauto.
    + intros q [<-|[]]; cbn; tauto.
    + intros q [<-|[]]; cbn; tauto.
    + apply incl_refl.
  - intros q [<-|[<-|[]]]; assumption.
  - intros q Q. apply in_or_app. auto.
  - intros q Q. apply in_or_app. auto.
  - intros q Q. apply in_or_app. auto.
  - intros q Q. apply in_or_app. auto.
Qed.
Lemma grow_split_keys wr (g sg : E) p s : prefixes (l_split_keys dev wr g sg p s).
Proof. eapply lta_prefixes. apply lta_split_keys. Qed.
End Grow.
Lemma grow_transform {E : Ext} dev pin pout ip op : prefixes (l_transform (E := E) dev pin pout ip op).
Proof. eapply lta_prefixes. apply (grow_one dev (transform (E := E) pin pout) ip op). Qed.
Lemma grow_init {E : Ext} dev pw op : prefixes (l_initialize (E := E) dev pw op).
Proof. eapply lta_prefixes. apply grow_initialize. Qed.
