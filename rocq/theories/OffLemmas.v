(* OffLemmas.v -- if the outputs of a process are different files which nobody else writes, every write goes to the end
   of its file: Off.v and Proc.v do the same. *)
From Coq Require Import String.
From Verif Require Import Base Fld Conc Parallel IO Ext Spec1 Phase1 Gob Circuit Spec2 Phase2 Fs Init2 Keys Live LiveCmd LiveLemmas LiveClaims LiveTwin Spec5 Spec6 Cli CliClaims Session Spec10 Locality Proc ProcLemmas ProcUses Off.

Lemma put_end c d : put c (length c) d = c ++ d.
Proof.
  unfold put. destruct d as [|b d]; [now rewrite app_nil_r|]. rewrite firstn_all, Nat.sub_diag, skipn_all2; [|lia]. now rewrite app_nil_r.
Qed.

(* ---- one output ---- *)
Definition twin (x : fhandle) (y : ohandle) : Prop := f_path x = o_path y /\ f_cap x = o_cap y /\ f_buf x = o_buf y /\ f_bad x = o_bad y.
Definition at_end (x : fhandle) (f : fs) : Prop := forall p n, f_path x = Some p -> f_at x = Some n -> n = length (contents f p).
Definition moved (x x' : fhandle) : Prop := f_path x' = f_path x /\ (f_at x' = None <-> f_at x = None) /\ (f_path x = None -> f_at x' = f_at x).
Lemma moved_refl x : moved x x. Proof. repeat split; auto. Qed.
Lemma moved_trans x y z : moved x y -> moved y z -> moved x z.
Proof. intros (A & B & C) (A' & B' & C'). split; [congruence|]. split; [tauto|]. intros H. rewrite C' by congruence. auto. Qed.
Lemma os_twin dev x y d w : twin x y -> at_end x (w_fs w) -> let '(ok, n, x', w') := f_os dev x d w in
  os_write dev (o_path y) d w = (ok, n, w') /\ twin x' y /\ at_end x' (w_fs w') /\ moved x x'.
Proof.
  intros (T1 & T2 & T3 & T4) A. unfold f_os, os_write. rewrite <- T1. destruct (f_path x) as [p|] eqn:P.
  2:{ split; [reflexivity|]. split; [now repeat split; congruence|]. split; [exact A|apply moved_refl]. }
  set (n := Nat.min _ _). set (d' := firstn n d). cbn zeta.
  assert (Q : match f_at x with Some a => put (contents (w_fs w) p) a d' | None => contents (w_fs w) p ++ d' end = contents (w_fs w) p ++ d').
  { destruct (f_at x) as [a|] eqn:AT; [|reflexivity]. rewrite (A p a P AT). apply put_end. }
  rewrite Q. split; [reflexivity|]. split; [now repeat split; cbn; congruence|]. split.
  - intros q m HP HA. cbn [f_path f_at w_fs] in *. injection HP as <-. destruct (f_at x) as [a|] eqn:AT; [|discriminate]. injection HA as <-.
    unfold contents at 1, fset. rewrite String.eqb_refl. rewrite app_length, (A p a P AT).
    unfold d'. rewrite firstn_length. subst n. lia.
  - split; [cbn; congruence|]. split; [cbn; destruct (f_at x); cbn; intuition discriminate|]. cbn. congruence.
Qed.
Definition alike (r : bool * fhandle * world) (s : bool * ohandle * world) (x : fhandle) : Prop :=
  let '(ok, x', w') := r in let '(ok2, y', w2) := s in ok = ok2 /\ w' = w2 /\ twin x' y' /\ at_end x' (w_fs w') /\ moved x x'.
Lemma alike_intro (ok : bool) x0 x' y' w : twin x' y' -> at_end x' (w_fs w) -> moved x0 x' -> alike (ok, x', w) (ok, y', w) x0.
Proof. intros A B C. split; [reflexivity|]. split; [reflexivity|]. split; [exact A|]. split; [exact B|exact C]. Qed.
Lemma flush_twin dev x y w : twin x y -> at_end x (w_fs w) -> alike (f_flush dev x w) (bw_flush dev y w) x.
Proof.
  intros T A. pose proof T as (T1 & T2 & T3 & T4). unfold f_flush, bw_flush. rewrite T4, T3. destruct (o_bad y); [apply alike_intro; auto using moved_refl|]. destruct (o_buf y) as [|b l]; [apply alike_intro; auto using moved_refl|].
  pose proof (os_twin dev x y (b :: l) w T A) as O. destruct (f_os dev x (b :: l) w) as [[[ok n] x'] w']. destruct O as (-> & (U1 & U2 & U3 & U4) & O3 & O4).
  split; [reflexivity|]. split; [reflexivity|]. split; [now repeat split; cbn; congruence|]. split; [exact O3|exact O4].
Qed.
Lemma direct_twin dev d x y w : twin x y -> at_end x (w_fs w) -> alike (f_direct dev d x w) (bw_direct dev d y w) x.
Proof.
  intros T A. unfold f_direct, bw_direct.
  pose proof (os_twin dev x y d w T A) as O. destruct (f_os dev x d w) as [[[ok n] x'] w']. destruct O as (-> & (U1 & U2 & U3 & U4) & O3 & O4).
  split; [reflexivity|]. split; [reflexivity|]. split; [now repeat split; cbn; congruence|]. split; [exact O3|exact O4].
Qed.
Lemma write_twin dev d x y w : twin x y -> at_end x (w_fs w) -> alike (f_write dev d x w) (bw_write dev d y w) x.
Proof.
  intros T A. pose proof T as (T1 & T2 & T3 & T4). unfold f_write, bw_write. rewrite T4, T3, T2.
  destruct (o_bad y); [apply alike_intro; auto using moved_refl|]. destruct (_ <=? _) eqn:R; [apply alike_intro; [repeat split; auto|exact A|repeat split; auto]|].
  destruct (o_buf y) as [|b l] eqn:B; [now apply direct_twin|].
  set (x1 := mkF _ _ _ _ _). set (y1 := mkO _ _ _ _).
  assert (T' : twin x1 y1) by (repeat split; auto). pose proof (flush_twin dev x1 y1 w T' A) as K.
  destruct (f_flush dev x1 w) as [[ok x2] w2], (bw_flush dev y1 w) as [[ok' y2] w2']. destruct K as (<- & <- & K1 & K2 & K3).
  assert (M : moved x x2) by exact K3. destruct ok; [|now apply alike_intro].
  replace (f_cap x2) with (o_cap y2) by (symmetry; apply K1). clear R. destruct (_ <=? o_cap y2).
  - split; [reflexivity|]. split; [reflexivity|]. split; [repeat split; auto; apply K1|]. split; [exact K2|exact M].
  - pose proof (direct_twin dev (skipn (o_cap y - length (b :: l)) d) x2 y2 w2 K1 K2) as D. destruct (f_direct _ _ _ _) as [[ok3 x3] w3], (bw_direct _ _ _ _) as [[ok3' y3] w3'].
    destruct D as (D1 & D2 & D3 & D4 & D5). split; [exact D1|]. split; [exact D2|]. split; [exact D3|]. split; [exact D4|]. eapply moved_trans; [exact M|exact D5].
Qed.
Lemma hwrite_twin dev d x y w : twin x y -> at_end x (w_fs w) -> alike (fh_write dev d x w) (h_write dev d y w) x.
Proof.
  intros T A. unfold fh_write, h_write. pose proof T as (T1 & T2 & T3 & T4). rewrite T2. destruct (o_cap y); [|now apply write_twin].
  pose proof (os_twin dev x y d w T A) as O. destruct (f_os dev x d w) as [[[ok m] x'] w']. destruct O as (-> & O2 & O3 & O4). now apply alike_intro.
Qed.
Lemma hflush_twin dev x y w : twin x y -> at_end x (w_fs w) -> alike (fh_flush dev x w) (h_flush dev y w) x.
Proof.
  intros T A. unfold fh_flush, h_flush. pose proof T as (T1 & T2 & T3 & T4). rewrite T2. destruct (o_cap y); [|now apply flush_twin]. apply alike_intro; auto using moved_refl.
Qed.

(* ---- two processes that do the same as long as nobody else writes the files of W ---- *)
Section Sim.
Variable W : string -> Prop.
Inductive sim {A B} (R : A -> B -> fs -> Prop) : proc A -> proc B -> fs -> Prop :=
| sim_done a b f : (forall g, agree W f g -> R a b g) -> sim R (Done a) (Done b) f
| sim_step k k' f : (forall g, agree W f g -> fst (k g) = fst (k' g)) -> (forall g q, ~ W q -> fst (k' g) q = g q) ->
    (forall g, agree W f g -> sim R (snd (k g)) (snd (k' g)) (fst (k' g))) -> sim R (Step k) (Step k') f.
Lemma agree_refl (f : fs) : agree W f f. Proof. intros q _. reflexivity. Qed.
Lemma agree_trans (f g h : fs) : agree W f g -> agree W g h -> agree W f h. Proof. intros A B q Q. rewrite (A q Q). apply (B q Q). Qed.
Lemma sim_agree {A B} (R : A -> B -> fs -> Prop) p q f g : sim R p q f -> agree W f g -> sim R p q g.
Proof.
  intros H G. destruct H as [a b f H|k k' f H1 H2 H3]; constructor; auto; intros h K; [apply H|apply H1|apply H3]; eapply agree_trans; eassumption.
Qed.
Lemma sim_join {A B A' B'} (R : A -> B -> fs -> Prop) (S : A' -> B' -> fs -> Prop) p q g h f :
  sim R p q f -> (forall a b f, R a b f -> sim S (g a) (h b) f) -> sim S (pjoin p g) (pjoin q h) f.
Proof.
  intros H K. induction H as [a b f H|k k' f H1 H2 H3 IH]; cbn [pjoin]; [apply K, H, agree_refl|]. constructor.
  - intros f1 G. specialize (H1 f1 G). destruct (k f1), (k' f1). exact H1.
  - intros f1 x N. specialize (H2 f1 x N). destruct (k' f1). exact H2.
  - intros f1 G. specialize (IH f1 G). destruct (k f1), (k' f1). exact IH.
Qed.
Lemma sim_solo {A B} (R : A -> B -> fs -> Prop) p q f : sim R p q f -> snd (solo p f) = snd (solo q f) /\ R (fst (solo p f)) (fst (solo q f)) (snd (solo q f)).
Proof.
  intros H. induction H as [a b f H|k k' f H1 H2 H3 IH]; cbn [solo]; [split; [reflexivity|apply H, agree_refl]|].
  specialize (H1 f (agree_refl f)). specialize (IH f (agree_refl f)). destruct (k f) as [f1 p1], (k' f) as [f2 p2]. cbn [fst snd] in *. subst. exact IH.
Qed.

(* the handles of a stage; I holds of files outside of its outputs *)
Section Stage.
Variables (ps : nat -> option string) (app : nat -> bool) (offs : nat -> nat) (I : fs -> Prop).
Hypothesis inj : forall o o' p, ps o = Some p -> ps o' = Some p -> o = o'.
Hypothesis inW : forall o p, ps o = Some p -> W p.
Hypothesis frame : forall f g : fs, (forall q, W q -> (forall o, ps o <> Some q) -> f q = g q) -> I f -> I g.
Record hs_ok (fhs : fhandles) (hs : handles) (f : fs) : Prop := {
  ok_a : fh_a fhs = h_a hs;
  ok_b : fh_b fhs = h_b hs;
  ok_tw : forall o, twin (fh_out fhs o) (h_out hs o);
  ok_end : forall o, at_end (fh_out fhs o) f;
  ok_path : forall o, f_path (fh_out fhs o) = ps o;
  ok_app : forall o, f_at (fh_out fhs o) = None <-> app o = true;
  ok_none : forall o, ps o = None -> app o = false -> f_at (fh_out fhs o) = Some (offs o);
  ok_I : I f }.
Lemma getj_ok fhs hs f h : hs_ok fhs hs f -> getj h fhs = geti h hs.
Proof. intros H. destruct h; [apply (ok_b _ _ _ H)|apply (ok_a _ _ _ H)]. Qed.
Lemma setj_ok fhs hs f h i : hs_ok fhs hs f -> hs_ok (setj h i fhs) (seti h i hs) f.
Proof. intros []. destruct h; constructor; cbn; auto. Qed.
Lemma ok_agree fhs hs f g : hs_ok fhs hs f -> agree W f g -> hs_ok fhs hs g.
Proof.
  intros [] G. constructor; auto.
  - intros o p n P A. rewrite (ok_end0 o p n P A). unfold contents. rewrite (G p); [reflexivity|]. rewrite ok_path0 in P. eapply inW, P.
  - apply (frame f); [|assumption]. intros q Q _. now apply G.
Qed.
Lemma setf_ok fhs hs f g o x y : hs_ok fhs hs f -> twin x y -> at_end x g -> moved (fh_out fhs o) x ->
  (forall q, ps o <> Some q -> g q = f q) -> hs_ok (setf o x fhs) (seto o y hs) g.
Proof.
  intros [] T A (M1 & M2 & M3) F. constructor; cbn; auto.
  - intros o'. destruct (o =? o'); auto.
  - intros o'. destruct (Nat.eqb_spec o o') as [->|N]; [exact A|]. intros p n P Q. rewrite (ok_end0 o' p n P Q). unfold contents. rewrite F; [reflexivity|].
    intros H. rewrite ok_path0 in P. apply N. eapply inj; eassumption.
  - intros o'. destruct (Nat.eqb_spec o o') as [->|N]; [|auto]. rewrite M1. auto.
  - intros o'. destruct (Nat.eqb_spec o o') as [->|N]; [|auto]. rewrite M2. auto.
  - intros o' H1 H2. destruct (Nat.eqb_spec o o') as [->|N]; [|auto]. rewrite M3; [auto|]. now rewrite ok_path0.
  - apply (frame f); [|assumption]. intros q _ H. symmetry. apply F, H.
Qed.
Definition stage_post {X} (a : res X * fhandles * loc) (b : res X * handles * loc) (f : fs) : Prop :=
  fst (fst a) = fst (fst b) /\ snd a = snd b /\ hs_ok (snd (fst a)) (snd (fst b)) f.
Lemma sim_runh {X} dev (p : io X) : forall fhs hs l f, hs_ok fhs hs f -> sim stage_post (frunh dev p fhs l) (prunh dev p hs l) f.
Proof.
  induction p as [a|e| |h k c IH|h z c IH|h n c IH|h n c IH|o n c IH|o c IH|o d c IH]; intros fhs hs l f H; cbn [frunh prunh].
  1-3: constructor; intros g G; split; [reflexivity|split; [reflexivity|]]; eapply ok_agree; eassumption.
  - constructor; intros g G; rewrite ?(getj_ok _ _ _ h H).
    + now destruct (l_read k g (geti h hs)).
    + intros _. now destruct (l_read k g (geti h hs)).
    + destruct (l_read k g (geti h hs)) as [x i]. cbn [fst snd]. apply IH, setj_ok. eapply ok_agree; eassumption.
  - destruct (z <? 0)%Z; apply IH; [exact H|]. rewrite (getj_ok _ _ _ h H). now apply setj_ok.
  - apply IH. rewrite (getj_ok _ _ _ h H). now apply setj_ok.
  - apply IH. rewrite (getj_ok _ _ _ h H). now apply setj_ok.
  - apply IH. apply (setf_ok fhs hs f f o _ _ H).
    + pose proof (ok_tw _ _ _ H o) as (T1 & T2 & T3 & T4). repeat split; auto.
    + apply (ok_end _ _ _ H o).
    + repeat split; auto.
    + reflexivity.
  - constructor.
    + intros g G. pose proof (hflush_twin dev _ _ (in_world l g) (ok_tw _ _ _ H o) (ok_end _ _ _ (ok_agree _ _ _ _ H G) o)) as K.
      destruct (fh_flush _ _ _) as [[ok x] w], (h_flush _ _ _) as [[ok' y] w']. destruct K as (_ & -> & _). reflexivity.
    + intros g q N. pose proof (proj1 (polite_hflush W W (fun _ H => H) dev (h_out hs o) (fun q P => inW o q (eq_trans (eq_sym (eq_trans (eq_sym (proj1 (ok_tw _ _ _ H o))) (ok_path _ _ _ H o))) P))) (in_world l g) q N) as P.
      destruct (h_flush _ _ _) as [[ok' y] w']. exact P.
    + intros g G. pose proof (hflush_twin dev _ _ (in_world l g) (ok_tw _ _ _ H o) (ok_end _ _ _ (ok_agree _ _ _ _ H G) o)) as K.
      assert (F : forall q, ps o <> Some q -> w_fs (snd (h_flush dev (h_out hs o) (in_world l g))) q = g q).
      { intros q N. apply (proj1 (polite_hflush (fun q => ps o = Some q) (fun q => ps o = Some q) (fun _ H => H) dev (h_out hs o)
          (fun q P => eq_trans (eq_sym (eq_trans (eq_sym (proj1 (ok_tw _ _ _ H o))) (ok_path _ _ _ H o))) P)) (in_world l g) q N). }
      destruct (fh_flush _ _ _) as [[ok x] w], (h_flush _ _ _) as [[ok' y] w']. destruct K as (-> & -> & K1 & K2 & K3). cbn [fst snd] in *.
      apply IH. apply (setf_ok fhs hs g _ o x y (ok_agree _ _ _ _ H G) K1 K2 K3 F).
  - constructor.
    + intros g G. pose proof (hwrite_twin dev d _ _ (in_world l g) (ok_tw _ _ _ H o) (ok_end _ _ _ (ok_agree _ _ _ _ H G) o)) as K.
      destruct (fh_write _ _ _ _) as [[ok x] w], (h_write _ _ _ _) as [[ok' y] w']. destruct K as (_ & -> & _). reflexivity.
    + intros g q N. pose proof (proj1 (polite_write W W (fun _ H => H) dev d (h_out hs o) (fun q P => inW o q (eq_trans (eq_sym (eq_trans (eq_sym (proj1 (ok_tw _ _ _ H o))) (ok_path _ _ _ H o))) P))) (in_world l g) q N) as P.
      destruct (h_write _ _ _ _) as [[ok' y] w']. exact P.
    + intros g G. pose proof (hwrite_twin dev d _ _ (in_world l g) (ok_tw _ _ _ H o) (ok_end _ _ _ (ok_agree _ _ _ _ H G) o)) as K.
      assert (F : forall q, ps o <> Some q -> w_fs (snd (h_write dev d (h_out hs o) (in_world l g))) q = g q).
      { intros q N. apply (proj1 (polite_write (fun q => ps o = Some q) (fun q => ps o = Some q) (fun _ H => H) dev d (h_out hs o)
          (fun q P => eq_trans (eq_sym (eq_trans (eq_sym (proj1 (ok_tw _ _ _ H o))) (ok_path _ _ _ H o))) P)) (in_world l g) q N). }
      destruct (fh_write _ _ _ _) as [[ok x] w], (h_write _ _ _ _) as [[ok' y] w']. destruct K as (-> & -> & K1 & K2 & K3). cbn [fst snd] in *.
      apply IH. apply (setf_ok fhs hs g _ o x y (ok_agree _ _ _ _ H G) K1 K2 K3 F).
Qed.
End Stage.
End Sim.
