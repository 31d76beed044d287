(* ProcLogs.v -- the files of a process that has not finished are those of a run that was killed. *)
From Coq Require Import String.
From Verif Require Import Base Fld Conc Parallel IO Ext Spec1 Phase1 Gob Circuit Spec2 Phase2 Fs Init2 Keys Live LiveCmd LiveLemmas LiveClaims LiveTwin Spec5 Spec6 Cli CliClaims Session Spec10 Locality Proc ProcLemmas ProcUses.

(* the operations of a process are those in its counters: l so far *)
Inductive logs {X} : list osop -> proc (X * loc) -> Prop :=
| lg_done x l : logs (c_ops l) (Done (x, l))
| lg_step ops k : (forall f, exists d, (forall q, fst (k f) q = replay d f q) /\ logs (ops ++ d) (snd (k f))) -> logs ops (Step k).
Lemma logs_join {X Y} ops (p : proc (X * loc)) (g : X * loc -> proc (Y * loc)) : logs ops p -> (forall x l, logs (c_ops l) (g (x, l))) -> logs ops (pjoin p g).
Proof.
  intros H G. revert ops H. induction p as [[x l]|k IH] using proc_rect'; intros ops H; cbn [pjoin].
  - inversion H; subst. apply G.
  - inversion H as [|? ? K]; subst. constructor. intros f. destruct (K f) as [d [D1 D2]]. exists d. specialize (IH f). destruct (k f) as [f' p']. cbn [fst snd] in *. auto.
Qed.
Lemma logs_steps {X} n : forall ops (p : proc (X * loc)) f, logs ops p -> exists d, (forall q, fst (steps n p f) q = replay d f q) /\ logs (ops ++ d) (snd (steps n p f)).
Proof.
  induction n as [|n IH]; intros ops p f H; cbn [steps]; [exists []; rewrite app_nil_r; auto|].
  destruct p as [a|k]; cbn [step1]; [now apply IH|]. inversion H as [|? ? K]; subst. destruct (K f) as [d [D1 D2]]. destruct (k f) as [f1 p1]. cbn [fst snd] in *.
  destruct (IH _ p1 f1 D2) as [d2 [F1 F2]]. exists (d ++ d2). split; [|now rewrite app_assoc].
  intros q. rewrite F1, replay_app. now apply replay_ext.
Qed.
Lemma logs_solo {X} ops (p : proc (X * loc)) f : logs ops p -> exists d, c_ops (snd (fst (solo p f))) = ops ++ d.
Proof.
  intros H. revert ops f H. induction p as [[x l]|k IH] using proc_rect'; intros ops f H.
  - inversion H; subst. exists []. now rewrite app_nil_r.
  - inversion H as [|? ? K]; subst. destruct (K f) as [d [D1 D2]]. cbn [solo]. specialize (IH f _ (fst (k f)) D2). destruct (k f) as [f1 p1]. cbn [fst snd] in *.
    destruct IH as [d2 IH]. exists (d ++ d2). now rewrite app_assoc.
Qed.

Definition logged {X} (c : pcmd X) : Prop := forall l, logs (c_ops l) (c l).
Lemma logged_bind {X Y} (c : pcmd X) (k : X -> pcmd Y) : logged c -> (forall x, logged (k x)) -> logged (pbind c k).
Proof. intros C K l. apply logs_join; [apply C|]. intros [x|e|] l1; [apply K|constructor|constructor]. Qed.
Lemma logged_ret {X} (x : X) : logged (pret x). Proof. intros l. constructor. Qed.
Lemma logged_fail {X} e : logged (pfail (X := X) e). Proof. intros l. constructor. Qed.
Lemma logged_boom {X} : logged (pboom (X := X)). Proof. intros l. constructor. Qed.
Lemma logged_skip {X} (c : lcmd X) : (forall w, snd (c w) = w) -> logged (atomic c).
Proof.
  intros S l. constructor. intros f. exists []. specialize (S (in_world l f)). destruct (c (in_world l f)) as [r w]. cbn [fst snd] in *. subst w. split; [reflexivity|].
  rewrite app_nil_r. exact (lg_done r (own (in_world l f))).
Qed.
Lemma logged_open p : logged (popen p). Proof. now apply logged_skip. Qed.
Lemma logged_create dev p : logged (pcreate dev p).
Proof.
  intros l. constructor. intros f. unfold lcreate. destruct (can_create _ _ _).
  - exists [OTrunc p]. split; [reflexivity|]. exact (lg_done (Ok tt) (mkL (c_used l) (c_calls l) (c_ops l ++ [OTrunc p]))).
  - exists []. split; [reflexivity|]. rewrite app_nil_r. exact (lg_done (Err ECreate) (mkL (c_used l) (c_calls l) (c_ops l))).
Qed.
Lemma logged_runh {X} dev (p : io X) : forall hs l, logs (c_ops l) (prunh dev p hs l).
Proof.
  induction p as [a|e| |h k c IH|h z c IH|h n c IH|h n c IH|o n c IH|o c IH|o d c IH]; intros hs l; cbn [prunh]; try constructor; try (apply IH).
  - intros f. exists []. destruct (l_read k f (geti h hs)) as [x i]. split; [reflexivity|]. rewrite app_nil_r. apply IH.
  - destruct (z <? 0)%Z; apply IH.
  - intros f. destruct (proj1 (h_flush_grows dev (h_out hs o) (in_world l f))) as [d [D1 [D2 _]]]. exists d. destruct (h_flush dev (h_out hs o) (in_world l f)) as [[ok x] w].
    cbn [fst snd in_world w_ops w_fs] in *. split; [exact D2|]. rewrite <- D1. apply (IH ok _ (own w)).
  - intros f. destruct (proj1 (h_write_grows dev d (h_out hs o) (in_world l f))) as [d0 [D1 [D2 _]]]. exists d0. destruct (h_write dev d (h_out hs o) (in_world l f)) as [[ok x] w].
    cbn [fst snd in_world w_ops w_fs] in *. split; [exact D2|]. rewrite <- D1. apply (IH ok _ (own w)).
Qed.
Lemma logged_run {X} dev (p : io X) hs : logged (prun dev p hs).
Proof. intros l. unfold prun. apply logs_join; [apply logged_runh|]. intros [r hs1] l1. constructor. Qed.
Lemma logged_hold {X} dev (p : io X) a b outs : logged (phold dev p a b outs).
Proof. intros l. unfold phold. apply logs_join; [apply logged_runh|]. intros [r hs1] l1. constructor. Qed.
Lemma logged_res {X} (r : res X) : logged (pres r). Proof. intros l. constructor. Qed.
Lemma logged_defer {X} (c : pcmd X) d : logged c -> logged d -> logged (pdefer c d).
Proof. intros C D l. unfold pdefer. apply logs_join; [apply C|]. intros r l1. apply logs_join; [apply D|]. intros u l2. constructor. Qed.
Lemma logged_flush dev p x : logged (pflush dev p x).
Proof.
  intros l. unfold pflush, atomic, lflush. constructor. intros f. destruct (proj1 (h_flush_grows dev (mkO (Some p) (o_cap x) (o_buf x) (o_bad x)) (in_world l f))) as [d [D1 [D2 _]]].
  exists d. destruct (h_flush dev _ (in_world l f)) as [[ok y] w]. cbn [fst snd in_world w_ops w_fs] in *. split; [exact D2|]. rewrite <- D1. exact (lg_done _ (own w)).
Qed.
Section Cmd.
Context {E : Ext2}.
Variables (dev : device) (bs : nat) (v : inv E).
Ltac lg := lazymatch goal with
  | |- logged (pbind _ _) => apply logged_bind; [lg|intros ?; lg]
  | |- logged (popen _) => apply logged_open
  | |- logged (pcreate _ _) => apply logged_create
  | |- logged (pret _) => apply logged_ret
  | |- logged (pfail _) => apply logged_fail
  | |- logged pboom => apply logged_boom
  | |- logged pusage => apply logged_fail
  | |- logged (pstage _ _ _ _ _) => apply logged_run
  | |- logged (pstage_at _ _ _ _ _) => apply logged_run
  | |- logged (phold _ _ _ _ _) => apply logged_hold
  | |- logged (pres _) => apply logged_res
  | |- logged (pdefer _ _) => apply logged_defer; lg
  | |- logged (pflush _ _ _) => apply logged_flush
  | |- logged (pquiet _) => unfold pquiet; lg
  | |- logged (atomic _) => apply logged_skip; intros ?; try reflexivity
  | |- _ => idtac
  end.
Lemma logged_r1cs p : logged (p_read_r1cs (E := E) p).
Proof. unfold p_read_r1cs. lg. destruct (parse_r1cs _); reflexivity. Qed.
Lemma logged_steps circuit cons nb p1 p2 : logged circuit -> logged (p_init_steps (E := E) dev circuit cons nb p1 p2).
Proof.
  intros C. unfold p_init_steps. cbv zeta. apply logged_bind; [exact C|intros cs]. apply logged_bind; [lg|intros [pw h]].
  apply logged_bind; [unfold p_lagrange; destruct (new_domain (E := E) (h_domain h)); lg|intros _].
  do 3 (apply logged_bind; [lg|intros _]). apply logged_bind; [exact C|intros cs2]. do 3 (apply logged_bind; [lg|intros _]). apply logged_bind; [exact C|intros cs3]. lg.
Qed.
Lemma logged_creates names : forall p, logged p -> logged (fold_left (fun c n => pbind c (fun _ => pcreate dev n)) names p).
Proof. induction names as [|n names IH]; intros p H; [exact H|]. cbn [fold_left]. apply IH. apply logged_bind; [exact H|intros _; lg]. Qed.
Lemma logged_int s k : (forall z, logged (k z)) -> logged (pint s k).
Proof. intros H. unfold pint. destruct (atoi s); [apply H|apply logged_fail]. Qed.
Lemma logged_tool n a : logged (ptool dev bs v n a).
Proof.
  unfold ptool. destruct (find (fun x => String.eqb (fst x) n) (ptable dev bs v)) as [[m act]|] eqn:F; [|apply logged_fail].
  apply find_some in F as [J _]. cbn [ptable In] in J.
  destruct J as [J|[J|[J|[J|[J|[J|[J|[J|[J|[J|[J|[J|[]]]]]]]]]]]]]; injection J as <- <-.
  - destruct a as [|x [|o [|? ?]]]; lg. apply logged_int. intros z. destruct (z >? 26)%Z; unfold p_initialize; lg.
  - destruct a as [|x [|o [|? ?]]]; unfold p_one; lg.
  - destruct a as [|x [|? ?]]; unfold p_verify; lg.
  - destruct a as [|x [|o [|s [|t [|? ?]]]]]; lg. apply logged_int. intros i. apply logged_int. intros j. destruct (i <? j)%Z; unfold p_one; lg.
  - destruct a as [|x [|o [|? ?]]]; unfold p_verify; lg.
  - destruct a as [|x [|r [|o [|? ?]]]]; unfold p_p2n; lg. apply logged_steps, logged_r1cs.
  - destruct a as [|x [|r [|o [|s [|t [|u [|? ?]]]]]]]; lg. do 3 (apply logged_int; intros ?). unfold p_p2np. lg. apply logged_steps, logged_ret.
  - destruct a as [|x [|o [|? ?]]]; unfold p_one; lg.
  - destruct a as [|x [|o [|? ?]]]; unfold p_verify2; lg.
  - destruct a as [|x [|? ?]]; unfold p_keys, p_pk, p_vk, p_header; lg.
  - destruct a as [|x [|o [|? ?]]]; unfold p_split_keys, p_split_pk, p_split_vk, p_header; cbv zeta; lg. apply logged_creates, logged_ret.
  - destruct a as [|x [|? ?]]; unfold p_sol; lg. intros l. apply logs_join.
    + refine (logged_bind (pcreate dev (sol_path x)) (fun _ => pstage dev (write 0 _) EmptyString EmptyString [sol_path x]) _ _ l); [lg|intros _; lg].
    + intros [y|e|] l1; constructor.
Qed.
Lemma launch_killed n a f m : exists h, killed (tool dev bs v n a) f h /\ forall q, fst (steps m (ptool dev bs v n a (mkL 0 0 [])) f) q = h q.
Proof.
  destruct (logs_steps m [] (ptool dev bs v n a (mkL 0 0 [])) f (logged_tool n a (mkL 0 0 []))) as [d [D1 D2]].
  exists (replay d f). split; [|exact D1]. exists d. split; [|reflexivity]. left.
  destruct (logs_solo _ _ (fst (steps m (ptool dev bs v n a (mkL 0 0 [])) f)) D2) as [d2 D3]. exists d2.
  pose proof (steps_solo m (ptool dev bs v n a (mkL 0 0 [])) f) as S. destruct (steps m (ptool dev bs v n a (mkL 0 0 [])) f) as [f' p']. cbn [fst snd] in *.
  rewrite S in D3. pose proof (same_tool dev bs v n a (start f)) as T. change (own (start f)) with (mkL 0 0 []) in T. change (w_fs (start f)) with f in T. rewrite T in D3. exact D3.
Qed.
End Cmd.
