(* Create.v -- files that cannot be created. *)
From Coq Require Import String.
From Verif Require Import Base Fld Conc Parallel IO Ext Spec1 Phase1 Gob Circuit Spec2 Phase2 Fs Init2 Spec3 Spec4 Keys Live LiveLemmas LiveCmd LiveClaims LiveTwin
  Spec5 Spec6 Cli CliClaims Session Spec10 Locality LocalityClaims.
Local Open Scope lcmd_scope.

(* c does what c' does or ends with the error of os.Create *)
Definition noticed {X} (c c' : lcmd X) : Prop := forall w, c w = c' w \/ fst (c w) = Err ECreate.
Lemma noticed_same {X} (c : lcmd X) : noticed c c. Proof. intros w. now left. Qed.
Lemma noticed_bind {X Y} (c c' : lcmd X) (k k' : X -> lcmd Y) : noticed c c' -> (forall x, noticed (k x) (k' x)) -> noticed (lbind c k) (lbind c' k').
Proof.
  intros A B w. unfold lbind. destruct (A w) as [H|H].
  - rewrite H. destruct (c' w) as [[x|e|] w1]; [apply B|now left|now left].
  - right. destruct (c w) as [r w1]. cbn [fst] in H. now rewrite H.
Qed.
Lemma noticed_create dev p : noticed (lcreate dev p) (lcreate (creating dev) p).
Proof. intros w. unfold lcreate, creating. cbn [can_create]. destruct (can_create dev (length (w_ops w)) p); [now left|now right]. Qed.
Lemma noticed_stage dev {X} (p : io X) a b l : noticed (lstage dev p a b l) (lstage (creating dev) p a b l).
Proof. exact (noticed_same _). Qed.
Lemma noticed_stage_at dev {X} (p : io X) a b l : noticed (lstage_at dev p a b l) (lstage_at (creating dev) p a b l).
Proof. exact (noticed_same _). Qed.
Lemma noticed_hold dev {X} (p : io X) a b l : noticed (lhold dev p a b l) (lhold (creating dev) p a b l).
Proof. exact (noticed_same _). Qed.
Lemma noticed_defer {X} (c c' : lcmd X) d : noticed c c' -> noticed (ldefer c d) (ldefer c' d).
Proof.
  intros H w. unfold ldefer. destruct (H w) as [->|N]; [now left|]. right. destruct (c w) as [r w1]. exact N.
Qed.

Ltac nn := repeat first [apply noticed_create | apply noticed_stage | apply noticed_stage_at | apply noticed_bind; [|intros ?] | apply noticed_same].
Section Tool.
Context {E : Ext2}.
Variables (dev : device) (bs : nat) (v : inv E).
Notation dev' := (creating dev).

Lemma noticed_one {X} (p : io X) ip op : noticed (l_one dev p ip op) (l_one dev' p ip op).
Proof. unfold l_one. nn. Qed.
Lemma noticed_quiet (c c' : lcmd unit) : noticed c c' -> noticed (quiet c) (quiet c').
Proof. intros H. unfold quiet. apply noticed_bind; [exact H|intros _; apply noticed_same]. Qed.
Lemma noticed_int s (k k' : Z -> lcmd (list bytes)) : (forall z, noticed (k z) (k' z)) -> noticed (int_arg s k) (int_arg s k').
Proof. intros H. unfold int_arg. destruct (atoi s); [apply H|apply noticed_same]. Qed.
Lemma noticed_lagrange p1 p2 pw h : noticed (l_lagrange (E := E) dev p1 p2 pw h) (l_lagrange (E := E) dev' p1 p2 pw h).
Proof. unfold l_lagrange. destruct (new_domain (E := E) (h_domain h)); nn. Qed.
Lemma noticed_steps circuit cons nb p1 p2 : noticed (l_init_steps (E := E) dev circuit cons nb p1 p2) (l_init_steps (E := E) dev' circuit cons nb p1 p2).
Proof.
  unfold l_init_steps. cbv zeta. apply noticed_bind; [apply noticed_same|]. intros cs. apply noticed_bind; [apply noticed_stage|]. intros [pw h].
  apply noticed_bind; [apply noticed_lagrange|]. intros _. nn.
Qed.
Lemma noticed_p2n p1 r1 p2 : noticed (l_p2n (E := E) dev p1 r1 p2) (l_p2n (E := E) dev' p1 r1 p2).
Proof. unfold l_p2n. apply noticed_bind; [apply noticed_same|]. intros _. apply noticed_bind; [apply noticed_create|]. intros _. apply noticed_steps. Qed.
Lemma noticed_p2np (cs : r1cs E) p1 p2 nb : noticed (l_p2np dev cs p1 p2 nb) (l_p2np dev' cs p1 p2 nb).
Proof. unfold l_p2np. apply noticed_bind; [apply noticed_same|]. intros _. apply noticed_bind; [apply noticed_create|]. intros _. apply noticed_steps. Qed.
Lemma noticed_header p : noticed (l_header (E := E) dev p) (l_header (E := E) dev' p).
Proof. apply noticed_stage. Qed.
Lemma noticed_pk p : noticed (l_pk (E := E) dev p) (l_pk (E := E) dev' p).
Proof. unfold l_pk. do 2 (apply noticed_bind; [apply noticed_same|intros _]). apply noticed_bind; [apply noticed_header|intros _]. nn. Qed.
Lemma noticed_vk wr g s p : noticed (l_vk (E := E) dev wr g s p) (l_vk (E := E) dev' wr g s p).
Proof. unfold l_vk. do 2 (apply noticed_bind; [apply noticed_same|intros _]). apply noticed_bind; [apply noticed_header|intros _]. nn. Qed.
Lemma noticed_creates names : forall c c', noticed c c' ->
  noticed (fold_left (fun c n => c ;;; lcreate dev n) names c) (fold_left (fun c n => c ;;; lcreate dev' n) names c').
Proof.
  induction names as [|n names IH]; intros c c' H; [exact H|]. cbn [fold_left]. apply IH. apply noticed_bind; [exact H|intros _; apply noticed_create].
Qed.
Lemma noticed_split_pk p s : noticed (l_split_pk (E := E) dev p s) (l_split_pk (E := E) dev' p s).
Proof.
  unfold l_split_pk. cbv zeta. do 2 (apply noticed_bind; [apply noticed_same|intros _]). apply noticed_bind; [apply noticed_header|intros _].
  apply noticed_bind; [apply noticed_creates, noticed_same|intros _]. nn.
Qed.
Lemma noticed_split_vk wr g sg p s : noticed (l_split_vk (E := E) dev wr g sg p s) (l_split_vk (E := E) dev' wr g sg p s).
Proof.
  unfold l_split_vk. cbv zeta. do 2 (apply noticed_bind; [apply noticed_same|intros _]). apply noticed_bind; [apply noticed_header|intros _].
  apply noticed_bind; [apply noticed_create|intros _]. apply noticed_bind; [apply noticed_hold|intros y].
  change (lflush dev' (vks_path s) (snd y)) with (lflush dev (vks_path s) (snd y)). apply noticed_defer. nn.
Qed.

Ltac arity := cbv beta iota delta [a_p1n a_p1c a_p1v a_p1t a_p1vt a_p2n a_p2np a_p2c a_p2v a_extract a_extracts];
  lazymatch goal with |- noticed usage _ => apply noticed_same | _ => idtac end.
Lemma noticed_tool n a : n <> "sol"%string -> noticed (tool dev bs v n a) (tool dev' bs v n a).
Proof.
  intros NS. unfold tool, table. cbn [find fst].
  destruct (String.eqb "p1n" n).
  { destruct a as [|x [|o [|? ?]]]; arity. apply noticed_int. intros z. destruct (z >? 26)%Z; [apply noticed_same|].
    apply noticed_quiet. unfold l_initialize. nn. }
  destruct (String.eqb "p1c" n).
  { destruct a as [|x [|o [|? ?]]]; arity. apply noticed_bind; [|intros ?; apply noticed_same].
    exact (noticed_one (contribute bs (v_w v)) x o). }
  destruct (String.eqb "p1v" n).
  { destruct a as [|x [|? ?]]; arity. exact (noticed_same (l_verify dev bs v x EmptyString)). }
  destruct (String.eqb "p1t" n).
  { destruct a as [|x [|o [|s [|t [|? ?]]]]]; arity. apply noticed_int. intros i. apply noticed_int. intros j.
    destruct (i <? j)%Z; [apply noticed_same|]. apply noticed_quiet. exact (noticed_one (transform (E := E) (to_byte i) (to_byte j)) x o). }
  destruct (String.eqb "p1vt" n).
  { destruct a as [|x [|o [|? ?]]]; arity. exact (noticed_same (l_verify dev bs v x o)). }
  destruct (String.eqb "p2n" n).
  { destruct a as [|x [|r [|o [|? ?]]]]; arity. apply noticed_quiet, noticed_p2n. }
  destruct (String.eqb "p2np" n).
  { destruct a as [|x [|r [|o [|s [|t [|u [|? ?]]]]]]]; arity. do 3 (apply noticed_int; intros ?). apply noticed_quiet, noticed_p2np. }
  destruct (String.eqb "p2c" n).
  { destruct a as [|x [|o [|? ?]]]; arity. apply noticed_bind; [|intros ?; apply noticed_same].
    exact (noticed_one (contribute2 bs (v_d v) (v_s v)) x o). }
  destruct (String.eqb "p2v" n).
  { destruct a as [|x [|o [|? ?]]]; arity. exact (noticed_same (l_verify2 dev bs v x o)). }
  destruct (String.eqb "key" n).
  { destruct a as [|x [|? ?]]; arity. apply noticed_quiet. unfold l_keys. apply noticed_bind; [apply noticed_pk|intros _; apply noticed_vk]. }
  destruct (String.eqb "keys" n).
  { destruct a as [|x [|o [|? ?]]]; arity. apply noticed_quiet. unfold l_split_keys. apply noticed_bind; [apply noticed_split_pk|intros _; apply noticed_split_vk]. }
  destruct (String.eqb_spec "sol" n); [congruence|]. apply noticed_same.
Qed.
Lemma sol_tool dv a : tool dv bs v "sol" a = match a with [s] => quiet (l_sol dv v s) | _ => usage end.
Proof. destruct a as [|x [|? ?]]; reflexivity. Qed.
(* ExportSol panics instead *)
Lemma noticed_sol a w : tool dev bs v "sol" a w = tool dev' bs v "sol" a w \/ fst (tool dev bs v "sol" a w) = Panic.
Proof.
  rewrite !sol_tool. destruct a as [|s [|? ?]]; try (now left). unfold quiet, lbind at 1 2 3, l_sol.
  destruct (match w_fs w (vks_path s) with Some b => v_sol v b | None => None end) as [text|]; [|now left].
  assert (N : noticed (lcreate dev (sol_path s) ;;; lstage dev (write 0 text) EmptyString EmptyString [sol_path s])
    (lcreate dev' (sol_path s) ;;; lstage dev' (write 0 text) EmptyString EmptyString [sol_path s])) by nn.
  destruct (N w) as [H|H].
  - rewrite H. now left.
  - right. destruct ((lcreate dev (sol_path s) ;;; lstage dev (write 0 text) EmptyString EmptyString [sol_path s]) w) as [r w1]. cbn [fst] in H. now rewrite H.
Qed.
End Tool.

Section Claims.
Context {E : Ext2}.
Lemma refusal_noticed bs dev (v : inv E) n a f :
  result_of (tool dev bs v n a) f = result_of (tool (creating dev) bs v n a) f /\ after (tool dev bs v n a) f = after (tool (creating dev) bs v n a) f \/
  result_of (tool dev bs v n a) f = (if String.eqb n "sol" then Panic else Err ECreate).
Proof.
  unfold result_of, after. destruct (String.eqb_spec n "sol") as [->|N].
  - destruct (noticed_sol dev bs v a (start f)) as [H|H]; [left; now rewrite H|now right].
  - destruct (noticed_tool dev bs v n a N (start f)) as [H|H]; [left; now rewrite H|now right].
Qed.
Lemma not_created bs dev (v : inv E) n a f q : In q (outputs n a) -> (forall k, can_create dev k q = false) ->
  (forall x, result_of (tool dev bs v n a) f <> Ok x) /\ after (tool dev bs v n a) f q = f q.
Proof.
  intros O C. unfold result_of, after.
  destruct (tool_local dev bs v (fun q => In q (inputs n a)) n a (fun q Q => Q) (start f) (start f)) as [_ [(_ & _ & _ & _ & T & N) M]].
  - unfold par, cut. cbn [start w_used w_calls w_ops w_fs In]. repeat split; auto. intros [|k] p Q; discriminate Q.
  - intros x [].
  - assert (D : ~ In (OTrunc q) (w_ops (snd (tool dev bs v n a (start f))))).
    { intros I. apply In_nth_error in I as [k K]. apply N in K. now rewrite C in K. }
    split.
    + intros x R. rewrite R in M. apply D. now apply M.
    + destruct (tool_only dev bs v n a (start f)) as [l [L1 [L2 _]]]. cbn [start w_ops w_fs app] in L1, L2. rewrite L2.
      rewrite L1 in D, T. unfold cut in T. rewrite L1 in T.
      assert (NA : forall d, ~ In (OApp q d) l) by (intros d K; exact (D (T q d K))).
      generalize f. clear -D NA. induction l as [|o l IH]; intros g; [reflexivity|]. change (replay (o :: l) g) with (replay l (op_do g o)).
      rewrite IH; [|intros K; apply D; now right|intros d K; apply (NA d); now right].
      destruct o as [p|p d]; cbn [op_do]; apply fset_other; intros ->; [apply D; now left|apply (NA d); now left].
Qed.
End Claims.
