(* Fs.v -- files by name, and commands: sequences of opening and creating files and running io
   programs on them.  Distinct names are distinct files (no links); os.Create always succeeds
   (permissions are not modelled); no write fails (see Live.v for failing writes). *)
From Coq Require String.
From Verif Require Import Base IO Phase1Io.

Notation string := String.string.
Definition fs := string -> option bytes.
Definition fset (f : fs) (p : string) (b : bytes) : fs := fun q => if String.eqb p q then Some b else f q.
(* what a handle on p reads *)
Definition contents (f : fs) (p : string) : bytes := match f p with Some b => b | None => [] end.

Definition cmd (X : Type) := fs -> res X * fs.
Definition cret {X} (x : X) : cmd X := fun f => (Ok x, f).
Definition cfail {X} (e : err) : cmd X := fun f => (Err e, f).
Definition cboom {X} : cmd X := fun f => (Panic, f).
Definition cbind {X Y} (c : cmd X) (k : X -> cmd Y) : cmd Y := fun f =>
  let '(r, f1) := c f in
  match r with Ok x => k x f1 | Err e => (Err e, f1) | Panic => (Panic, f1) end.
(* os.Open (and os.OpenFile without O_CREATE) *)
Definition copen (p : string) : cmd unit := fun f =>
  (match f p with Some _ => Ok tt | None => Err ENoFile end, f).
(* os.Create: truncates *)
Definition ccreate (p : string) : cmd unit := fun f => (Ok tt, fset f p []).

(* output number o goes to the end of the o-th path *)
Definition wstep (outs : list string) (f : fs) (x : nat * bytes) : fs :=
  match nth_error outs (fst x) with Some p => fset f p (contents f p ++ snd x) | None => f end.
Definition wapply (outs : list string) (w : wlog) (f : fs) : fs := fold_left (wstep outs) w f.

(* An io program on fresh handles for files a and b.  The inputs are what these files hold when the
   program starts: where one of them is also an output, the tool only reads at offsets beyond what it
   has written by then (p1c, p2c: it stops at the empty header; p1t: it reads past the 3 bytes). *)
Definition stage {X} (p : io X) (a b : string) (outs : list string) : cmd X := fun f =>
  let '(r, _, w) := run p (opened (contents f a), opened (contents f b)) in (r, wapply outs w f).

Declare Scope cmd_scope.
Delimit Scope cmd_scope with cmd.
Notation "x <- p ;; q" := (cbind p (fun x => q)) (at level 61, p at next level, right associativity) : cmd_scope.
Notation "' pat <- p ;; q" := (cbind p (fun x => match x with pat => q end))
  (at level 61, pat pattern, p at next level, right associativity) : cmd_scope.
Notation "p ;;; q" := (cbind p (fun _ => q)) (at level 61, right associativity) : cmd_scope.

(* ---- lemmas ---- *)
Lemma fset_same f p b : fset f p b p = Some b.
Proof. unfold fset. now rewrite String.eqb_refl. Qed.
Lemma fset_other f p q b : p <> q -> fset f p b q = f q.
Proof. intros H. unfold fset. now apply String.eqb_neq in H as ->. Qed.
Lemma contents_same f p b : contents (fset f p b) p = b.
Proof. unfold contents. now rewrite fset_same. Qed.
Lemma contents_other f p q b : p <> q -> contents (fset f p b) q = contents f q.
Proof. intros H. unfold contents. now rewrite fset_other. Qed.

Lemma wapply_other outs w : forall f q, ~ In q outs -> wapply outs w f q = f q.
Proof.
  induction w as [|[o d] w IH]; intros f q H; [reflexivity|].
  change (wapply outs w (wstep outs f (o, d)) q = f q). rewrite IH by auto.
  unfold wstep. cbn [fst snd]. destruct (nth_error outs o) as [p|] eqn:N; [|auto].
  apply fset_other. intros ->. apply H. eapply nth_error_In; eauto.
Qed.
Lemma wapply_at outs w : forall f o p, NoDup outs -> nth_error outs o = Some p -> f p <> None ->
  wapply outs w f p = Some (contents f p ++ out o w).
Proof.
  induction w as [|[o' d] w IH]; intros f o p ND N F.
  - cbn. unfold out. cbn. rewrite app_nil_r. unfold contents. destruct (f p); congruence.
  - cbn [wapply fold_left]. unfold out. cbn [flat_map fst snd]. fold (out o w).
    change (fold_left (wstep outs) w ?g) with (wapply outs w g).
    unfold wstep. cbn [fst snd]. destruct (Nat.eqb_spec o' o) as [->|NE].
    + rewrite N, (IH _ o p) by (auto; rewrite fset_same; discriminate).
      now rewrite contents_same, app_assoc.
    + destruct (nth_error outs o') as [p'|] eqn:N'; [|now apply IH].
      assert (p' <> p).
      { intros ->. apply NE. eapply NoDup_nth_error; eauto.
        { apply nth_error_Some. congruence. } congruence. }
      rewrite (IH _ o p ND N); [now rewrite contents_other|now rewrite fset_other].
Qed.
Lemma stage_ev {X} (p : io X) a b outs f r s' d : ev p (opened (contents f a), opened (contents f b)) r s' d ->
  exists f', stage p a b outs f = (r, f') /\ (forall q, ~ In q outs -> f' q = f q) /\
    (NoDup outs -> forall o q, nth_error outs o = Some q -> f q <> None -> f' q = Some (contents f q ++ d o)).
Proof.
  intros [w [R H]]. unfold stage. rewrite R. eexists. split; [reflexivity|]. split.
  - intros q Hq. now apply wapply_other.
  - intros ND o q N F. rewrite (wapply_at outs w f o q ND N F). now rewrite H.
Qed.

(* the fixed names; last in this file because the library redefines length *)
From Coq Require Import String.
Definition lag_path : string := "srs.lag"%string.     (* phase2/utils.go:89 etc. *)
Definition evals_path : string := "evals"%string.     (* phase2/utils.go:134 etc. *)
