(* Conc.v -- structured fork/join concurrency over a shared array.
   Models the only use of goroutines in /repo: a parent forks goroutines that work on
   disjoint parts of an array and waits for all of them (sync.WaitGroup in
   common/parallelize.go:25-43, the done-channels in lagrange/g1.go:96-105 and
   lagrange/g1.go:108-134).  A program is a tree of atomic array updates; `step` allows every
   interleaving of the two sides of a Par. *)
From Coq Require Import Arith Relations Operators_Properties Wellfounded.
From Verif Require Import Base.

Section Conc.
Context {A : Type}.
Notation mem := (list A).

Inductive prog : Type :=
| Skip
| Atom (fp : nat -> Prop) (f : mem -> mem)   (* one array update touching only cells in fp *)
| Seq (p q : prog)
| Par (p q : prog).                          (* go p; q; wait *)

(* [act p g p'] : p can perform the update g next and continue as p'. *)
Inductive act : prog -> (mem -> mem) -> prog -> Prop :=
| act_atom fp f : act (Atom fp f) f Skip
| act_seq p g p' q : act p g p' -> act (Seq p q) g (Seq p' q)
| act_seq_skip q : act (Seq Skip q) (fun m => m) q
| act_par_l p g p' q : act p g p' -> act (Par p q) g (Par p' q)
| act_par_r p q g q' : act q g q' -> act (Par p q) g (Par p q')
| act_par_skip : act (Par Skip Skip) (fun m => m) Skip.

Inductive step : prog * mem -> prog * mem -> Prop :=
| step_intro p g p' m : act p g p' -> step (p, m) (p', g m).

Definition steps := clos_refl_trans_1n _ step.

(* The sequential reading: left side first. *)
Fixpoint run (p : prog) (m : mem) : mem :=
  match p with
  | Skip => m
  | Atom _ f => f m
  | Seq p q => run q (run p m)
  | Par p q => run q (run p m)
  end.

Fixpoint fprint (p : prog) (i : nat) : Prop :=
  match p with
  | Skip => False
  | Atom fp _ => fp i
  | Seq p q => fprint p i \/ fprint q i
  | Par p q => fprint p i \/ fprint q i
  end.

(* f only writes cells in fp, and what it writes depends only on cells in fp *)
Definition respects (fp : nat -> Prop) (f : mem -> mem) : Prop :=
  (forall m, length (f m) = length m) /\
  (forall m i, ~ fp i -> nth_error (f m) i = nth_error m i) /\
  (forall m m', length m = length m' ->
     (forall i, fp i -> nth_error m i = nth_error m' i) ->
     forall i, fp i -> nth_error (f m) i = nth_error (f m') i).

(* race freedom: both sides of every Par have disjoint footprints *)
Fixpoint race_free (p : prog) : Prop :=
  match p with
  | Skip => True
  | Atom fp f => respects fp f /\ (forall i, fp i \/ ~ fp i)
  | Seq p q => race_free p /\ race_free q
  | Par p q => race_free p /\ race_free q /\ (forall i, fprint p i -> fprint q i -> False)
  end.

Lemma fprint_dec p : race_free p -> forall i, fprint p i \/ ~ fprint p i.
Proof.
  induction p as [|fp f|p IHp q IHq|p IHp q IHq]; simpl; intros H i.
  - tauto.
  - apply H.
  - destruct H as [H1 H2]. destruct (IHp H1 i), (IHq H2 i); tauto.
  - destruct H as [H1 [H2 _]]. destruct (IHp H1 i), (IHq H2 i); tauto.
Qed.

Lemma respects_run p : race_free p -> respects (fprint p) (run p).
Proof.
  assert (Comp : forall P Q (f g : mem -> mem),
    (forall i, P i \/ ~ P i) -> (forall i, Q i \/ ~ Q i) ->
    respects P f -> respects Q g -> respects (fun i => P i \/ Q i) (fun m => g (f m))).
  { intros P Q f g DP DQ [Lf [Of If]] [Lg [Og Ig]]. split; [|split].
    - intros m. now rewrite Lg, Lf.
    - intros m i H. rewrite Og by tauto. apply Of. tauto.
    - intros m m' L H i Hi.
      assert (E : forall j, P j \/ Q j -> nth_error (f m) j = nth_error (f m') j).
      { intros j Hj. destruct (DP j) as [Pj|Pj].
        - apply If; auto.
        - rewrite !Of by auto. auto. }
      destruct (DQ i) as [Qi|Qi].
      + apply Ig; auto. rewrite !Lf; auto.
      + rewrite !Og by auto. apply E; auto. }
  induction p as [|fp f|p IHp q IHq|p IHp q IHq]; simpl; intros H.
  - split; [|split]; auto.
  - apply H.
  - destruct H as [H1 H2]. apply (Comp (fprint p) (fprint q) (run p) (run q)); auto using fprint_dec.
  - destruct H as [H1 [H2 _]]. apply (Comp (fprint p) (fprint q) (run p) (run q)); auto using fprint_dec.
Qed.

(* Two updates with disjoint footprints commute. *)
Lemma commute P Q (f g : mem -> mem) m :
  (forall i, P i \/ ~ P i) -> (forall i, Q i \/ ~ Q i) ->
  respects P f -> respects Q g -> (forall i, P i -> Q i -> False) -> f (g m) = g (f m).
Proof.
  intros DP DQ [Lf [Of If]] [Lg [Og Ig]] D. apply list_ext. intros i.
  destruct (DP i) as [Pi|Pi].
  - rewrite (Og (f m)) by (intros Qi; eauto). apply If; auto.
    intros j Pj. apply Og. intros Qj; eauto.
  - rewrite Of by auto. destruct (DQ i) as [Qi|Qi].
    + symmetry. apply Ig; auto. intros j Qj. apply Of. intros Pj; eauto.
    + rewrite !Og by auto. symmetry. now apply Of.
Qed.

(* One step keeps race freedom, shrinks the footprint and keeps the sequential result. *)
Lemma act_inv p g p' : act p g p' -> race_free p ->
  race_free p' /\ (forall i, fprint p' i -> fprint p i) /\
  (forall m, run p' (g m) = run p m) /\ respects (fprint p) g.
Proof.
  assert (Idr : forall P, respects P (fun m : mem => m)).
  { intros P. split; [|split]; auto. }
  assert (Mono : forall (P Q : nat -> Prop) (g : mem -> mem), (forall i, P i \/ ~ P i) -> (forall i, P i -> Q i) ->
     respects P g -> respects Q g).
  { intros P Q h DP Sub [L [O I]]. split; [|split]; auto.
    intros m m' Lm H i Qi. destruct (DP i).
    - apply I; auto.
    - rewrite !O by auto. auto. }
  induction 1 as [fp f|p g p' q H IH|q|p g p' q H IH|p q g q' H IH|]; simpl in *.
  - intros [R D]. split; [exact I|]. split; [tauto|]. split; [reflexivity|]. auto.
  - intros [Rp Rq]. destruct (IH Rp) as [Rp' [Fp' [E Rg]]].
    split; [tauto|]. split; [intros i [|]; auto|]. split; [intros m; now rewrite E|].
    apply (Mono (fprint p)); auto using fprint_dec.
  - intros [_ Rq]. split; [auto|]. split; [tauto|]. split; [auto|]. apply Idr.
  - intros [Rp [Rq Dj]]. destruct (IH Rp) as [Rp' [Fp' [E Rg]]].
    split; [split; [auto|split; [auto|intros i Hi; apply Dj; auto]]|].
    split; [intros i [|]; auto|]. split; [intros m; now rewrite E|].
    apply (Mono (fprint p)); auto using fprint_dec.
  - intros [Rp [Rq Dj]]. destruct (IH Rq) as [Rq' [Fq' [E Rg]]].
    split; [split; [auto|split; [auto|intros i Hi Hj; apply (Dj i); auto]]|].
    split; [intros i [|]; auto|]. split.
    + intros m.
      rewrite (commute (fprint p) (fprint q) (run p) g m); auto using fprint_dec, respects_run.
    + apply (Mono (fprint q)); auto using fprint_dec.
  - intros _. split; [auto|]. split; [tauto|]. split; [auto|]. apply Idr.
Qed.

(* Determinism: every complete execution ends in the sequential result. *)
Theorem race_free_deterministic p m m' :
  race_free p -> steps (p, m) (Skip, m') -> m' = run p m.
Proof.
  intros R H.
  assert (G : forall c c', steps c c' -> race_free (fst c) ->
    run (fst c') (snd c') = run (fst c) (snd c)).
  { clear. induction 1 as [c|c c1 c2 H _ IH]; auto. intros R.
    destruct H as [p g p' m Ha]. destruct (act_inv _ _ _ Ha R) as [R' [_ [E _]]].
    simpl in *. rewrite IH by auto. apply E. }
  apply (G _ _ H R).
Qed.

(* Progress: an unfinished program can always take a step (no deadlock). *)
Theorem progress p m : p = Skip \/ exists c, step (p, m) c.
Proof.
  assert (G : p = Skip \/ exists g p', act p g p').
  { clear m. induction p as [|fp f|p IHp q IHq|p IHp q IHq].
    - auto.
    - right. eauto using act.
    - right. destruct IHp as [->|[g [p' H]]]; eauto using act.
    - right. destruct IHp as [->|[g [p' H]]]; [|eauto using act].
      destruct IHq as [->|[g [q' H]]]; eauto using act. }
  destruct G as [|[g [p' H]]]; [auto|]. right. eexists. constructor. eauto.
Qed.

(* Termination: every step strictly decreases a measure. *)
Fixpoint psize (p : prog) : nat :=
  match p with
  | Skip => 0
  | Atom _ _ => 1
  | Seq p q => 1 + psize p + psize q
  | Par p q => 1 + psize p + psize q
  end.
Theorem step_decreases c c' : step c c' -> psize (fst c') < psize (fst c).
Proof.
  intros [p g p' m H]. simpl. induction H; simpl in *; lia.
Qed.

(* Every program reaches Skip, along any schedule, in at most psize p steps. *)
Theorem all_schedules_terminate c : Acc (fun c2 c1 => step c1 c2) c.
Proof.
  remember (psize (fst c)) as n eqn:E. revert c E.
  induction n as [n IH] using lt_wf_ind. intros c ->. constructor. intros c' H.
  apply (IH (psize (fst c'))); auto. now apply step_decreases.
Qed.

(* ------------------------------------------------------------------ *)
(* n-ary sequential and parallel composition *)
Definition seqs (l : list prog) : prog := fold_right Seq Skip l.
Definition pars (l : list prog) : prog := fold_right Par Skip l.

Lemma run_seqs l m : run (seqs l) m = fold_left (fun m p => run p m) l m.
Proof. revert m; induction l as [|p l IH]; simpl; intros; auto. Qed.
Lemma run_pars l m : run (pars l) m = fold_left (fun m p => run p m) l m.
Proof. revert m; induction l as [|p l IH]; simpl; intros; auto. Qed.

Lemma fprint_seqs l i : fprint (seqs l) i <-> exists p, In p l /\ fprint p i.
Proof.
  induction l as [|p l IH]; simpl.
  - split; [tauto|intros [p [[] _]]].
  - rewrite IH. split; [intros [H|[q [H1 H2]]]; eauto|intros [q [[->|H1] H2]]; eauto].
Qed.
Lemma fprint_pars l i : fprint (pars l) i <-> exists p, In p l /\ fprint p i.
Proof.
  induction l as [|p l IH]; simpl.
  - split; [tauto|intros [p [[] _]]].
  - rewrite IH. split; [intros [H|[q [H1 H2]]]; eauto|intros [q [[->|H1] H2]]; eauto].
Qed.

Lemma race_free_seqs l : (forall p, In p l -> race_free p) -> race_free (seqs l).
Proof. induction l as [|p l IH]; simpl; intros H; auto. Qed.

Lemma race_free_pars l :
  (forall p, In p l -> race_free p) ->
  ForallOrdPairs (fun p q => forall i, fprint p i -> fprint q i -> False) l ->
  race_free (pars l).
Proof.
  induction l as [|p l IH]; simpl; intros H D; auto.
  inversion D as [|a b D1 D2]; subst. split; [auto|split; [apply IH; auto|]].
  intros i Hp Hq. apply fprint_pars in Hq as [q [Hq1 Hq2]].
  rewrite Forall_forall in D1. eapply D1; eauto.
Qed.

(* An atom that rewrites cell i to (f i of its content) -- the body of a parallel loop. *)
Definition cell_upd (i : nat) (f : A -> A) (m : mem) : mem :=
  match nth_error m i with Some x => upd m i (f x) | None => m end.
Definition cell (i : nat) (f : A -> A) : prog := Atom (eq i) (cell_upd i f).

Lemma cell_upd_length i f m : length (cell_upd i f m) = length m.
Proof. unfold cell_upd. destruct (nth_error m i); auto using upd_length. Qed.

Lemma nth_error_cell_upd i f m j :
  nth_error (cell_upd i f m) j = if i =? j then option_map f (nth_error m j) else nth_error m j.
Proof.
  unfold cell_upd. destruct (Nat.eqb_spec i j) as [->|Hn].
  - destruct (nth_error m j) as [x|] eqn:E; simpl; auto.
    apply nth_error_upd_same. apply nth_error_Some. congruence.
  - destruct (nth_error m i); auto using nth_error_upd_other.
Qed.

Lemma race_free_cell i f : race_free (cell i f).
Proof.
  simpl. split; [|intros j; destruct (Nat.eq_dec i j); auto].
  split; [|split].
  - intros; apply cell_upd_length.
  - intros m j H. rewrite nth_error_cell_upd. destruct (Nat.eqb_spec i j); tauto.
  - intros m m' L H j <-. rewrite !nth_error_cell_upd, Nat.eqb_refl. now rewrite H.
Qed.

(* An atom that updates two distinct cells from their joint content. *)
Definition cell2_upd (i j : nat) (f : A -> A -> A * A) (m : mem) : mem :=
  match nth_error m i, nth_error m j with
  | Some x, Some y => upd (upd m i (fst (f x y))) j (snd (f x y))
  | _, _ => m
  end.
Definition cell2 (i j : nat) (f : A -> A -> A * A) : prog :=
  Atom (fun k => k = i \/ k = j) (cell2_upd i j f).

Lemma cell2_upd_length i j f m : length (cell2_upd i j f m) = length m.
Proof. unfold cell2_upd. destruct (nth_error m i), (nth_error m j); rewrite ?upd_length; auto. Qed.

Lemma nth_error_cell2_upd i j f m k x y : i <> j ->
  nth_error m i = Some x -> nth_error m j = Some y ->
  nth_error (cell2_upd i j f m) k =
  if k =? i then Some (fst (f x y)) else if k =? j then Some (snd (f x y)) else nth_error m k.
Proof.
  intros Hij Hi Hj. unfold cell2_upd. rewrite Hi, Hj.
  assert (i < length m) by (apply nth_error_Some; congruence).
  assert (j < length m) by (apply nth_error_Some; congruence).
  destruct (Nat.eqb_spec k i) as [->|Hki].
  - rewrite nth_error_upd_other by auto. now rewrite nth_error_upd_same.
  - destruct (Nat.eqb_spec k j) as [->|Hkj].
    + rewrite nth_error_upd_same; auto. now rewrite upd_length.
    + rewrite !nth_error_upd_other; auto.
Qed.

Lemma race_free_cell2 i j f : i <> j -> race_free (cell2 i j f).
Proof.
  intros Hij. simpl. split.
  2: { intros k. destruct (Nat.eq_dec k i), (Nat.eq_dec k j); tauto. }
  split; [|split].
  - intros; apply cell2_upd_length.
  - intros m k H. unfold cell2_upd. destruct (nth_error m i), (nth_error m j); auto.
    rewrite !nth_error_upd_other; auto.
  - intros m m' L H k Hk.
    pose proof (H i (or_introl eq_refl)) as H1. pose proof (H j (or_intror eq_refl)) as H2.
    destruct (nth_error m i) as [x|] eqn:E1, (nth_error m j) as [y|] eqn:E2;
      try (unfold cell2_upd; rewrite <- ?H1, <- ?H2, ?E1, ?E2; apply H; auto).
    rewrite !(nth_error_cell2_upd i j f _ k x y) by auto.
    destruct (Nat.eqb_spec k i); auto. destruct (Nat.eqb_spec k j); auto.
Qed.
End Conc.
Arguments prog A : clear implicits.
