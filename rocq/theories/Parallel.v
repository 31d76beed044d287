(* Parallel.v -- common/parallelize.go and the loops run through it. *)
From Coq Require Import Relations.
From Verif Require Import Base Conc.

(* common/parallelize.go:28-41 : the task loop.  [todo] = nbTasks - i. *)
Fixpoint chunk_loop (todo i per extra off : nat) : list (nat * nat) :=
  match todo with
  | 0 => []
  | S todo' =>
      let start := i * per + off in                       (* line 30 *)
      let fin := start + per in                           (* line 31 *)
      if 0 <? extra                                       (* line 32 *)
      then (start, fin + 1) :: chunk_loop todo' (S i) per (extra - 1) (off + 1)
      else (start, fin) :: chunk_loop todo' (S i) per extra off
  end.

(* common/parallelize.go:9-25 : the ranges handed to the workers.  [tasks] is runtime.NumCPU()
   or maxCpus[0]; tasks = 0 would be a division by zero (None). *)
Definition chunks (n tasks : nat) : option (list (nat * nat)) :=
  if tasks =? 0 then None else
  let per := n / tasks in                                 (* line 15 *)
  let '(per, tasks) := if per <? 1 then (1, n) else (per, tasks) in   (* lines 18-21 *)
  let extra := n - tasks * per in                         (* line 25 *)
  Some (chunk_loop tasks 0 per extra 0).

Section Par.
Context {A : Type}.

(* for i := start; i < end; i++ { body(i) } -- the shape of every work function in /repo *)
Definition range_loop (body : nat -> prog A) (r : nat * nat) : prog A :=
  seqs (map body (seq (fst r) (snd r - fst r))).

(* common/parallelize.go:9-44 : fork one goroutine per range, wait for all *)
Definition parallelize (n tasks : nat) (body : nat -> prog A) : option (prog A) :=
  match chunks n tasks with
  | None => None
  | Some l => Some (pars (map (range_loop body) l))
  end.

(* ---- the ranges partition [0,n) ---- *)
(* consecutive non-empty ranges from a to b *)
Fixpoint tiles (a b : nat) (l : list (nat * nat)) : Prop :=
  match l with
  | [] => a = b
  | (s, e) :: l' => s = a /\ s < e /\ tiles e b l'
  end.

Lemma chunk_loop_tiles todo : forall i per extra off,
  1 <= per -> extra <= todo ->
  tiles (i * per + off) (i * per + off + todo * per + extra) (chunk_loop todo i per extra off).
Proof.
  induction todo as [|todo IH]; intros i per extra off Hp He; cbn [chunk_loop tiles].
  - lia.
  - destruct (Nat.ltb_spec 0 extra); cbn [tiles fst snd].
    + split; [auto|]. split; [lia|].
      replace (i * per + off + per + 1) with (S i * per + (off + 1)) by nia.
      replace (i * per + off + S todo * per + extra) with
        (S i * per + (off + 1) + todo * per + (extra - 1)) by nia.
      apply IH; lia.
    + split; [auto|]. split; [lia|].
      replace (i * per + off + per) with (S i * per + off) by nia.
      replace (i * per + off + S todo * per + extra) with
        (S i * per + off + todo * per + extra) by nia.
      apply IH; lia.
Qed.

Lemma chunks_tiles n tasks : 1 <= tasks ->
  exists l, chunks n tasks = Some l /\ tiles 0 n l /\ length l <= tasks.
Proof.
  assert (Len : forall todo i per extra off, length (chunk_loop todo i per extra off) = todo).
  { induction todo as [|todo IH]; intros; cbn [chunk_loop]; auto.
    destruct (0 <? extra); simpl; now rewrite IH. }
  intros H. unfold chunks. destruct (Nat.eqb_spec tasks 0); [lia|].
  pose proof (Nat.div_mod n tasks ltac:(lia)) as E.
  pose proof (Nat.mod_upper_bound n tasks ltac:(lia)) as U.
  destruct (Nat.ltb_spec (n / tasks) 1) as [L|L].
  - eexists. split; [reflexivity|].
    assert (n < tasks) by nia.
    split.
    + pose proof (chunk_loop_tiles n 0 1 (n - n * 1) 0 ltac:(lia) ltac:(lia)) as T.
      replace (0 * 1 + 0) with 0 in T by lia.
      now replace (0 + n * 1 + (n - n * 1)) with n in T by lia.
    + rewrite Len. lia.
  - eexists. split; [reflexivity|]. split.
    + pose proof (chunk_loop_tiles tasks 0 (n / tasks) (n - tasks * (n / tasks)) 0 L ltac:(lia)) as T.
      replace (0 * (n / tasks) + 0) with 0 in T by lia.
      now replace (0 + tasks * (n / tasks) + (n - tasks * (n / tasks))) with n in T by lia.
    + rewrite Len. lia.
Qed.

(* index i lies in range r *)
Definition inrng (r : nat * nat) (i : nat) : Prop := fst r <= i < snd r.

Lemma tiles_le l : forall a b, tiles a b l -> a <= b.
Proof.
  induction l as [|[s e] l IH]; intros a b; simpl; [lia|].
  intros [-> [H1 H2]]. apply IH in H2. lia.
Qed.
Lemma tiles_in l : forall a b r i, tiles a b l -> In r l -> inrng r i -> a <= i < b.
Proof.
  induction l as [|[s e] l IH]; intros a b r i T H I; [destruct H|].
  destruct T as [-> [H1 T]]. pose proof (tiles_le _ _ _ T). destruct H as [<-|H].
  - unfold inrng in I. simpl in I. lia.
  - specialize (IH _ _ _ _ T H I). lia.
Qed.
Lemma tiles_cover l : forall a b i, tiles a b l -> a <= i < b -> exists r, In r l /\ inrng r i.
Proof.
  induction l as [|[s e] l IH]; intros a b i T H; simpl in T; [lia|].
  destruct T as [-> [H1 T]]. destruct (lt_dec i e).
  - exists (a, e). split; [now left|]. unfold inrng; simpl; lia.
  - destruct (IH _ _ i T ltac:(lia)) as [r [R1 R2]]. exists r. split; [now right|auto].
Qed.
Lemma tiles_disjoint l : forall a b, tiles a b l ->
  ForallOrdPairs (fun r r' => forall i, inrng r i -> inrng r' i -> False) l.
Proof.
  induction l as [|[s e] l IH]; intros a b T; [constructor|].
  destruct T as [-> [H1 T]]. constructor.
  - rewrite Forall_forall. intros r Hr i I1 I2.
    pose proof (tiles_in _ _ _ _ _ T Hr I2). unfold inrng in I1. simpl in I1. lia.
  - eapply IH; eauto.
Qed.
(* the concatenation of the ranges is 0,1,...,n-1 *)
Lemma tiles_concat l : forall a b, tiles a b l ->
  flat_map (fun r => seq (fst r) (snd r - fst r)) l = seq a (b - a).
Proof.
  induction l as [|[s e] l IH]; intros a b T; simpl in T.
  - subst. now rewrite Nat.sub_diag.
  - destruct T as [-> [H1 T]]. simpl. rewrite (IH _ _ T).
    pose proof (tiles_le _ _ _ T).
    replace (b - a) with ((e - a) + (b - e)) by lia.
    rewrite seq_app. do 2 f_equal. lia.
Qed.

(* ---- race freedom and sequential meaning of a parallel loop ---- *)
Lemma race_free_parallelize n tasks body :
  1 <= tasks ->
  (forall i, i < n -> race_free (body i)) ->
  (forall i j k, i < n -> j < n -> i <> j -> fprint (body i) k -> fprint (body j) k -> False) ->
  exists p, parallelize n tasks body = Some p /\ race_free p /\
    (forall m, run p m = fold_left (fun m i => run (body i) m) (seq 0 n) m) /\
    (forall k, fprint p k <-> exists i, i < n /\ fprint (body i) k).
Proof.
  intros Ht Hb Hd. destruct (chunks_tiles n tasks Ht) as [l [E [T _]]].
  unfold parallelize. rewrite E. eexists. split; [reflexivity|].
  assert (FP : forall r k, fprint (range_loop body r) k <-> exists i, inrng r i /\ fprint (body i) k).
  { intros [s e] k. unfold range_loop, inrng. rewrite fprint_seqs. simpl. split.
    - intros [p [Hp Hk]]. apply in_map_iff in Hp as [i [<- Hi]]. apply in_seq in Hi.
      exists i. split; [lia|auto].
    - intros [i [Hi Hk]]. exists (body i). split; [apply in_map, in_seq; lia|auto]. }
  split; [|split].
  - apply race_free_pars.
    + intros p Hp. apply in_map_iff in Hp as [r [<- Hr]].
      apply race_free_seqs. intros q Hq. apply in_map_iff in Hq as [i [<- Hi]].
      apply Hb. assert (I : inrng r i) by (unfold inrng; apply in_seq in Hi; lia).
      pose proof (tiles_in _ _ _ _ _ T Hr I). lia.
    + pose proof (tiles_disjoint _ _ _ T) as D.
      assert (Sub : forall r, In r l -> forall i, inrng r i -> i < n).
      { intros r Hr i I. pose proof (tiles_in _ _ _ _ _ T Hr I). lia. }
      clear E T. induction D as [|r l D1 D2 IH]; simpl; constructor.
      * rewrite Forall_forall in *. intros p Hp k K1 K2.
        apply in_map_iff in Hp as [r' [<- Hr']].
        apply FP in K1 as [i [I1 K1]]. apply FP in K2 as [j [I2 K2]].
        apply (Hd i j k); auto.
        -- apply (Sub r); simpl; auto.
        -- apply (Sub r'); simpl; auto.
        -- intros ->. eapply D1; eauto.
      * apply IH. intros r' Hr'. apply Sub. simpl; auto.
  - intros m. rewrite run_pars.
    replace (seq 0 n) with (flat_map (fun r => seq (fst r) (snd r - fst r)) l)
      by (rewrite (tiles_concat _ _ _ T); f_equal; lia).
    clear. revert m. induction l as [|r l IH]; intros m; simpl; auto.
    rewrite fold_left_app, IH. f_equal. unfold range_loop. rewrite run_seqs.
    clear. generalize (seq (fst r) (snd r - fst r)). intros s. revert m.
    induction s as [|i s IH]; intros m; simpl; auto.
  - intros k. rewrite fprint_pars. split.
    + intros [p [Hp Hk]]. apply in_map_iff in Hp as [r [<- Hr]].
      apply FP in Hk as [i [I Hk]]. exists i. split; auto.
      pose proof (tiles_in _ _ _ _ _ T Hr I). lia.
    + intros [i [Hi Hk]]. destruct (tiles_cover _ _ _ i T ltac:(lia)) as [r [Hr I]].
      exists (range_loop body r). split; [now apply in_map|]. apply FP. eauto.
Qed.

(* loops whose body at i rewrites cell i *)
Lemma fold_cells (f : nat -> A -> A) n m :
  fold_left (fun m i => run (cell i (f i)) m) (seq 0 n) m =
  mapi (fun i x => if i <? n then f i x else x) m.
Proof.
  apply list_ext. intros j. rewrite nth_error_mapi.
  induction n as [|n IH].
  - simpl. destruct (nth_error m j); auto.
  - rewrite seq_S, fold_left_app. cbn [fold_left Nat.add].
    remember (fold_left (fun m i => run (cell i (f i)) m) (seq 0 n) m) as m' eqn:Em.
    change (run (cell n (f n)) m') with (cell_upd n (f n) m').
    rewrite nth_error_cell_upd, IH.
    destruct (Nat.eqb_spec n j) as [->|Hn].
    + destruct (nth_error m j); simpl; auto.
      now rewrite (proj2 (Nat.ltb_ge j j)), (proj2 (Nat.ltb_lt j (S j))) by lia.
    + destruct (nth_error m j); simpl; auto.
      destruct (Nat.ltb_spec j n), (Nat.ltb_spec j (S n)); auto; lia.
Qed.

(* common.Parallelize applied to a per-cell body: the model uses [par_cells], whose value is the
   sequential run of the fork/join program (any other schedule gives the same, see
   [par_cells_any_schedule]). *)
Definition par_cells (n tasks : nat) (f : nat -> A -> A) (m : list A) : option (list A) :=
  match parallelize n tasks (fun i => cell i (f i)) with
  | Some p => Some (run p m)
  | None => None
  end.

Lemma par_cells_prog n tasks f : 1 <= tasks ->
  exists p, parallelize n tasks (fun i => cell i (f i)) = Some p /\ race_free p /\
    (forall m, run p m = mapi (fun i x => if i <? n then f i x else x) m) /\
    (forall i, fprint p i <-> i < n).
Proof.
  intros Ht.
  destruct (race_free_parallelize n tasks (fun i => cell i (f i)) Ht) as [p [E [R [S F]]]].
  - intros; apply race_free_cell.
  - simpl. intros i j k _ _ N -> ->. auto.
  - exists p. split; [auto|]. split; [auto|]. split.
    + intros m. rewrite S. apply fold_cells.
    + intros i. rewrite F. simpl. split; [intros [j [Hj ->]]; auto|eauto].
Qed.

Lemma par_cells_spec n tasks f m : 1 <= tasks ->
  par_cells n tasks f m = Some (mapi (fun i x => if i <? n then f i x else x) m).
Proof.
  intros Ht. unfold par_cells. destruct (par_cells_prog n tasks f Ht) as [p [-> [_ [S _]]]].
  now rewrite S.
Qed.

Lemma par_cells_any_schedule n tasks f m : 1 <= tasks ->
  exists p, parallelize n tasks (fun i => cell i (f i)) = Some p /\
    (forall m', steps (p, m) (Skip, m') ->
       par_cells n tasks f m = Some m') /\
    Acc (fun c2 c1 => step c1 c2) (p, m).
Proof.
  intros Ht. destruct (par_cells_prog n tasks f Ht) as [p [E [R [S _]]]].
  exists p. split; [auto|]. split.
  - intros m' H. apply race_free_deterministic in H; auto.
    unfold par_cells. rewrite E. congruence.
  - apply all_schedules_terminate.
Qed.
End Par.
