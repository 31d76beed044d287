(* IO.v -- programs that read two files and write several, with their buffering.
   Models the parts of the Go standard library the tool depends on: os.File Read/Seek/Write,
   bufio.Reader.Read, bufio.Writer, io.ReadFull, defer. *)
From Verif Require Import Base.

(* ------------------------------------------------------------------ *)
(* An input: the whole file, the bytes not yet delivered to the program, the size of the
   bufio.Reader on top of it (0: the os.File is read directly) and how many of the undelivered
   bytes already sit in that buffer. *)
Record rd := mkRd { r_file : bytes; r_rest : bytes; r_cap : nat; r_avail : nat }.

Definition rd_take (n avail : nat) (r : rd) : option bytes * rd :=
  (Some (firstn n (r_rest r)), mkRd (r_file r) (skipn n (r_rest r)) (r_cap r) avail).

(* One Read call with a k-byte slice (k > 0).  os.File: as many bytes as there are, EOF if none.
   bufio.Reader.Read (Go 1.x bufio.go): at most one Read on the underlying file; what is in the
   buffer is returned without refilling it; slices at least as long as the buffer bypass it. *)
Definition rd_read (k : nat) (r : rd) : option bytes * rd :=
  if r_cap r =? 0 then
    match r_rest r with [] => (None, r) | _ => rd_take k 0 r end
  else if r_avail r =? 0 then
    match r_rest r with
    | [] => (None, r)
    | _ =>
      if r_cap r <=? k then rd_take k 0 r
      else let av := Nat.min (r_cap r) (length (r_rest r)) in
           let n := Nat.min k av in rd_take n (av - n) r
    end
  else let n := Nat.min k (r_avail r) in rd_take n (r_avail r - n) r.

(* os.File.Seek(pos, io.SeekStart) for pos >= 0 *)
Definition rd_seek (pos : nat) (r : rd) : rd := mkRd (r_file r) (skipn pos (r_file r)) 0 0.
(* os.File.Seek(n, io.SeekCurrent), n >= 0: relative to the OS offset, i.e. past the buffer *)
Definition rd_fwd (n : nat) (r : rd) : rd := mkRd (r_file r) (skipn (r_avail r + n) (r_rest r)) 0 0.
(* bufio.NewReaderSize(file, cap): whatever an older buffer holds is lost *)
Definition rd_buf (cap : nat) (r : rd) : rd := mkRd (r_file r) (skipn (r_avail r) (r_rest r)) cap 0.

(* ------------------------------------------------------------------ *)
Inductive io (A : Type) : Type :=
| Ret (a : A)
| Throw (e : err)                                  (* return err *)
| Boom                                             (* panic *)
| Rd (h : bool) (k : nat) (c : option bytes -> io A)   (* n, err := h.Read(buf[:k]) *)
| Seek (h : bool) (pos : Z) (c : bool -> io A)         (* h.Seek(pos, io.SeekStart) *)
| Fwd (h : bool) (n : nat) (c : io A)                  (* h.Seek(n, io.SeekCurrent) *)
| NewRd (h : bool) (cap : nat) (c : io A)              (* bufio.NewReaderSize(h, cap) *)
| NewWr (o : nat) (cap : nat) (c : io A)               (* bufio.NewWriterSize(o, cap) *)
| Flush (o : nat) (c : bool -> io A)                   (* writer.Flush() *)
| Wr (o : nat) (d : bytes) (c : bool -> io A).         (* _, err := o.Write(d) *)
Arguments Ret {A}. Arguments Throw {A}. Arguments Boom {A}. Arguments Rd {A}. Arguments Seek {A}.
Arguments Fwd {A}. Arguments NewRd {A}. Arguments NewWr {A}. Arguments Flush {A}. Arguments Wr {A}.

Fixpoint bind {A B} (p : io A) (f : A -> io B) : io B :=
  match p with
  | Ret a => f a
  | Throw e => Throw e
  | Boom => Boom
  | Rd h k c => Rd h k (fun x => bind (c x) f)
  | Seek h z c => Seek h z (fun x => bind (c x) f)
  | Fwd h n c => Fwd h n (bind c f)
  | NewRd h n c => NewRd h n (bind c f)
  | NewWr o n c => NewWr o n (bind c f)
  | Flush o c => Flush o (fun x => bind (c x) f)
  | Wr o d c => Wr o d (fun x => bind (c x) f)
  end.

(* if err != nil { return nil }  -- the error is dropped; panics are not *)
Fixpoint try {A} (p : io A) : io (option A) :=
  match p with
  | Ret a => Ret (Some a)
  | Throw e => Ret None
  | Boom => Boom
  | Rd h k c => Rd h k (fun x => try (c x))
  | Seek h z c => Seek h z (fun x => try (c x))
  | Fwd h n c => Fwd h n (try c)
  | NewRd h n c => NewRd h n (try c)
  | NewWr o n c => NewWr o n (try c)
  | Flush o c => Flush o (fun x => try (c x))
  | Wr o d c => Wr o d (fun x => try (c x))
  end.

(* defer writer.Flush(): runs on return, on error and on panic; its error is dropped *)
Fixpoint with_flush {A} (o : nat) (p : io A) : io A :=
  match p with
  | Ret a => Flush o (fun _ => Ret a)
  | Throw e => Flush o (fun _ => Throw e)
  | Boom => Flush o (fun _ => Boom)
  | Rd h k c => Rd h k (fun x => with_flush o (c x))
  | Seek h z c => Seek h z (fun x => with_flush o (c x))
  | Fwd h n c => Fwd h n (with_flush o c)
  | NewRd h n c => NewRd h n (with_flush o c)
  | NewWr o' n c => NewWr o' n (with_flush o c)
  | Flush o' c => Flush o' (fun x => with_flush o (c x))
  | Wr o' d c => Wr o' d (fun x => with_flush o (c x))
  end.

Declare Scope io_scope.
Delimit Scope io_scope with io.
Notation "x <- p ;; q" := (bind p (fun x => q)) (at level 61, p at next level, right associativity) : io_scope.
Notation "' pat <- p ;; q" := (bind p (fun x => match x with pat => q end))
  (at level 61, pat pattern, p at next level, right associativity) : io_scope.
Notation "p ;;; q" := (bind p (fun _ => q)) (at level 61, right associativity) : io_scope.

(* ------------------------------------------------------------------ *)
(* Semantics when no write fails: result, the two inputs afterwards, what was written where. *)
Definition rds := (rd * rd)%type.
Definition getr (h : bool) (s : rds) : rd := if h then snd s else fst s.
Definition setr (h : bool) (r : rd) (s : rds) : rds := if h then (fst s, r) else (r, snd s).

Definition wlog := list (nat * bytes).
Definition out (o : nat) (w : wlog) : bytes :=
  flat_map (fun x => if fst x =? o then snd x else []) w.

Fixpoint run {A} (p : io A) (s : rds) : res A * rds * wlog :=
  match p with
  | Ret a => (Ok a, s, [])
  | Throw e => (Err e, s, [])
  | Boom => (Panic, s, [])
  | Rd h k c => let '(x, r) := rd_read k (getr h s) in run (c x) (setr h r s)
  | Seek h z c =>
      if (z <? 0)%Z then run (c false) s
      else run (c true) (setr h (rd_seek (Z.to_nat z) (getr h s)) s)
  | Fwd h n c => run c (setr h (rd_fwd n (getr h s)) s)
  | NewRd h n c => run c (setr h (rd_buf n (getr h s)) s)
  | NewWr _ _ c => run c s
  | Flush _ c => run (c true) s
  | Wr o d c => let '(r, s', w) := run (c true) s in (r, s', (o, d) :: w)
  end.

Lemma out_app o w1 w2 : out o (w1 ++ w2) = out o w1 ++ out o w2.
Proof. unfold out. apply flat_map_app. Qed.

Lemma run_bind {A B} (p : io A) (f : A -> io B) : forall s,
  run (bind p f) s =
  let '(r, s1, w1) := run p s in
  match r with
  | Ok a => let '(r2, s2, w2) := run (f a) s1 in (r2, s2, w1 ++ w2)
  | Err e => (Err e, s1, w1)
  | Panic => (Panic, s1, w1)
  end.
Proof.
  induction p as [a|e| |h k c IH|h z c IH|h n c IH|h n c IH|o n c IH|o c IH|o d c IH]; intros s; cbn [bind run]; auto.
  - destruct (run (f a) s) as [[r s2] w]; auto.
  - destruct (rd_read k (getr h s)) as [x r]. apply IH.
  - destruct (z <? 0)%Z; apply IH.
  - rewrite IH. destruct (run (c true) s) as [[[a|e|] s1] w1]; auto.
    destruct (run (f a) s1) as [[r2 s2] w2]. auto.
Qed.

Lemma run_try {A} (p : io A) : forall s,
  run (try p) s =
  let '(r, s1, w1) := run p s in
  (match r with Ok a => Ok (Some a) | Err _ => Ok None | Panic => Panic end, s1, w1).
Proof.
  induction p as [a|e| |h k c IH|h z c IH|h n c IH|h n c IH|o n c IH|o c IH|o d c IH]; intros s; cbn [try run]; auto.
  - destruct (rd_read k (getr h s)) as [x r]. apply IH.
  - destruct (z <? 0)%Z; apply IH.
  - rewrite IH. destruct (run (c true) s) as [[r s1] w1]; auto.
Qed.

Lemma run_with_flush {A} o (p : io A) : forall s, run (with_flush o p) s = run p s.
Proof.
  induction p as [a|e| |h k c IH|h z c IH|h n c IH|h n c IH|o' n c IH|o' c IH|o' d c IH]; intros s; cbn [with_flush run]; auto.
  - destruct (rd_read k (getr h s)) as [x r]. apply IH.
  - destruct (z <? 0)%Z; apply IH.
  - now rewrite IH.
Qed.

(* ------------------------------------------------------------------ *)
(* Evaluation judgement used in the proofs: result, final inputs and, per output, the bytes. *)
Definition ev {A} (p : io A) (s : rds) (r : res A) (s' : rds) (d : nat -> bytes) : Prop :=
  exists w, run p s = (r, s', w) /\ forall o, out o w = d o.

Definition none : nat -> bytes := fun _ => [].
Definition on (o : nat) (b : bytes) : nat -> bytes := fun x => if o =? x then b else [].
Definition cat (f g : nat -> bytes) : nat -> bytes := fun x => f x ++ g x.

Lemma ev_ext {A} (p : io A) s r s' d d' : ev p s r s' d -> (forall o, d o = d' o) -> ev p s r s' d'.
Proof. intros [w [E H]] X. exists w. split; auto. intros o. now rewrite H. Qed.

Lemma ev_ret {A} (a : A) s : ev (Ret a) s (Ok a) s none.
Proof. exists []. split; auto. Qed.
Lemma ev_throw {A} e s : ev (@Throw A e) s (Err e) s none.
Proof. exists []. split; auto. Qed.
Lemma ev_boom {A} s : ev (@Boom A) s Panic s none.
Proof. exists []. split; auto. Qed.

Lemma ev_bind {A B} (p : io A) (f : A -> io B) s a s1 d1 r s2 d2 :
  ev p s (Ok a) s1 d1 -> ev (f a) s1 r s2 d2 -> ev (bind p f) s r s2 (cat d1 d2).
Proof.
  intros [w1 [E1 H1]] [w2 [E2 H2]]. exists (w1 ++ w2). rewrite run_bind, E1, E2. split; auto.
  intros o. unfold cat. now rewrite out_app, H1, H2.
Qed.
Lemma ev_bind_err {A B} (p : io A) (f : A -> io B) s e s1 d1 :
  ev p s (Err e) s1 d1 -> ev (bind p f) s (Err e) s1 d1.
Proof. intros [w1 [E1 H1]]. exists w1. rewrite run_bind, E1. auto. Qed.
Lemma ev_bind_panic {A B} (p : io A) (f : A -> io B) s s1 d1 :
  ev p s Panic s1 d1 -> ev (bind p f) s Panic s1 d1.
Proof. intros [w1 [E1 H1]]. exists w1. rewrite run_bind, E1. auto. Qed.

Lemma ev_with_flush {A} o (p : io A) s r s' d : ev p s r s' d -> ev (with_flush o p) s r s' d.
Proof. intros [w [E H]]. exists w. rewrite run_with_flush. auto. Qed.

Lemma ev_try_ok {A} (p : io A) s a s' d : ev p s (Ok a) s' d -> ev (try p) s (Ok (Some a)) s' d.
Proof. intros [w [E H]]. exists w. rewrite run_try, E. auto. Qed.
Lemma ev_try_err {A} (p : io A) s e s' d : ev p s (Err e) s' d -> ev (try p) s (Ok None) s' d.
Proof. intros [w [E H]]. exists w. rewrite run_try, E. auto. Qed.

Lemma ev_det {A} (p : io A) s r1 s1 d1 r2 s2 d2 :
  ev p s r1 s1 d1 -> ev p s r2 s2 d2 -> r1 = r2 /\ s1 = s2 /\ forall o, d1 o = d2 o.
Proof.
  intros [w1 [E1 H1]] [w2 [E2 H2]]. assert (E : (r1, s1, w1) = (r2, s2, w2)) by congruence.
  injection E as <- <- <-. split; [auto|]. split; [auto|]. intros o. now rewrite <- H1, <- H2.
Qed.

Lemma ev_total {A} (p : io A) s : exists r s' d, ev p s r s' d.
Proof. destruct (run p s) as [[r s'] w] eqn:E. exists r, s', (fun o => out o w), w. auto. Qed.

Lemma bind_ok_inv {A B} (p : io A) (f : A -> io B) s b s2 d :
  ev (bind p f) s (Ok b) s2 d ->
  exists a s1 d1 d2, ev p s (Ok a) s1 d1 /\ ev (f a) s1 (Ok b) s2 d2 /\ forall o, d o = d1 o ++ d2 o.
Proof.
  intros [w [E H]]. rewrite run_bind in E. destruct (run p s) as [[[a|e|] s1] w1] eqn:E1; try discriminate.
  destruct (run (f a) s1) as [[r2 s2'] w2] eqn:E2. injection E as -> -> <-.
  exists a, s1, (fun o => out o w1), (fun o => out o w2).
  split; [now exists w1|]. split; [now exists w2|]. intros o. now rewrite <- H, out_app.
Qed.

Lemma on_cat o a b x : cat (on o a) (on o b) x = on o (a ++ b) x.
Proof. unfold cat, on. destruct (o =? x); auto. Qed.

(* ------------------------------------------------------------------ *)
(* Canonical reader states: p bytes were consumed since the buffer was created. *)
Definition avail_at (cap p len : nat) : nat :=
  if cap =? 0 then 0 else if p mod cap =? 0 then 0 else Nat.min (cap - p mod cap) len.
Definition at_ (file : bytes) (cap p : nat) (rest : bytes) : rd :=
  mkRd file rest cap (avail_at cap p (length rest)).

Lemma getr_setr h r s : getr h (setr h r s) = r.
Proof. now destruct h, s. Qed.
Lemma getr_setr_other h r s : getr (negb h) (setr h r s) = getr (negb h) s.
Proof. now destruct h, s. Qed.
Lemma setr_setr h r r' s : setr h r (setr h r' s) = setr h r s.
Proof. now destruct h, s. Qed.
Lemma setr_getr h s : setr h (getr h s) s = s.
Proof. now destruct h, s. Qed.

Lemma mod_add_small cap p k : cap <> 0 -> p mod cap + k < cap -> (p + k) mod cap = p mod cap + k.
Proof.
  intros H L. rewrite <- (Nat.mod_small (p mod cap + k) cap) by auto.
  now rewrite Nat.add_mod_idemp_l.
Qed.
Lemma mod_add_full cap p k : cap <> 0 -> p mod cap + k = cap -> (p + k) mod cap = 0.
Proof.
  intros H L. rewrite <- Nat.add_mod_idemp_l by auto. rewrite L. now apply Nat.mod_same.
Qed.

(* one Read that the buffer can satisfy *)
Lemma rd_read_at file cap p k rest : 0 < k -> k <= length rest ->
  cap = 0 \/ p mod cap + k <= cap /\ k < cap ->
  rd_read k (at_ file cap p rest) = (Some (firstn k rest), at_ file cap (p + k) (skipn k rest)).
Proof.
  intros Hk Hl Hc. unfold rd_read, at_. cbn [r_cap r_avail r_rest]. unfold rd_take. cbn [r_rest r_file r_cap].
  unfold avail_at.
  destruct (Nat.eqb_spec cap 0) as [C|C].
  - destruct rest; [simpl in Hl; lia|]. auto.
  - destruct Hc as [|[Hc1 Hc2]]; [lia|].
    pose proof (Nat.mod_upper_bound p cap C) as U.
    destruct (Nat.eqb_spec (p mod cap) 0) as [M|M].
    + rewrite Nat.eqb_refl. destruct rest as [|b rest']; [simpl in Hl; lia|].
      destruct (Nat.leb_spec cap k); [lia|]. set (rest := b :: rest') in *.
      replace (Nat.min k (Nat.min cap (length rest))) with k by lia.
      f_equal. f_equal. rewrite skipn_length. rewrite mod_add_small by lia. rewrite M. cbn [Nat.add].
      destruct (Nat.eqb_spec k 0); [lia|]. lia.
    + destruct (Nat.eqb_spec (Nat.min (cap - p mod cap) (length rest)) 0); [lia|].
      replace (Nat.min k (Nat.min (cap - p mod cap) (length rest))) with k by lia.
      f_equal. f_equal. rewrite skipn_length.
      destruct (Nat.eq_dec (p mod cap + k) cap) as [E|E].
      * rewrite mod_add_full by auto. cbn. lia.
      * rewrite mod_add_small by lia. destruct (Nat.eqb_spec (p mod cap + k) 0); [lia|]. lia.
Qed.

(* one Read that is cut short by the end of the buffer *)
Lemma rd_read_short file cap p k rest : 0 < cap -> p mod cap <> 0 -> cap < p mod cap + k ->
  cap - p mod cap <= length rest ->
  rd_read k (at_ file cap p rest) =
  (Some (firstn (cap - p mod cap) rest),
   at_ file cap (p + (cap - p mod cap)) (skipn (cap - p mod cap) rest)).
Proof.
  intros Hc Hp Hk Hl. unfold rd_read, at_. cbn [r_cap r_avail r_rest]. unfold rd_take. cbn [r_rest r_file r_cap].
  unfold avail_at. pose proof (Nat.mod_upper_bound p cap ltac:(lia)) as U.
  destruct (Nat.eqb_spec cap 0); [lia|]. destruct (Nat.eqb_spec (p mod cap) 0); [lia|].
  destruct (Nat.eqb_spec (Nat.min (cap - p mod cap) (length rest)) 0); [lia|].
  replace (Nat.min k (Nat.min (cap - p mod cap) (length rest))) with (cap - p mod cap) by lia.
  f_equal. f_equal. rewrite mod_add_full by lia. cbn. lia.
Qed.

(* one Read near the end of the file: fewer than k bytes are left, all in reach *)
Lemma rd_read_eof file cap p k : rd_read k (at_ file cap p []) = (None, at_ file cap p []).
Proof.
  unfold rd_read, at_, avail_at. cbn [r_cap r_avail r_rest length]. rewrite Nat.min_0_r.
  destruct (cap =? 0); auto. destruct (p mod cap =? 0); auto.
Qed.

Lemma rd_read_tail file cap p k rest : rest <> [] -> length rest <= k ->
  cap = 0 \/ p mod cap + length rest <= cap /\ k < cap ->
  rd_read k (at_ file cap p rest) = (Some rest, at_ file cap (p + length rest) []).
Proof.
  intros Hn Hl Hc. unfold rd_read, at_. cbn [r_cap r_avail r_rest]. unfold rd_take. cbn [r_rest r_file r_cap].
  unfold avail_at. cbn [length]. rewrite !Nat.min_0_r.
  assert (L0 : length rest <> 0) by (destruct rest; simpl; congruence).
  destruct (Nat.eqb_spec cap 0) as [C|C].
  - destruct rest; [congruence|]. rewrite firstn_all2, skipn_all2 by auto. auto.
  - destruct Hc as [|[Hc1 Hc2]]; [lia|].
    pose proof (Nat.mod_upper_bound p cap C) as U.
    replace (if (p + length rest) mod cap =? 0 then 0 else 0) with 0 by (destruct ((p + length rest) mod cap =? 0); auto).
    destruct (Nat.eqb_spec (p mod cap) 0) as [M|M].
    + rewrite Nat.eqb_refl. destruct rest as [|b rest']; [congruence|].
      destruct (Nat.leb_spec cap k); [lia|]. set (rest := b :: rest') in *.
      replace (Nat.min k (Nat.min cap (length rest))) with (length rest) by lia.
      rewrite firstn_all, skipn_all. f_equal. f_equal. lia.
    + destruct (Nat.eqb_spec (Nat.min (cap - p mod cap) (length rest)) 0); [lia|].
      replace (Nat.min k (Nat.min (cap - p mod cap) (length rest))) with (length rest) by lia.
      rewrite firstn_all, skipn_all. f_equal. f_equal. lia.
Qed.

(* ------------------------------------------------------------------ *)
(* io.ReadFull(h, buf[:k]).  The fuel k suffices: every successful Read delivers a byte. *)
Fixpoint rf_loop (fuel k : nat) (h : bool) (acc : bytes) : io bytes :=
  match fuel with
  | 0 => Throw EEof
  | S f => Rd h k (fun x => match x with
             | None => Throw EEof
             | Some b => if length b =? k then Ret (acc ++ b) else rf_loop f (k - length b) h (acc ++ b)
             end)
  end.
Definition readfull (h : bool) (k : nat) : io bytes := if k =? 0 then Ret [] else rf_loop k k h [].

Lemma firstn_split {A} j k (l : list A) : j <= k -> firstn j l ++ firstn (k - j) (skipn j l) = firstn k l.
Proof.
  intros H. revert k l H. induction j as [|j IH]; intros k l H; [now rewrite Nat.sub_0_r|].
  destruct l as [|x l]; [simpl; now rewrite !firstn_nil|]. destruct k; [lia|]. cbn. f_equal. apply IH. lia.
Qed.

Lemma rf_ok h file cap : forall k fuel p b t acc s, k <= fuel -> 0 < k -> length b = k -> cap = 0 \/ k < cap ->
  getr h s = at_ file cap p (b ++ t) ->
  run (rf_loop fuel k h acc) s = (Ok (acc ++ b), setr h (at_ file cap (p + k) t) s, []).
Proof.
  intros k fuel p b t acc s Hf Hk Lb Hc G.
  assert (Lt : k <= length (b ++ t)) by (rewrite app_length; lia).
  assert (F : firstn k (b ++ t) = b) by (rewrite <- Lb; apply firstn_app_exact).
  assert (SK : skipn k (b ++ t) = t) by (rewrite <- Lb; apply skipn_app_exact).
  destruct (Nat.le_gt_cases (p mod cap + k) cap) as [Fit|NoFit].
  { destruct fuel as [|fuel]; [lia|]. cbn [rf_loop run]. rewrite G, rd_read_at by (auto; lia).
    rewrite F, SK, Lb, Nat.eqb_refl. reflexivity. }
  destruct (Nat.eq_dec cap 0) as [C|C].
  { destruct fuel as [|fuel]; [lia|]. cbn [rf_loop run]. rewrite G, rd_read_at by (auto; lia).
    rewrite F, SK, Lb, Nat.eqb_refl. reflexivity. }
  destruct Hc as [|Hc]; [lia|].
  assert (M : p mod cap <> 0) by lia.
  pose proof (Nat.mod_upper_bound p cap C) as U.
  set (j := cap - p mod cap) in *.
  destruct fuel as [|[|fuel]]; [lia|lia|].
  change (rf_loop (S (S fuel)) k h acc) with
    (Rd h k (fun x => match x with None => Throw EEof | Some b =>
       if length b =? k then Ret (acc ++ b) else rf_loop (S fuel) (k - length b) h (acc ++ b) end)).
  cbn [run]. rewrite G, rd_read_short by lia. fold j.
  assert (Lj : length (firstn j (b ++ t)) = j) by (rewrite firstn_length; lia).
  rewrite Lj. destruct (Nat.eqb_spec j k); [lia|].
  cbn [rf_loop run]. rewrite getr_setr, rd_read_at.
  - rewrite firstn_length, skipn_length.
    replace (Nat.min (k - j) (length (b ++ t) - j)) with (k - j) by lia. rewrite Nat.eqb_refl. cbn [run].
    rewrite setr_setr. f_equal. f_equal.
    + f_equal. rewrite <- app_assoc. f_equal. rewrite firstn_split by lia. exact F.
    + f_equal. f_equal; [lia|]. rewrite skipn_skipn_add. now replace (j + (k - j)) with k by lia.
  - lia.
  - rewrite skipn_length. lia.
  - right. rewrite mod_add_full by lia. lia.
Qed.

Lemma readfull_ok h file cap p b t s k : length b = k -> cap = 0 \/ k < cap ->
  getr h s = at_ file cap p (b ++ t) ->
  ev (readfull h k) s (Ok b) (setr h (at_ file cap (p + k) t) s) none.
Proof.
  intros Lb Hc G. unfold readfull. destruct (Nat.eqb_spec k 0) as [->|N].
  - destruct b; [|discriminate]. exists []. split; auto. cbn [run]. cbn [app] in G. rewrite Nat.add_0_r, <- G, setr_getr. auto.
  - exists []. split; auto. rewrite (rf_ok h file cap k k p b t [] s); auto; lia.
Qed.

Lemma rf_eof h file cap : forall k fuel p rest acc s, length rest < fuel -> length rest < k -> cap = 0 \/ k < cap ->
  getr h s = at_ file cap p rest ->
  run (rf_loop fuel k h acc) s = (Err EEof, setr h (at_ file cap (p + length rest) []) s, []).
Proof.
  intros k fuel p rest acc s Hf Hk Hc G.
  assert (E0 : forall fuel k p acc s, 0 < fuel -> getr h s = at_ file cap p [] ->
    run (rf_loop fuel k h acc) s = (Err EEof, setr h (at_ file cap p []) s, [])).
  { clear. intros fuel k p acc s Hf G. destruct fuel; [lia|]. cbn [rf_loop run]. now rewrite G, rd_read_eof. }
  destruct rest as [|b0 rest0]; [rewrite Nat.add_0_r; apply E0; auto; lia|].
  set (rest := b0 :: rest0) in *. assert (NE : rest <> []) by discriminate.
  assert (L0 : 0 < length rest) by (simpl; lia).
  clearbody rest. clear b0 rest0.
  assert (TAIL : forall fuel k p rest acc s, rest <> [] -> length rest < fuel -> length rest < k ->
    (cap = 0 \/ p mod cap + length rest <= cap /\ k < cap) -> getr h s = at_ file cap p rest ->
    run (rf_loop fuel k h acc) s = (Err EEof, setr h (at_ file cap (p + length rest) []) s, [])).
  { clear - E0. intros fuel k p rest acc s NE Hf Hk Hc G.
    assert (0 < length rest) by (destruct rest; [congruence|simpl; lia]).
    destruct fuel as [|[|fuel]]; try lia.
    change (rf_loop (S (S fuel)) k h acc) with
    (Rd h k (fun x => match x with None => Throw EEof | Some b =>
       if length b =? k then Ret (acc ++ b) else rf_loop (S fuel) (k - length b) h (acc ++ b) end)).
    cbn [run]. rewrite G, rd_read_tail by (auto; lia).
    destruct (Nat.eqb_spec (length rest) k); [lia|].
    rewrite E0 with (p := p + length rest); [now rewrite setr_setr|lia|apply getr_setr]. }
  destruct (Nat.eq_dec cap 0) as [C|C]; [apply TAIL; auto|].
  destruct (Nat.le_gt_cases (p mod cap + length rest) cap) as [Fit|NoFit].
  { apply TAIL; auto. right. lia. }
  destruct Hc as [|Hc]; [lia|].
  pose proof (Nat.mod_upper_bound p cap C) as U.
  set (j := cap - p mod cap) in *.
  destruct fuel as [|fuel]; [lia|]. cbn [rf_loop run]. rewrite G, rd_read_short by lia. fold j.
  assert (Lj : length (firstn j rest) = j) by (rewrite firstn_length; lia).
  rewrite Lj. destruct (Nat.eqb_spec j k); [lia|].
  assert (LS : length (skipn j rest) = length rest - j) by apply skipn_length.
  rewrite TAIL with (p := p + j) (rest := skipn j rest); try lia.
  - rewrite setr_setr, LS. do 3 f_equal. f_equal. lia.
  - intros X. rewrite X in LS. cbn [length] in LS. lia.
  - right. rewrite LS, mod_add_full by lia. lia.
  - apply getr_setr.
Qed.

Lemma readfull_eof h file cap p rest s k : length rest < k -> cap = 0 \/ k < cap ->
  getr h s = at_ file cap p rest ->
  ev (readfull h k) s (Err EEof) (setr h (at_ file cap (p + length rest) []) s) none.
Proof.
  intros Lb Hc G. unfold readfull. destruct (Nat.eqb_spec k 0); [lia|].
  exists []. split; auto. rewrite (rf_eof h file cap k k p rest [] s); auto.
Qed.

(* if err := ... write ...; err != nil { return err } *)
Definition write (o : nat) (d : bytes) : io unit := Wr o d (fun ok => if ok then Ret tt else Throw EWrite).
(* a write whose error is dropped *)
Definition write_ (o : nat) (d : bytes) : io unit := Wr o d (fun _ => Ret tt).
Definition seek (h : bool) (pos : Z) : io unit := Seek h pos (fun ok => if ok then Ret tt else Throw ESeek).

Lemma ev_write o d s : ev (write o d) s (Ok tt) s (on o d).
Proof.
  exists [(o, d)]. split; auto. intros x. unfold out, on. cbn. destruct (o =? x); auto. apply app_nil_r.
Qed.
Lemma ev_write_ o d s : ev (write_ o d) s (Ok tt) s (on o d).
Proof.
  exists [(o, d)]. split; auto. intros x. unfold out, on. cbn. destruct (o =? x); auto. apply app_nil_r.
Qed.
Lemma ev_newwr {A} o n (p : io A) s r s' d : ev p s r s' d -> ev (NewWr o n p) s r s' d.
Proof. intros [w H]. exists w. auto. Qed.
Lemma ev_newrd {A} h n (p : io A) s r s' d : ev p (setr h (rd_buf n (getr h s)) s) r s' d -> ev (NewRd h n p) s r s' d.
Proof. intros [w H]. exists w. auto. Qed.
