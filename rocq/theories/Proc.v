(* Proc.v -- the tool as processes that run at the same time: a run is a sequence of steps, each of which looks at the
   files and may change them, and between two steps other processes may do theirs.  A step is one os.Open, os.Create
   or one read, write or flush of the programs; a write through a bufio.Writer may be two system calls on the same
   file, which are one step here.  [solo]: nobody else runs; this is Cli.v again (ProcLemmas.v).  Two processes that
   have the same file open for writing are not described rightly: each would write at its own offset (Off.v). *)
From Coq Require Import String.
From Verif Require Import Base Fld Conc Parallel IO Ext Spec1 Phase1 Gob Circuit Spec2 Phase2 Fs Init2 Keys Live LiveCmd Cli Session.

Inductive proc (A : Type) : Type :=
| Done (a : A)
| Step (k : fs -> fs * proc A).
Arguments Done {A}. Arguments Step {A}.
Fixpoint pjoin {A B} (p : proc A) (g : A -> proc B) : proc B :=
  match p with
  | Done a => g a
  | Step k => Step (fun f => let '(f', p') := k f in (f', pjoin p' g))
  end.
Fixpoint solo {A} (p : proc A) (f : fs) : A * fs :=
  match p with
  | Done a => (a, f)
  | Step k => let '(f', p') := k f in solo p' f'
  end.

(* what a process keeps to itself: the counters of Live.v *)
Record loc := mkL { c_used : nat; c_calls : nat; c_ops : list osop }.
Definition in_world (l : loc) (f : fs) : world := mkW f (c_used l) (c_calls l) (c_ops l).
Definition own (w : world) : loc := mkL (w_used w) (w_calls w) (w_ops w).
Definition pcmd (X : Type) := loc -> proc (res X * loc).
Definition pbind {X Y} (c : pcmd X) (k : X -> pcmd Y) : pcmd Y := fun l =>
  pjoin (c l) (fun rl => let '(r, l1) := rl in
    match r with Ok x => k x l1 | Err e => Done (Err e, l1) | Panic => Done (Panic, l1) end).
Definition pret {X} (x : X) : pcmd X := fun l => Done (Ok x, l).
Definition pfail {X} (e : err) : pcmd X := fun l => Done (Err e, l).
Definition pboom {X} : pcmd X := fun l => Done (Panic, l).
(* one step that does what c does *)
Definition atomic {X} (c : lcmd X) : pcmd X := fun l =>
  Step (fun f => let '(r, w) := c (in_world l f) in (w_fs w, Done (r, own w))).
(* a program of IO.v, step by step, and its handles at the end; see lrun *)
Fixpoint prunh {X} (dev : device) (p : io X) (hs : handles) (l : loc) : proc ((res X * handles) * loc) :=
  match p with
  | Ret a => Done (Ok a, hs, l)
  | Throw e => Done (Err e, hs, l)
  | Boom => Done (Panic, hs, l)
  | Rd h k c => Step (fun f => let '(x, i) := l_read k f (geti h hs) in (f, prunh dev (c x) (seti h i hs) l))
  | Seek h z c =>
      if (z <? 0)%Z then prunh dev (c false) hs l
      else prunh dev (c true) (seti h (mkI (i_path (geti h hs)) (Z.to_nat z) 0 []) hs) l
  | Fwd h n c => let i := geti h hs in prunh dev c (seti h (mkI (i_path i) (i_pos i + n) 0 []) hs) l
  | NewRd h n c => let i := geti h hs in prunh dev c (seti h (mkI (i_path i) (i_pos i) n []) hs) l
  | NewWr o n c => prunh dev c (seto o (mkO (o_path (h_out hs o)) n [] false) hs) l
  | Flush o c => Step (fun f => let '(ok, x, w) := h_flush dev (h_out hs o) (in_world l f) in (w_fs w, prunh dev (c ok) (seto o x hs) (own w)))
  | Wr o d c => Step (fun f => let '(ok, x, w) := h_write dev d (h_out hs o) (in_world l f) in (w_fs w, prunh dev (c ok) (seto o x hs) (own w)))
  end.
Definition prun {X} (dev : device) (p : io X) (hs : handles) (l : loc) : proc (res X * loc) :=
  pjoin (prunh dev p hs l) (fun y => let '(r, _, l) := y in Done (r, l)).
Definition pstage {X} dev (p : io X) (a b : string) (outs : list string) : pcmd X := prun dev p (fresh a b outs).
Definition pstage_at {X} dev (p : io X) (a b : string) (ps : nat -> option string) : pcmd X := prun dev p (fresh_at a b ps).
(* see lhold, lres, ldefer, lflush *)
Definition phold {X} dev (p : io X) (a b : string) (outs : list string) : pcmd (res X * ohandle) := fun l =>
  pjoin (prunh dev p (fresh a b outs) l) (fun y => let '(r, hs, l) := y in Done (Ok (r, h_out hs 0), l)).
Definition pres {X} (r : res X) : pcmd X := fun l => Done (r, l).
Definition pdefer {X} (c : pcmd X) (d : pcmd unit) : pcmd X := fun l =>
  pjoin (c l) (fun rl => let '(r, l1) := rl in pjoin (d l1) (fun el => let '(_, l2) := el in Done (r, l2))).
Definition pflush dev (p : string) (x : ohandle) : pcmd unit := atomic (lflush dev p x).

Declare Scope pcmd_scope.
Notation "x <- p ;; q" := (pbind p (fun x => q)) (at level 61, p at next level, right associativity) : pcmd_scope.
Notation "p ;;; q" := (pbind p (fun _ => q)) (at level 61, right associativity) : pcmd_scope.
Local Open Scope pcmd_scope.

(* ---- the commands of LiveCmd.v and Cli.v in the same words ---- *)
Definition popen (p : string) : pcmd unit := atomic (lopen p).
Definition pcreate (dev : device) (p : string) : pcmd unit := atomic (lcreate dev p).
Section Cmd.
Context {E : Ext2}.
Variables (dev : device) (bs : nat) (v : inv E).
(* phase1.go:17-83, 151-273, phase2.go:58-163 *)
Definition p_one {X} (p : io X) (ip op : string) : pcmd X := popen ip ;;; pcreate dev op ;;; pstage dev p ip ip [op].
(* phase1.go:85-149 *)
Definition p_initialize (power : byte) (op : string) : pcmd unit :=
  pcreate dev op ;;; pstage dev (initialize (E := E) power) EmptyString EmptyString [op].
(* utils.go:44-52, 161-169, 286-294; the file is read in one step *)
Definition p_read_r1cs (p : string) : pcmd (r1cs E) :=
  popen p ;;; atomic (fun w => match parse_r1cs (contents (w_fs w) p) with Some cs => (Ok cs, w) | None => (Err ER1cs, w) end).
(* utils.go:84-123 *)
Definition p_lagrange (p1 p2 : string) (pw : byte) (h : hdr) : pcmd unit :=
  match new_domain (E := E) (h_domain h) with
  | None => pboom
  | Some k => pcreate dev lag_path ;;; pstage dev (process_lagrange (E := E) pw k) p1 p1 [p2; lag_path]
  end.
(* phase2.go:28-52, parted.go:36-60 *)
Definition p_init_steps (circuit : pcmd (r1cs E)) (cons : r1cs E -> option (list r1c)) (nb : r1cs E -> Z)
  (p1 p2 : string) : pcmd unit :=
  let outs := outs_at [Some p2; None; Some evals_path] in
  cs <- circuit ;;
  x <- pstage dev (process_header cs (nb cs)) p1 p1 [p2] ;;
  let '(pw, h) := x in
  p_lagrange p1 p2 pw h ;;;
  popen lag_path ;;; pcreate dev evals_path ;;;
  pstage_at dev (process_eval_head (E := E) pw) p1 lag_path outs ;;;
  cs <- circuit ;;
  pstage_at dev (process_eval_body cs (cons cs) h) p1 lag_path outs ;;;
  pstage_at dev (process_delta_z (E := E) h) p1 lag_path outs ;;;
  popen lag_path ;;;
  cs <- circuit ;;
  pstage_at dev (process_pvckk cs (cons cs) h) p1 lag_path outs.
(* phase2.go:15-56 *)
Definition p_p2n (p1 r1 p2 : string) : pcmd unit :=
  popen p1 ;;; pcreate dev p2 ;;;
  p_init_steps (p_read_r1cs r1) (fun cs => Some (r_cons cs)) (fun cs => Z.of_nat (length (r_cons cs))) p1 p2.
(* parted.go:17-64 *)
Definition p_p2np (cs : r1cs E) (p1 p2 : string) (nbCons : Z) : pcmd unit :=
  popen p1 ;;; pcreate dev p2 ;;;
  p_init_steps (pret cs) (fun cs => parted_cons cs nbCons) (fun _ => nbCons) p1 p2.
(* keys.go:92-95 and the same text in the other extractions *)
Definition p_header (p : string) : pcmd hdr := pstage dev (NewRd false defBuf (read_hdr2 (E := E) false)) p p [].
(* keys.go:73-238 *)
Definition p_pk (p : string) : pcmd unit :=
  popen p ;;; popen evals_path ;;;
  p_header p ;;; pcreate dev pk_path ;;;
  pstage dev (extract_pk (E := E)) p evals_path [pk_path].
(* keys.go:464-552 *)
Definition p_vk (wr : Z -> Z) (g sigma : E) (p : string) : pcmd unit :=
  popen p ;;; popen evals_path ;;;
  p_header p ;;; pcreate dev vk_path ;;;
  pstage dev (extract_vk wr g sigma) p evals_path [vk_path] ;;; pret tt.
(* keys.go:240-462 *)
Definition p_split_pk (p session : string) : pcmd unit :=
  let names := split_names session in
  popen p ;;; popen evals_path ;;;
  p_header p ;;;
  fold_left (fun c n => c ;;; pcreate dev n) names (pret tt) ;;;
  pstage dev (extract_split_pk (E := E)) p evals_path names.
(* keys.go:554-656 *)
Definition p_split_vk (wr : Z -> Z) (g sigma : E) (p session : string) : pcmd unit :=
  let vk := vks_path session in
  let ckp := ckey_path session in
  popen p ;;; popen evals_path ;;;
  p_header p ;;; pcreate dev vk ;;;
  y <- phold dev (extract_vk_open wr g sigma) p evals_path [vk] ;;
  pdefer (ck <- pres (fst y) ;;
    pcreate dev ckp ;;;
    pstage dev (bind (write_ 0 ck) (fun _ => write 0 ck)) EmptyString EmptyString [ckp])
  (pflush dev vk (snd y)).
(* keys.go:658-669 *)
Definition p_keys (wr : Z -> Z) (g sigma : E) (p : string) : pcmd unit := p_pk p ;;; p_vk wr g sigma p.
(* keys.go:671-682 *)
Definition p_split_keys (wr : Z -> Z) (g sigma : E) (p session : string) : pcmd unit :=
  p_split_pk p session ;;; p_split_vk wr g sigma p session.
(* phase1.go:275-373; contribution.go:112-133: see l_verify; whether the second file is there is looked up in a step of
   its own, before anything is read *)
Definition p_verify (ip tp : string) : pcmd (list bytes) :=
  popen ip ;;;
  trans <- atomic (fun w => (Ok (match tp with
      | EmptyString => None
      | _ => Some (match w_fs w tp with Some _ => true | None => false end)
      end), w)) ;;
  pstage dev (verify bs (v_rho v) trans) ip (match tp with EmptyString => ip | _ => tp end) [].
(* phase2.go:165-259 *)
Definition p_verify2 (ip op : string) : pcmd (list bytes) :=
  popen ip ;;; popen op ;;; pstage dev (verify2 bs (v_rho v)) ip op [].
(* keys.go:684-704; a failure is a panic *)
Definition p_sol (session : string) : pcmd unit :=
  text <- atomic (fun w => (match match w_fs w (vks_path session) with Some b => v_sol v b | None => None end with
      | None => Panic
      | Some text => Ok text
      end, w)) ;;
  fun l => pjoin ((pcreate dev (sol_path session) ;;; pstage dev (write 0 text) EmptyString EmptyString [sol_path session]) l)
    (fun rl => let '(r, l) := rl in match r with Ok x => Done (Ok x, l) | _ => Done (Panic, l) end).

Definition pquiet (c : pcmd unit) : pcmd (list bytes) := c ;;; pret [].
Definition pusage : pcmd (list bytes) := pfail EArgs.
Definition pint (s : string) (k : Z -> pcmd (list bytes)) : pcmd (list bytes) :=
  match atoi s with Some z => k z | None => pfail EAtoi end.
(* actions.go, main.go:15-99 *)
Definition ptable : list (string * (list string -> pcmd (list bytes))) :=
  [("p1n", fun args => match args with
      | [s; op] => pint s (fun p => if (p >? 26)%Z then pfail EPower26 else pquiet (p_initialize (to_byte p) op))
      | _ => pusage end);
   ("p1c", fun args => match args with [ip; op] => h <- p_one (contribute bs (v_w v)) ip op ;; pret [h] | _ => pusage end);
   ("p1v", fun args => match args with [ip] => p_verify ip EmptyString | _ => pusage end);
   ("p1t", fun args => match args with
      | [ip; op; s; t] => pint s (fun i => pint t (fun o =>
          if (i <? o)%Z then pfail EHigherPower else pquiet (p_one (transform (E := E) (to_byte i) (to_byte o)) ip op)))
      | _ => pusage end);
   ("p1vt", fun args => match args with [ip; tp] => p_verify ip tp | _ => pusage end);
   ("p2n", fun args => match args with [p1; r1; p2] => pquiet (p_p2n p1 r1 p2) | _ => pusage end);
   ("p2np", fun args => match args with
      | [p1; r1; p2; s; t; u] => pint s (fun nbCons => pint t (fun nbR1C => pint u (fun batch =>
          pquiet (p_p2np (v_parts v r1 nbR1C batch) p1 p2 nbCons))))
      | _ => pusage end);
   ("p2c", fun args => match args with [ip; op] => h <- p_one (contribute2 bs (v_d v) (v_s v)) ip op ;; pret [h] | _ => pusage end);
   ("p2v", fun args => match args with [ip; op] => p_verify2 ip op | _ => pusage end);
   ("key", fun args => match args with [p] => pquiet (p_keys wrap64 (v_g v) (v_sg v) p) | _ => pusage end);
   ("keys", fun args => match args with [p; s] => pquiet (p_split_keys wrap64 (v_g v) (v_sg v) p s) | _ => pusage end);
   ("sol", fun args => match args with [s] => pquiet (p_sol s) | _ => pusage end)]%string.
Definition ptool (name : string) (args : list string) : pcmd (list bytes) :=
  match find (fun x => String.eqb (fst x) name) ptable with
  | Some (_, a) => a args
  | None => pusage
  end.
End Cmd.

(* ---- several processes in one directory ---- *)
Definition step1 {A} (p : proc A) (f : fs) : fs * proc A := match p with Done _ => (f, p) | Step k => k f end.
Fixpoint upd {A} (i : nat) (x : A) (l : list A) : list A :=
  match l, i with
  | [], _ => []
  | _ :: l', 0 => x :: l'
  | y :: l', S i' => y :: upd i' x l'
  end.
(* the schedule says whose step is next *)
Fixpoint together {A} (sch : list nat) (ps : list (proc A)) (f : fs) : list (proc A) * fs :=
  match sch with
  | [] => (ps, f)
  | i :: sch' =>
    match nth_error ps i with
    | None => together sch' ps f
    | Some p => let '(f', p') := step1 p f in together sch' (upd i p' ps) f'
    end
  end.
(* a process that starts with the line x *)
Definition launch {E : Ext2} (dev : device) (bs : nat) (x : line E) : proc (res (list bytes) * loc) :=
  ptool dev bs (l_inv x) (l_name x) (l_args x) (mkL 0 0 []).
