(* Off.v -- one level below Proc.v: every open output has an offset of its own, at which its next bytes go (O_APPEND: the
   end of the file), and writing there replaces what the file holds, or leaves a gap of zeros behind the end of the
   file.  So two outputs, of one process or of several, may be the same file.  Live.v and Proc.v, which put all bytes at
   the end of the file, are what this amounts to when they are not (OffLemmas.v). *)
From Coq Require Import String.
From Verif Require Import Base Fld Conc Parallel IO Ext Spec1 Phase1 Gob Circuit Spec2 Phase2 Fs Init2 Keys Live LiveCmd Cli Session Proc.

(* pwrite: the file c after d was written at n; nothing happens for no bytes *)
Definition put (c : bytes) (n : nat) (d : bytes) : bytes :=
  match d with
  | [] => c
  | _ => firstn n c ++ repeat x00 (n - length c) ++ d ++ skipn (n + length d) c
  end.
(* an open output: see ohandle; its offset, None if it was opened with O_APPEND *)
Record fhandle := mkF { f_path : option string; f_at : option nat; f_cap : nat; f_buf : bytes; f_bad : bool }.
Record fhandles := mkFH { fh_a : ihandle; fh_b : ihandle; fh_out : nat -> fhandle }.
Definition getj (h : bool) (hs : fhandles) : ihandle := if h then fh_b hs else fh_a hs.
Definition setj (h : bool) (i : ihandle) (hs : fhandles) : fhandles :=
  if h then mkFH (fh_a hs) i (fh_out hs) else mkFH i (fh_b hs) (fh_out hs).
Definition setf (o : nat) (x : fhandle) (hs : fhandles) : fhandles :=
  mkFH (fh_a hs) (fh_b hs) (fun o' => if o =? o' then x else fh_out hs o').

Section Device.
Variable dev : device.
(* os.File.Write; the log keeps the bytes only, and only its length is looked at *)
Definition f_os (x : fhandle) (d : bytes) (w : world) : bool * nat * fhandle * world :=
  match f_path x with
  | None => (true, length d, x, w)
  | Some p =>
    let n := Nat.min (length d) (dev (w_used w) (w_calls w) (length d)) in
    let c := contents (w_fs w) p in
    (n =? length d, n, mkF (f_path x) (option_map (Nat.add n) (f_at x)) (f_cap x) (f_buf x) (f_bad x),
     mkW (fset (w_fs w) p (match f_at x with None => c ++ firstn n d | Some a => put c a (firstn n d) end))
       (w_used w + n) (S (w_calls w)) (w_ops w ++ [OApp p (firstn n d)]))
  end.
(* bufio.Writer on it: see bw_flush, bw_direct, bw_write, h_write, h_flush *)
Definition f_flush (x : fhandle) (w : world) : bool * fhandle * world :=
  if f_bad x then (false, x, w)
  else match f_buf x with
  | [] => (true, x, w)
  | buf =>
    let '(ok, n, x, w) := f_os x buf w in
    (ok, mkF (f_path x) (f_at x) (f_cap x) (if ok then [] else skipn n buf) (negb ok), w)
  end.
Definition f_direct (d : bytes) (x : fhandle) (w : world) : bool * fhandle * world :=
  let '(ok, _, x, w) := f_os x d w in
  (ok, mkF (f_path x) (f_at x) (f_cap x) [] (negb ok), w).
Definition f_write (d : bytes) (x : fhandle) (w : world) : bool * fhandle * world :=
  if f_bad x then (false, x, w)
  else
    let room := f_cap x - length (f_buf x) in
    if length d <=? room then (true, mkF (f_path x) (f_at x) (f_cap x) (f_buf x ++ d) false, w)
    else match f_buf x with
    | [] => f_direct d x w
    | buf =>
      let '(ok, x, w) := f_flush (mkF (f_path x) (f_at x) (f_cap x) (buf ++ firstn room d) false) w in
      if ok : bool then
        let d := skipn room d in
        if length d <=? f_cap x then (true, mkF (f_path x) (f_at x) (f_cap x) d false, w)
        else f_direct d x w
      else (false, x, w)
    end.
Definition fh_write (d : bytes) (x : fhandle) (w : world) : bool * fhandle * world :=
  match f_cap x with
  | 0 => let '(ok, _, x, w) := f_os x d w in (ok, x, w)
  | _ => f_write d x w
  end.
Definition fh_flush (x : fhandle) (w : world) : bool * fhandle * world :=
  match f_cap x with 0 => (true, x, w) | _ => f_flush x w end.

(* see prunh *)
Fixpoint frunh {X} (p : io X) (hs : fhandles) (l : loc) : proc ((res X * fhandles) * loc) :=
  match p with
  | Ret a => Done (Ok a, hs, l)
  | Throw e => Done (Err e, hs, l)
  | Boom => Done (Panic, hs, l)
  | Rd h k c => Step (fun f => let '(x, i) := l_read k f (getj h hs) in (f, frunh (c x) (setj h i hs) l))
  | Seek h z c =>
      if (z <? 0)%Z then frunh (c false) hs l
      else frunh (c true) (setj h (mkI (i_path (getj h hs)) (Z.to_nat z) 0 []) hs) l
  | Fwd h n c => let i := getj h hs in frunh c (setj h (mkI (i_path i) (i_pos i + n) 0 []) hs) l
  | NewRd h n c => let i := getj h hs in frunh c (setj h (mkI (i_path i) (i_pos i) n []) hs) l
  | NewWr o n c => let x := fh_out hs o in frunh c (setf o (mkF (f_path x) (f_at x) n [] false) hs) l
  | Flush o c => Step (fun f => let '(ok, x, w) := fh_flush (fh_out hs o) (in_world l f) in (w_fs w, frunh (c ok) (setf o x hs) (own w)))
  | Wr o d c => Step (fun f => let '(ok, x, w) := fh_write d (fh_out hs o) (in_world l f) in (w_fs w, frunh (c ok) (setf o x hs) (own w)))
  end.
End Device.

(* A process keeps the offsets of its open outputs by their numbers. *)
Definition fcmd (X : Type) := loc * (nat -> nat) -> proc (res X * (loc * (nat -> nat))).
Definition fbind {X Y} (c : fcmd X) (k : X -> fcmd Y) : fcmd Y := fun l =>
  pjoin (c l) (fun rl => let '(r, l1) := rl in
    match r with Ok x => k x l1 | Err e => Done (Err e, l1) | Panic => Done (Panic, l1) end).
Definition fret {X} (x : X) : fcmd X := fun l => Done (Ok x, l).
Definition ffail {X} (e : err) : fcmd X := fun l => Done (Err e, l).
Definition fboom {X} : fcmd X := fun l => Done (Panic, l).
Definition fres {X} (r : res X) : fcmd X := fun l => Done (r, l).
(* a step that opens nothing for writing *)
Definition fatomic {X} (c : lcmd X) : fcmd X := fun l =>
  Step (fun f => let '(r, w) := c (in_world (fst l) f) in (w_fs w, Done (r, (own w, snd l)))).
Definition fopen (p : string) : fcmd unit := fatomic (lopen p).
(* os.Create of output o: its offset is 0; whoever has the file open keeps their offsets *)
Definition fcreate (dev : device) (o : nat) (p : string) : fcmd unit := fun l =>
  Step (fun f => let '(r, w) := lcreate dev p (in_world (fst l) f) in
    (w_fs w, Done (r, (own w, fun o' => if o =? o' then 0 else snd l o')))).
(* the outputs ps; those of app are opened with O_APPEND, the others have been open before *)
Definition opened (a b : string) (ps : nat -> option string) (app : nat -> bool) (offs : nat -> nat) : fhandles :=
  mkFH (mkI a 0 0 []) (mkI b 0 0 []) (fun o => mkF (ps o) (if app o then None else Some (offs o)) 0 [] false).
Definition offsets (hs : fhandles) (offs : nat -> nat) : nat -> nat := fun o =>
  match f_at (fh_out hs o) with Some n => n | None => offs o end.
Definition fstage_at {X} dev (p : io X) (a b : string) (ps : nat -> option string) (app : nat -> bool) : fcmd X := fun l =>
  pjoin (frunh dev p (opened a b ps app (snd l)) (fst l)) (fun y => let '(r, hs, l1) := y in Done (r, (l1, offsets hs (snd l)))).
Definition fstage {X} dev (p : io X) (a b : string) (outs : list string) : fcmd X :=
  fstage_at dev p a b (nth_error outs) (fun _ => false).
(* see phold, pdefer, pflush *)
Definition fhold {X} dev (p : io X) (a b : string) (outs : list string) : fcmd (res X * fhandle) := fun l =>
  pjoin (frunh dev p (opened a b (nth_error outs) (fun _ => false) (snd l)) (fst l))
    (fun y => let '(r, hs, l1) := y in Done (Ok (r, fh_out hs 0), (l1, offsets hs (snd l)))).
Definition fdefer {X} (c : fcmd X) (d : fcmd unit) : fcmd X := fun l =>
  pjoin (c l) (fun rl => let '(r, l1) := rl in pjoin (d l1) (fun el => let '(_, l2) := el in Done (r, l2))).
Definition fflush dev (x : fhandle) : fcmd unit := fun l =>
  Step (fun f => let '(_, _, w) := fh_flush dev x (in_world (fst l) f) in (w_fs w, Done (Ok tt, (own w, snd l)))).

Declare Scope fcmd_scope.
Notation "x <- p ;; q" := (fbind p (fun x => q)) (at level 61, p at next level, right associativity) : fcmd_scope.
Notation "p ;;; q" := (fbind p (fun _ => q)) (at level 61, right associativity) : fcmd_scope.
Local Open Scope fcmd_scope.

(* ---- the commands of Proc.v in the same words ---- *)
Section Cmd.
Context {E : Ext2}.
Variables (dev : device) (bs : nat) (v : inv E).
(* phase1.go:17-83, 151-273, phase2.go:58-163 *)
Definition f_one {X} (p : io X) (ip op : string) : fcmd X := fopen ip ;;; fcreate dev 0 op ;;; fstage dev p ip ip [op].
(* phase1.go:85-149 *)
Definition f_initialize (power : byte) (op : string) : fcmd unit :=
  fcreate dev 0 op ;;; fstage dev (initialize (E := E) power) EmptyString EmptyString [op].
(* utils.go:44-52, 161-169, 286-294 *)
Definition f_read_r1cs (p : string) : fcmd (r1cs E) :=
  fopen p ;;; fatomic (fun w => match parse_r1cs (contents (w_fs w) p) with Some cs => (Ok cs, w) | None => (Err ER1cs, w) end).
(* utils.go:84-123 *)
Definition f_lagrange (p1 p2 : string) (pw : byte) (h : hdr) : fcmd unit :=
  match new_domain (E := E) (h_domain h) with
  | None => fboom
  | Some k => fcreate dev 1 lag_path ;;; fstage dev (process_lagrange (E := E) pw k) p1 p1 [p2; lag_path]
  end.
(* phase2.go:28-52, parted.go:36-60; output 2 is evals, created at utils.go:134 and opened again with O_APPEND at
   utils.go:349 *)
Definition f_init_steps (circuit : fcmd (r1cs E)) (cons : r1cs E -> option (list r1c)) (nb : r1cs E -> Z)
  (p1 p2 : string) : fcmd unit :=
  let outs := outs_at [Some p2; None; Some evals_path] in
  cs <- circuit ;;
  x <- fstage dev (process_header cs (nb cs)) p1 p1 [p2] ;;
  let '(pw, h) := x in
  f_lagrange p1 p2 pw h ;;;
  fopen lag_path ;;; fcreate dev 2 evals_path ;;;
  fstage_at dev (process_eval_head (E := E) pw) p1 lag_path outs (fun _ => false) ;;;
  cs <- circuit ;;
  fstage_at dev (process_eval_body cs (cons cs) h) p1 lag_path outs (fun _ => false) ;;;
  fstage_at dev (process_delta_z (E := E) h) p1 lag_path outs (fun _ => false) ;;;
  fopen lag_path ;;;
  cs <- circuit ;;
  fstage_at dev (process_pvckk cs (cons cs) h) p1 lag_path outs (fun o => o =? 2).
(* phase2.go:15-56 *)
Definition f_p2n (p1 r1 p2 : string) : fcmd unit :=
  fopen p1 ;;; fcreate dev 0 p2 ;;;
  f_init_steps (f_read_r1cs r1) (fun cs => Some (r_cons cs)) (fun cs => Z.of_nat (length (r_cons cs))) p1 p2.
(* parted.go:17-64 *)
Definition f_p2np (cs : r1cs E) (p1 p2 : string) (nbCons : Z) : fcmd unit :=
  fopen p1 ;;; fcreate dev 0 p2 ;;;
  f_init_steps (fret cs) (fun cs => parted_cons cs nbCons) (fun _ => nbCons) p1 p2.
(* keys.go:92-95 and the same text in the other extractions *)
Definition f_header (p : string) : fcmd hdr := fstage dev (NewRd false defBuf (read_hdr2 (E := E) false)) p p [].
(* keys.go:73-238 *)
Definition f_pk (p : string) : fcmd unit :=
  fopen p ;;; fopen evals_path ;;;
  f_header p ;;; fcreate dev 0 pk_path ;;;
  fstage dev (extract_pk (E := E)) p evals_path [pk_path].
(* keys.go:464-552 *)
Definition f_vk (wr : Z -> Z) (g sigma : E) (p : string) : fcmd unit :=
  fopen p ;;; fopen evals_path ;;;
  f_header p ;;; fcreate dev 0 vk_path ;;;
  fstage dev (extract_vk wr g sigma) p evals_path [vk_path] ;;; fret tt.
(* keys.go:240-462; the files are created in this order *)
Definition fcreates (names : list string) : fcmd unit :=
  fold_left (fun c x => c ;;; fcreate dev (fst x) (snd x)) (combine (seq 0 (length names)) names) (fret tt).
Definition f_split_pk (p session : string) : fcmd unit :=
  let names := split_names session in
  fopen p ;;; fopen evals_path ;;;
  f_header p ;;;
  fcreates names ;;;
  fstage dev (extract_split_pk (E := E)) p evals_path names.
(* keys.go:554-656; the first file stays open while the second is created and written *)
Definition f_split_vk (wr : Z -> Z) (g sigma : E) (p session : string) : fcmd unit :=
  let vk := vks_path session in
  let ckp := ckey_path session in
  fopen p ;;; fopen evals_path ;;;
  f_header p ;;; fcreate dev 0 vk ;;;
  y <- fhold dev (extract_vk_open wr g sigma) p evals_path [vk] ;;
  fdefer (ck <- fres (fst y) ;;
    fcreate dev 0 ckp ;;;
    fstage dev (bind (write_ 0 ck) (fun _ => write 0 ck)) EmptyString EmptyString [ckp])
  (fflush dev (snd y)).
(* keys.go:658-669 *)
Definition f_keys (wr : Z -> Z) (g sigma : E) (p : string) : fcmd unit := f_pk p ;;; f_vk wr g sigma p.
(* keys.go:671-682 *)
Definition f_split_keys (wr : Z -> Z) (g sigma : E) (p session : string) : fcmd unit :=
  f_split_pk p session ;;; f_split_vk wr g sigma p session.
(* phase1.go:275-373; contribution.go:112-133: see p_verify *)
Definition f_verify (ip tp : string) : fcmd (list bytes) :=
  fopen ip ;;;
  trans <- fatomic (fun w => (Ok (match tp with
      | EmptyString => None
      | _ => Some (match w_fs w tp with Some _ => true | None => false end)
      end), w)) ;;
  fstage dev (verify bs (v_rho v) trans) ip (match tp with EmptyString => ip | _ => tp end) [].
(* phase2.go:165-259 *)
Definition f_verify2 (ip op : string) : fcmd (list bytes) :=
  fopen ip ;;; fopen op ;;; fstage dev (verify2 bs (v_rho v)) ip op [].
(* keys.go:684-704; a failure is a panic *)
Definition f_sol (session : string) : fcmd unit :=
  text <- fatomic (fun w => (match match w_fs w (vks_path session) with Some b => v_sol v b | None => None end with
      | None => Panic
      | Some text => Ok text
      end, w)) ;;
  fun l => pjoin ((fcreate dev 0 (sol_path session) ;;; fstage dev (write 0 text) EmptyString EmptyString [sol_path session]) l)
    (fun rl => let '(r, l) := rl in match r with Ok x => Done (Ok x, l) | _ => Done (Panic, l) end).

Definition fquiet (c : fcmd unit) : fcmd (list bytes) := c ;;; fret [].
Definition fusage : fcmd (list bytes) := ffail EArgs.
Definition fint (s : string) (k : Z -> fcmd (list bytes)) : fcmd (list bytes) :=
  match atoi s with Some z => k z | None => ffail EAtoi end.
(* actions.go, main.go:15-99 *)
Definition ftable : list (string * (list string -> fcmd (list bytes))) :=
  [("p1n", fun args => match args with
      | [s; op] => fint s (fun p => if (p >? 26)%Z then ffail EPower26 else fquiet (f_initialize (to_byte p) op))
      | _ => fusage end);
   ("p1c", fun args => match args with [ip; op] => h <- f_one (contribute bs (v_w v)) ip op ;; fret [h] | _ => fusage end);
   ("p1v", fun args => match args with [ip] => f_verify ip EmptyString | _ => fusage end);
   ("p1t", fun args => match args with
      | [ip; op; s; t] => fint s (fun i => fint t (fun o =>
          if (i <? o)%Z then ffail EHigherPower else fquiet (f_one (transform (E := E) (to_byte i) (to_byte o)) ip op)))
      | _ => fusage end);
   ("p1vt", fun args => match args with [ip; tp] => f_verify ip tp | _ => fusage end);
   ("p2n", fun args => match args with [p1; r1; p2] => fquiet (f_p2n p1 r1 p2) | _ => fusage end);
   ("p2np", fun args => match args with
      | [p1; r1; p2; s; t; u] => fint s (fun nbCons => fint t (fun nbR1C => fint u (fun batch =>
          fquiet (f_p2np (v_parts v r1 nbR1C batch) p1 p2 nbCons))))
      | _ => fusage end);
   ("p2c", fun args => match args with [ip; op] => h <- f_one (contribute2 bs (v_d v) (v_s v)) ip op ;; fret [h] | _ => fusage end);
   ("p2v", fun args => match args with [ip; op] => f_verify2 ip op | _ => fusage end);
   ("key", fun args => match args with [p] => fquiet (f_keys wrap64 (v_g v) (v_sg v) p) | _ => fusage end);
   ("keys", fun args => match args with [p; s] => fquiet (f_split_keys wrap64 (v_g v) (v_sg v) p s) | _ => fusage end);
   ("sol", fun args => match args with [s] => fquiet (f_sol s) | _ => fusage end)]%string.
Definition ftool (name : string) (args : list string) : fcmd (list bytes) :=
  match find (fun x => String.eqb (fst x) name) ftable with
  | Some (_, a) => a args
  | None => fusage
  end.
End Cmd.
(* a process that starts with the line x: see launch *)
Definition flaunch {E : Ext2} (dev : device) (bs : nat) (x : line E) : proc (res (list bytes) * (loc * (nat -> nat))) :=
  ftool dev bs (l_inv x) (l_name x) (l_args x) (mkL 0 0 [], fun _ => 0).
