(* Live.v -- the same programs one level lower: every read sees what the file holds at that moment,
   bufio.Writer keeps bytes back, and the device may refuse bytes.  [run] (IO.v) and [stage] (Fs.v)
   are what this amounts to when nothing fails, no output is also an input and every buffer gets
   flushed (LiveLemmas.v).  A crash here is the end of the process, not a power failure: bytes handed
   to the kernel are kept. *)
From Coq Require String.
From Verif Require Import Base IO Fs.

(* how many of n bytes the device takes, given the bytes it took so far and the number of write calls; whether a
   file can be created, given the number of operations done so far *)
Record device := mkDev { takes : nat -> nat -> nat -> nat; can_create : nat -> string -> bool }.
Coercion takes : device >-> Funclass.
Definition no_limit : device := mkDev (fun _ _ n => n) (fun _ _ => true).
(* C bytes of free space *)
Definition disk (C : nat) : device := mkDev (fun used _ _ => C - used) (fun _ _ => true).

(* what happened to the file system, in order *)
Inductive osop := OTrunc (p : string) | OApp (p : string) (d : bytes).
Definition op_do (f : fs) (o : osop) : fs :=
  match o with OTrunc p => fset f p [] | OApp p d => fset f p (contents f p ++ d) end.
Definition replay (l : list osop) (f : fs) : fs := fold_left op_do l f.

Record world := mkW { w_fs : fs; w_used : nat; w_calls : nat; w_ops : list osop }.
Definition start (f : fs) : world := mkW f 0 0 [].

(* an open input: OS offset, size of the bufio.Reader on top (0: none), what it holds *)
Record ihandle := mkI { i_path : string; i_pos : nat; i_cap : nat; i_buf : bytes }.
(* an open output: size of the bufio.Writer on top (0: none), what it holds, its sticky error *)
Record ohandle := mkO { o_path : option string; o_cap : nat; o_buf : bytes; o_bad : bool }.
Record handles := mkH { h_a : ihandle; h_b : ihandle; h_out : nat -> ohandle }.
Definition geti (h : bool) (hs : handles) : ihandle := if h then h_b hs else h_a hs.
Definition seti (h : bool) (i : ihandle) (hs : handles) : handles :=
  if h then mkH (h_a hs) i (h_out hs) else mkH i (h_b hs) (h_out hs).
Definition seto (o : nat) (x : ohandle) (hs : handles) : handles :=
  mkH (h_a hs) (h_b hs) (fun o' => if o =? o' then x else h_out hs o').

(* os.File.Read, bufio.Reader.Read: see rd_read in IO.v *)
Definition l_read (k : nat) (f : fs) (i : ihandle) : option bytes * ihandle :=
  let rest := skipn (i_pos i) (contents f (i_path i)) in
  let direct :=
    (Some (firstn k rest), mkI (i_path i) (i_pos i + length (firstn k rest)) (i_cap i) []) in
  match i_cap i, i_buf i with
  | 0, _ => match rest with [] => (None, i) | _ => direct end
  | _, [] =>
    match rest with
    | [] => (None, i)
    | _ =>
      if i_cap i <=? k then direct
      else let chunk := firstn (i_cap i) rest in
           (Some (firstn k chunk), mkI (i_path i) (i_pos i + length chunk) (i_cap i) (skipn k chunk))
    end
  | _, buf => (Some (firstn k buf), mkI (i_path i) (i_pos i) (i_cap i) (skipn k buf))
  end.

Section Device.
Variable dev : device.

(* os.File.Write: an error unless all bytes were taken.  All outputs are opened for writing from the
   start or for appending, and have one handle, so that the bytes go to the end of the file. *)
Definition os_write (p : option string) (d : bytes) (w : world) : bool * nat * world :=
  match p with
  | None => (true, length d, w)
  | Some p =>
    let n := Nat.min (length d) (dev (w_used w) (w_calls w) (length d)) in
    (n =? length d, n,
     mkW (fset (w_fs w) p (contents (w_fs w) p ++ firstn n d)) (w_used w + n) (S (w_calls w))
       (w_ops w ++ [OApp p (firstn n d)]))
  end.

(* bufio.Writer.Flush; after an error the writer refuses everything *)
Definition bw_flush (x : ohandle) (w : world) : bool * ohandle * world :=
  if o_bad x then (false, x, w)
  else match o_buf x with
  | [] => (true, x, w)
  | buf =>
    let '(ok, n, w) := os_write (o_path x) buf w in
    (ok, mkO (o_path x) (o_cap x) (if ok then [] else skipn n buf) (negb ok), w)
  end.

(* bufio.Writer.Write on an empty buffer, for the bytes that do not fit *)
Definition bw_direct (d : bytes) (x : ohandle) (w : world) : bool * ohandle * world :=
  let '(ok, _, w) := os_write (o_path x) d w in
  (ok, mkO (o_path x) (o_cap x) [] (negb ok), w).
(* bufio.Writer.Write: the loop runs at most twice, once to fill up the buffer and flush it, once to
   write what is left directly if the buffer cannot take it *)
Definition bw_write (d : bytes) (x : ohandle) (w : world) : bool * ohandle * world :=
  if o_bad x then (false, x, w)
  else
    let room := o_cap x - length (o_buf x) in
    if length d <=? room then (true, mkO (o_path x) (o_cap x) (o_buf x ++ d) false, w)
    else match o_buf x with
    | [] => bw_direct d x w
    | buf =>
      let '(ok, x, w) := bw_flush (mkO (o_path x) (o_cap x) (buf ++ firstn room d) false) w in
      if ok : bool then
        let d := skipn room d in
        if length d <=? o_cap x then (true, mkO (o_path x) (o_cap x) d false, w)
        else bw_direct d x w
      else (false, x, w)
    end.

(* Write and Flush on an output as it stands *)
Definition h_write (d : bytes) (x : ohandle) (w : world) : bool * ohandle * world :=
  match o_cap x with
  | 0 => let '(ok, _, w) := os_write (o_path x) d w in (ok, x, w)
  | _ => bw_write d x w
  end.
Definition h_flush (x : ohandle) (w : world) : bool * ohandle * world :=
  match o_cap x with 0 => (true, x, w) | _ => bw_flush x w end.

Fixpoint lrun {X} (p : io X) (hs : handles) (w : world) : res X * handles * world :=
  match p with
  | Ret a => (Ok a, hs, w)
  | Throw e => (Err e, hs, w)
  | Boom => (Panic, hs, w)
  | Rd h k c => let '(x, i) := l_read k (w_fs w) (geti h hs) in lrun (c x) (seti h i hs) w
  | Seek h z c =>
      if (z <? 0)%Z then lrun (c false) hs w
      else lrun (c true) (seti h (mkI (i_path (geti h hs)) (Z.to_nat z) 0 []) hs) w
  | Fwd h n c => let i := geti h hs in lrun c (seti h (mkI (i_path i) (i_pos i + n) 0 []) hs) w
  | NewRd h n c => let i := geti h hs in lrun c (seti h (mkI (i_path i) (i_pos i) n []) hs) w
  | NewWr o n c => lrun c (seto o (mkO (o_path (h_out hs o)) n [] false) hs) w
  | Flush o c => let '(ok, x, w) := h_flush (h_out hs o) w in lrun (c ok) (seto o x hs) w
  | Wr o d c => let '(ok, x, w) := h_write d (h_out hs o) w in lrun (c ok) (seto o x hs) w
  end.
End Device.

(* ---- commands ---- *)
Definition lcmd (X : Type) := world -> res X * world.
Definition lfail {X} (e : err) : lcmd X := fun w => (Err e, w).
Definition lbind {X Y} (c : lcmd X) (k : X -> lcmd Y) : lcmd Y := fun w =>
  let '(r, w1) := c w in
  match r with Ok x => k x w1 | Err e => (Err e, w1) | Panic => (Panic, w1) end.
(* os.Open *)
Definition lopen (p : string) : lcmd unit := fun w =>
  (match w_fs w p with Some _ => Ok tt | None => Err ENoFile end, w).
(* os.Create; if it fails the file is left as it was *)
Definition lcreate (dev : device) (p : string) : lcmd unit := fun w =>
  if can_create dev (length (w_ops w)) p
  then (Ok tt, mkW (fset (w_fs w) p []) (w_used w) (w_calls w) (w_ops w ++ [OTrunc p]))
  else (Err ECreate, w).
(* fresh handles on inputs a, b and the outputs, which exist *)
Definition fresh (a b : string) (outs : list string) : handles :=
  mkH (mkI a 0 0 []) (mkI b 0 0 []) (fun o => mkO (nth_error outs o) 0 [] false).
Definition lstage {X} (dev : device) (p : io X) (a b : string) (outs : list string) : lcmd X := fun w =>
  let '(r, _, w) := lrun dev p (fresh a b outs) w in (r, w).

(* the same with outputs that are not opened *)
Definition fresh_at (a b : string) (ps : nat -> option string) : handles :=
  mkH (mkI a 0 0 []) (mkI b 0 0 []) (fun o => mkO (ps o) 0 [] false).
Definition lstage_at {X} (dev : device) (p : io X) (a b : string) (ps : nat -> option string) : lcmd X := fun w =>
  let '(r, _, w) := lrun dev p (fresh_at a b ps) w in (r, w).

(* ---- an output that stays open ---- *)
(* runs p; its result and the writer of output 0 as it stands *)
Definition lhold {X} (dev : device) (p : io X) (a b : string) (outs : list string) : lcmd (res X * ohandle) := fun w =>
  let '(r, hs, w) := lrun dev p (fresh a b outs) w in (Ok (r, h_out hs 0), w).
(* goes on with the result of lhold *)
Definition lres {X} (r : res X) : lcmd X := fun w => (r, w).
(* defer d: after c, whatever c returned *)
Definition ldefer {X} (c : lcmd X) (d : lcmd unit) : lcmd X := fun w => let '(r, w1) := c w in (r, snd (d w1)).
(* Flush of the writer x on the file p, the error dropped *)
Definition lflush (dev : device) (p : string) (x : ohandle) : lcmd unit := fun w =>
  (Ok tt, snd (h_flush dev (mkO (Some p) (o_cap x) (o_buf x) (o_bad x)) w)).

Declare Scope lcmd_scope.
Delimit Scope lcmd_scope with lcmd.
Notation "x <- p ;; q" := (lbind p (fun x => q)) (at level 61, p at next level, right associativity) : lcmd_scope.
Notation "p ;;; q" := (lbind p (fun _ => q)) (at level 61, right associativity) : lcmd_scope.

(* The process dies: everything before some point has happened, the last write possibly in part. *)
Definition died (l l' : list osop) : Prop :=
  (exists l2, l = l' ++ l2) \/
  (exists l1 p d t l2, l = l1 ++ OApp p d :: l2 /\ l' = l1 ++ [OApp p (firstn t d)]).
