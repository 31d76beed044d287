(* Cli.v -- the command line: main.go, actions.go, and ExportSol. *)
From Coq Require Import String Ascii.
From Verif Require Import Base Fld Conc Parallel IO Ext Spec1 Phase1 Gob Circuit Spec2 Phase2 Fs Init2 Keys Live LiveCmd.
Local Open Scope lcmd_scope.

(* strconv.Atoi (used in actions.go:20,25,42,108,113,118): the digits after the sign *)
Fixpoint atou (s : string) (acc : Z) : option Z :=
  match s with
  | EmptyString => Some acc
  | String c r =>
    let d := (Z.of_N (N_of_ascii c) - 48)%Z in
    if ((0 <=? d) && (d <=? 9))%Z%bool then atou r (acc * 10 + d) else None
  end.
(* strconv.Atoi for 64-bit int: an optional sign, at least one digit, in range *)
Definition atoi (s : string) : option Z :=
  let '(neg, t) := match s with
    | String "-" t => (true, t)
    | String "+" t => (false, t)
    | _ => (false, s)
    end in
  match t with
  | EmptyString => None
  | _ => match atou t 0 with
         | None => None
         | Some n => let z := if neg : bool then (- n)%Z else n in
                     if ((- 2 ^ 63 <=? z) && (z <? 2 ^ 63))%Z%bool then Some z else None
         end
  end.
(* byte(power): the low 8 bits *)
Definition to_byte (z : Z) : byte := b8 (Z.to_N (z mod 256)).

(* one run of the tool: what it draws, what the parted circuit loader and gnark's Solidity export give,
   which are not modelled *)
Record inv (E : Ext2) := mkInv {
  v_w : @rnd1 E;                                 (* phase1.Contribute *)
  v_d : E; v_s : E;                              (* phase2.Contribute *)
  v_rho : nat -> nat -> nat -> E;                (* phase1.Verify, phase2.Verify *)
  v_g : E; v_sg : E;                             (* pedersen.Setup *)
  v_parts : string -> Z -> Z -> r1cs E;          (* LoadFromSplitBinaryConcurrent *)
  v_sol : bytes -> option bytes                  (* verifyingKey.ReadFrom and ExportSolidity *)
}.
Arguments v_w {E}. Arguments v_d {E}. Arguments v_s {E}. Arguments v_rho {E}. Arguments v_g {E}.
Arguments v_sg {E}. Arguments v_parts {E}. Arguments v_sol {E}.

Section Cli.
Context {E : Ext2}.
Variable dev : device.
Variable bs : nat.   (* the constant batchSize *)
Variable v : inv E.

(* phase1.go:275-373; contribution.go:112-133: the empty path stands for no file (the second input, which is
   then not read, is given as the first) *)
Definition l_verify (ip tp : string) : lcmd (list bytes) :=
  lopen ip ;;; fun w =>
    let trans := match tp with
      | EmptyString => None
      | _ => Some (match w_fs w tp with Some _ => true | None => false end)
      end in
    lstage dev (verify bs (v_rho v) trans) ip (match tp with EmptyString => ip | _ => tp end) [] w.
(* phase2.go:165-259 *)
Definition l_verify2 (ip op : string) : lcmd (list bytes) :=
  lopen ip ;;; lopen op ;;; lstage dev (verify2 bs (v_rho v)) ip op [].
(* keys.go:684-704; the text is written in one piece *)
Definition sol_path (session : string) : string := (session ++ ".sol")%string.
Definition l_sol (session : string) : lcmd unit := fun w =>
  match match w_fs w (vks_path session) with Some b => v_sol v b | None => None end with
  | None => (Panic, w)
  | Some text =>
    match (lcreate dev (sol_path session) ;;; lstage dev (write 0 text) EmptyString EmptyString [sol_path session]) w with
    | (Ok x, w) => (Ok x, w)
    | (_, w) => (Panic, w)
    end
  end.

(* The actions of actions.go.  The result stands for the hashes printed. *)
Definition quiet (c : lcmd unit) : lcmd (list bytes) := c ;;; lret [].
Definition usage : lcmd (list bytes) := lfail EArgs.
Definition int_arg (s : string) (k : Z -> lcmd (list bytes)) : lcmd (list bytes) :=
  match atoi s with Some z => k z | None => lfail EAtoi end.
(* actions.go:12-34 *)
Definition a_p1t (args : list string) : lcmd (list bytes) :=
  match args with
  | [ip; op; s; t] => int_arg s (fun i => int_arg t (fun o =>
      if (i <? o)%Z then lfail EHigherPower else quiet (l_transform (E := E) dev (to_byte i) (to_byte o) ip op)))
  | _ => usage
  end.
(* actions.go:36-52 *)
Definition a_p1n (args : list string) : lcmd (list bytes) :=
  match args with
  | [s; op] => int_arg s (fun p =>
      if (p >? 26)%Z then lfail EPower26 else quiet (l_initialize (E := E) dev (to_byte p) op))
  | _ => usage
  end.
(* actions.go:54-63 *)
Definition a_p1c (args : list string) : lcmd (list bytes) :=
  match args with [ip; op] => h <- l_contribute dev bs (v_w v) ip op ;; lret [h] | _ => usage end.
(* actions.go:65-73 *)
Definition a_p1v (args : list string) : lcmd (list bytes) :=
  match args with [ip] => l_verify ip EmptyString | _ => usage end.
(* actions.go:75-84 *)
Definition a_p1vt (args : list string) : lcmd (list bytes) :=
  match args with [ip; tp] => l_verify ip tp | _ => usage end.
(* actions.go:86-97 *)
Definition a_p2n (args : list string) : lcmd (list bytes) :=
  match args with [p1; r1; p2] => quiet (l_p2n (E := E) dev p1 r1 p2) | _ => usage end.
(* actions.go:99-125 *)
Definition a_p2np (args : list string) : lcmd (list bytes) :=
  match args with
  | [p1; r1; p2; s; t; u] => int_arg s (fun nbCons => int_arg t (fun nbR1C => int_arg u (fun batch =>
      quiet (l_p2np dev (v_parts v r1 nbR1C batch) p1 p2 nbCons))))
  | _ => usage
  end.
(* actions.go:127-136 *)
Definition a_p2c (args : list string) : lcmd (list bytes) :=
  match args with [ip; op] => h <- l_contribute2 dev bs (v_d v) (v_s v) ip op ;; lret [h] | _ => usage end.
(* actions.go:138-147 *)
Definition a_p2v (args : list string) : lcmd (list bytes) :=
  match args with [ip; op] => l_verify2 ip op | _ => usage end.
(* actions.go:149-157 *)
Definition a_extract (args : list string) : lcmd (list bytes) :=
  match args with [p] => quiet (l_keys dev wrap64 (v_g v) (v_sg v) p) | _ => usage end.
(* actions.go:159-168 *)
Definition a_extracts (args : list string) : lcmd (list bytes) :=
  match args with [p; s] => quiet (l_split_keys dev wrap64 (v_g v) (v_sg v) p s) | _ => usage end.
(* actions.go:170-178 *)
Definition a_sol (args : list string) : lcmd (list bytes) :=
  match args with [s] => quiet (l_sol s) | _ => usage end.

(* main.go:15-99 *)
Definition table : list (string * (list string -> lcmd (list bytes))) :=
  [("p1n", a_p1n); ("p1c", a_p1c); ("p1v", a_p1v); ("p1t", a_p1t); ("p1vt", a_p1vt); ("p2n", a_p2n); ("p2np", a_p2np);
   ("p2c", a_p2c); ("p2v", a_p2v); ("key", a_extract); ("keys", a_extracts); ("sol", a_sol)]%string.
(* main.go:12-104, after urfave/cli has taken flags and its own command help off the line; a name that is not
   in the table fails there *)
Definition tool (name : string) (args : list string) : lcmd (list bytes) :=
  match find (fun x => String.eqb (fst x) name) table with
  | Some (_, a) => a args
  | None => usage
  end.
End Cli.
