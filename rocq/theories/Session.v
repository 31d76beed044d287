(* Session.v -- several runs of the tool one after the other in one working directory. *)
From Coq Require Import String.
From Verif Require Import Base Fld IO Ext Spec1 Phase1 Gob Circuit Spec2 Fs Live Spec3 Cli.
Local Open Scope fld_scope.

Section Session.
Context {E : Ext2}.
(* a command line and what the run draws *)
Record line := mkLine { l_inv : inv E; l_name : string; l_args : list string }.
(* the results and the files left; every process starts with fresh counters *)
Fixpoint session (dev : device) (bs : nat) (l : list line) (f : fs) : list (res (list bytes)) * fs :=
  match l with
  | [] => ([], f)
  | x :: l' =>
    let '(r, w) := tool dev bs (l_inv x) (l_name x) (l_args x) (start f) in
    let '(rs, f') := session dev bs l' (w_fs w) in (r :: rs, f')
  end.
(* one contribution after the other: from p to the first of ps, from there to the second ... *)
Fixpoint chain (name : string) (vs : list (inv E)) (p : string) (ps : list string) : list line :=
  match vs, ps with
  | v :: vs', q :: ps' => mkLine v name [p; q] :: chain name vs' q ps'
  | _, _ => []
  end.
(* no file is contributed to in place *)
Fixpoint moves (p : string) (ps : list string) : Prop :=
  match ps with [] => True | q :: ps' => p <> q /\ moves q ps' end.
(* the hashes in the phase-2 files for circuit cs, domain 2^k and up to m contributions do not straddle a
   multiple of 4096 (see C36) *)
Definition aligned (cs : r1cs E) (k m : nat) : Prop :=
  forall j i, (1 <= j <= m)%nat -> (i < j)%nat ->
  ((length (gob_hdr (set_contribs (hdr_of cs k) (Z.of_nat j))) + (96 + 32 * (2 ^ k - 1) + 32 * (nb_secret cs + nb_internal cs)) +
    192 * i + 160) mod N.to_nat 4096 <= N.to_nat 4064)%nat.
End Session.
Arguments line : clear implicits.
