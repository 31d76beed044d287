(* Spec19.v -- the ceremony of README.md, in which the coordinator checks every contribution (README.md:17-54). *)
From Coq Require Import String.
From Verif Require Import Base Fld IO Ext Spec1 Phase1 Gob Circuit Spec2 Fs Live Spec3 Cli Session.
Local Open Scope fld_scope.

Section Checked.
Context {E : Ext2}.
(* contributions with [name] from p to the first of ps and so on, each followed by [chk] on its output (and the
   files [also]) *)
Fixpoint checked (name chk : string) (also : list string) (vs us : list (inv E)) (p : string) (ps : list string) : list (line E) :=
  match vs, us, ps with
  | v :: vs', u :: us', q :: ps' => mkLine v name [p; q] :: mkLine u chk (q :: also) :: checked name chk also vs' us' q ps'
  | _, _, _ => []
  end.
(* each contribution shows its hash, each check the hashes of all contributions so far *)
Fixpoint shown (past hs : list bytes) : list (res (list bytes)) :=
  match hs with [] => [] | h :: hs' => Ok [h] :: Ok (past ++ [h]) :: shown (past ++ [h]) hs' end.
End Checked.
