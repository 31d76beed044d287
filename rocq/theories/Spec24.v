(* Spec24.v -- how processes end, and command lines that write two files into one. *)
From Coq Require Import String.
From Verif Require Import Base Proc Spec6.

(* the result of a process that has finished *)
Definition ending {X L} (p : proc (res X * L)) : option (res X) := match p with Done (r, _) => Some r | Step _ => None end.
(* the phase-2 file has the name of one of the other two files that p2n writes *)
Definition folded (n : string) (a : list string) : Prop :=
  exists p1 r1 o, (o = "srs.lag"%string \/ o = "evals"%string) /\
  (n = "p2n"%string /\ a = [p1; r1; o] \/ exists s t u, n = "p2np"%string /\ a = [p1; r1; o; s; t; u]).
(* no file is an output of two of the command lines *)
Definition apart_outputs (ls : list (string * list string)) : Prop :=
  forall i j n a m b q, i <> j -> nth_error ls i = Some (n, a) -> nth_error ls j = Some (m, b) -> In q (outputs n a) -> ~ In q (outputs m b).
