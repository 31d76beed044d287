(* Spec11.v -- how processes end. *)
From Coq Require Import String.
From Verif Require Import Base Fs Live Proc.

(* the result of a process that has finished, a panic otherwise *)
Definition outcome {X} (p : proc (res X * loc)) : res X := match p with Done (r, _) => r | Step _ => Panic end.
Definition succeeded {X} (l : list (res X)) : Prop := forall r, In r l -> exists x, r = Ok x.
