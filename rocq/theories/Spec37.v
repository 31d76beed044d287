(* Spec37.v -- the points of some of the wires, in order. *)
From Verif Require Import Base.
Section Those.
Context {X : Type}.
(* of the points l of the wires from i on, those of the wires that satisfy f *)
Fixpoint those (f : nat -> bool) (i : nat) (l : list X) : list X :=
  match l with [] => [] | x :: l => if f i then x :: those f (S i) l else those f (S i) l end.
End Those.
