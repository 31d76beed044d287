(* Spec22.v -- what p1vt takes from the transformed file. *)
From Verif Require Import Base Fld Ext Spec1 Spec21.

Section Spec22.
Context {E : Ext}.
(* g starts with the byte q and holds, at the places of a phase-1 file of power q with compressed points, the second
   point t of the tau section, the first points a and b of the alpha and beta sections, the second point t2 of the tau
   section in G2 and the last point b2 *)
Definition starts (q : nat) (g : bytes) (t a b t2 b2 : E) : Prop :=
  (exists r, g = b8 (N.of_nat q) :: r) /\ let n := 2 ^ q in
  at1 g (3 + 32) [t] /\ at1 g (3 + 32 * (2 * n - 1)) [a] /\ at1 g (3 + 32 * (3 * n - 1)) [b] /\
  at2 g (3 + 32 * (4 * n - 1) + 64) [t2] /\ at2 g (3 + 32 * (4 * n - 1) + 64 * n) [b2].
End Spec22.
