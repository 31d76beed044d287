(* Spec34.v -- parameters of phase 2 with other points in PKK. *)
From Verif Require Import Base Fld Ext Spec2.
Local Open Scope fld_scope.

Section Spec34.
Context {E : Ext}.
(* known multiples of the generator added to the points of PKK *)
Definition tilt (d : list E) (q : par2 E) : par2 E :=
  mkPar2 (p_d1 q) (p_d2 q) (p_Z q) (map (fun a => fst a + snd a) (combine (p_K q) d)).
End Spec34.
