(* Spec32.v -- the points of a phase-1 file that p2n uses, written without reference to the programs. *)
From Verif Require Import Base Fld Ext Spec1 Spec21.

Section Spec32.
Context {E : Ext}.
(* in a file of power p, s is what a domain of size 2^k takes: 3 bytes of header, sections of 2 2^p - 1, 2^p and 2^p points
   of 32 bytes, of 2^p points of 64 bytes, one point of 64 bytes; of each section the points in front *)
Definition uses (p k : nat) (F : bytes) (s : srs E) : Prop :=
  length (tau1 s) = (2 * 2 ^ k - 1)%nat /\ length (alpha1 s) = (2 ^ k)%nat /\ length (beta1 s) = (2 ^ k)%nat /\ length (tau2 s) = (2 ^ k)%nat /\
  at1 F 3 (tau1 s) /\ at1 F (3 + 32 * (2 * 2 ^ p - 1)) (alpha1 s) /\ at1 F (3 + 32 * (3 * 2 ^ p - 1)) (beta1 s) /\
  at2 F (3 + 32 * (4 * 2 ^ p - 1)) (tau2 s) /\ at2 F (3 + 32 * (6 * 2 ^ p - 1)) [beta2 s].
End Spec32.
