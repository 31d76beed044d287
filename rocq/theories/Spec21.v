(* Spec21.v -- where phase1.Transform looks for the points, for the power it is told. *)
From Verif Require Import Base Fld Ext Spec1.

Section Spec21.
Context {E : Ext}.
(* from byte n on, f holds encodings of the points l *)
Definition at1 (f : bytes) (n : nat) (l : list E) : Prop := exists b t, skipn n f = b ++ t /\ are1 b l.
Definition at2 (f : bytes) (n : nat) (l : list E) : Prop := exists b t, skipn n f = b ++ t /\ are2 b l.
(* f holds the parameters s at the places of a file of power a: 64 bytes of hash, 2 2^a - 1 and 2^a points of 64 and 128
   bytes, twice 2^a points of 64 bytes *)
Definition holds (a : nat) (f : bytes) (s : srs E) : Prop :=
  at1 f 64 (tau1 s) /\ at2 f (128 * 2 ^ a) (tau2 s) /\ at1 f (256 * 2 ^ a) (alpha1 s) /\ at1 f (320 * 2 ^ a) (beta1 s) /\
  at2 f (384 * 2 ^ a) [beta2 s].
(* the same with all places but the first at the start of the file *)
Definition start_holds (f : bytes) (s : srs E) : Prop :=
  at1 f 64 (tau1 s) /\ at2 f 0 (tau2 s) /\ at1 f 0 (alpha1 s) /\ at1 f 0 (beta1 s) /\ at2 f 0 [beta2 s].
End Spec21.
