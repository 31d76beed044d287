(* Spec29.v -- records that are seen somewhere in a file.  seen2 is in Spec27.v. *)
From Verif Require Import Base Fld IO Ext Spec1 Gob Circuit Spec2 Spec27.

Section Shown.
Context {E : Ext}.
(* [off] tells how far the reader is in its buffer; that is the place in the file unless a large header was read *)
Definition shown2 (F : bytes) (l : list (contrib2 E)) : Prop := exists pre u off, F = pre ++ u /\ seen2 off u l.
End Shown.
