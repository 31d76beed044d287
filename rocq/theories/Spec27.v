(* Spec27.v -- the records that a reader with a buffer of 4096 bytes sees, whole or not.  [off] is the place in the
   file; bytes behind the last record do not matter. *)
From Verif Require Import Base Fld IO Ext Spec1 Gob Circuit Spec2.

Section Seen.
Context {E : Ext}.
(* bytes up to the end of the block, at most 32 *)
Definition room (off : nat) : nat := Nat.min 32 (N.to_nat 4096 - off mod N.to_nat 4096).
Definition padded32 (b : bytes) : bytes := b ++ repeat x00 (32 - length b).
(* A hash ends with its block, or with the file, if that comes first; it is filled up with zeros, and the next
   record starts where it ended. *)
Inductive seen2 : nat -> bytes -> list (contrib2 E) -> Prop :=
| seen2_nil off junk : seen2 off junk []
| seen2_cons off pb rest c l : are_vals pb (rec2_vals c) -> rest <> [] ->
    let hb := firstn (room (off + length pb)) rest in
    d_hash c = padded32 hb ->
    seen2 (off + length pb + length hb) (skipn (room (off + length pb)) rest) l ->
    seen2 off (pb ++ rest) (c :: l).
End Seen.
