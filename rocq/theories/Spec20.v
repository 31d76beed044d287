(* Spec20.v -- how long the files are, after docs/Format.md.  An integer of a gob stream takes one byte if it is in
   -64..63, and otherwise one byte and its digits to the base 256, after doubling; the header of phase 2 is preceded by a
   description of its type, and its fields that are 0 are left out. *)
From Verif Require Import Base Gob.

Definition int_len (z : Z) : nat :=
  let u := (if z <? 0 then - 2 * z - 1 else 2 * z)%Z in if (u <? 128)%Z then 1 else 2 + Z.to_nat (Z.log2 u / 8).
Definition fields_len (h : hdr) : nat := list_sum (map (fun z => if (z =? 0)%Z then 0 else 1 + int_len z) (hdr_fields h)).
