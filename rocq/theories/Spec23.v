(* Spec23.v -- a gob stream with one struct of integers, after the documentation of encoding/gob. *)
From Coq Require Import String.
From Verif Require Import Base.

(* "If the number is smaller than 128, it is transmitted as a byte with that value.  Otherwise it is transmitted as a
   minimal-length big-endian byte stream holding the value, preceded by one byte holding the byte count, negated." *)
Definition base256 (d : bytes) : N := fold_left (fun a x => a * 256 + bN x)%N d 0%N.
Definition uint_is (n : N) (b : bytes) : Prop :=
  ((n < 128)%N /\ exists x, b = [x] /\ bN x = n) \/
  ((128 <= n)%N /\ exists c d, b = c :: d /\ (bN c + N.of_nat (length d) = 256)%N /\ length d <= 8 /\ base256 d = n /\
    (256 ^ (N.of_nat (length d) - 1) <= n)%N).
(* "Signed integers [...] the lowest bit [...] if it is 1, complement" *)
Definition int_is (z : Z) (b : bytes) : Prop := exists n, uint_is n b /\ (z = if N.odd n then - Z.of_N (n / 2) - 1 else Z.of_N (n / 2))%Z.
(* strings: length and bytes *)
Definition string_is (s : string) (b : bytes) : Prop := exists l, uint_is (N.of_nat (String.length s)) l /\ b = l ++ list_byte_of_string s.
(* "Structs are sent as a sequence of (field number, field value) pairs. [...] If a field has the zero value for its type
   [...] it is omitted [...] the field numbers are sent as deltas [...] a delta value of 0 ends the struct" *)
Inductive struct_is : nat -> list Z -> bytes -> Prop :=
| struct_end k : struct_is k [] [x00]
| struct_zero k l b : struct_is (S k) l b -> struct_is k (0%Z :: l) b
| struct_field k z l d v b : z <> 0%Z -> uint_is (N.of_nat k) d -> int_is z v -> struct_is 1 l b -> struct_is k (z :: l) (d ++ v ++ b).
(* fieldType{Name, Id}, where the id of int is 2 *)
Definition field_type_is (s : string) (b : bytes) : Prop :=
  exists n i, string_is s n /\ int_is 2 i /\ b = [x01] ++ n ++ [x01] ++ i ++ [x00].
Inductive field_types_are : list string -> bytes -> Prop :=
| types_nil : field_types_are [] []
| types_cons s l b t : field_type_is s b -> field_types_are l t -> field_types_are (s :: l) (b ++ t).
(* the negated id, then wireType{StructT: &structType{CommonType{Name, Id}, Field}}: field 3 of wireType, fields 1 and 2 of
   structType and of CommonType *)
Definition type_is (id : Z) (name : string) (fields : list string) (b : bytes) : Prop :=
  exists i n j c f, int_is (- id) i /\ string_is name n /\ int_is id j /\ uint_is (N.of_nat (length fields)) c /\ field_types_are fields f /\
    b = i ++ [x03] ++ [x01] ++ ([x01] ++ n ++ [x01] ++ j ++ [x00]) ++ [x01] ++ c ++ f ++ [x00] ++ [x00].
Definition value_is (id : Z) (l : list Z) (b : bytes) : Prop := exists i s, int_is id i /\ struct_is 1 l s /\ b = i ++ s.
(* "each message is preceded by its length" *)
Definition message_is (P : bytes -> Prop) (b : bytes) : Prop := exists l m, uint_is (N.of_nat (length m)) l /\ P m /\ b = l ++ m.
(* the first struct type of a stream has id 65 *)
Definition stream_is (name : string) (fields : list string) (l : list Z) (b : bytes) : Prop :=
  exists u v, message_is (type_is 65 name fields) u /\ message_is (value_is 65 l) v /\ b = u ++ v.
(* the example of the documentation *)
Definition point_example : list N := [0x1f; 0xff; 0x81; 0x03; 0x01; 0x01; 0x05; 0x50; 0x6f; 0x69; 0x6e; 0x74; 0x01; 0xff; 0x82; 0x00; 0x01; 0x02;
  0x01; 0x01; 0x58; 0x01; 0x04; 0x00; 0x01; 0x01; 0x59; 0x01; 0x04; 0x00; 0x00; 0x00; 0x07; 0xff; 0x82; 0x01; 0x2c; 0x01; 0x42; 0x00]%N.
