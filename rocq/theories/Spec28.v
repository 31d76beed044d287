(* Spec28.v -- what key reads of evals, in any encoding of the points. *)
From Verif Require Import Base Fld IO Ext Spec1 Gob Circuit Spec2 Spec3 Spec4.

Section Read.
Context {E : Ext2}.
(* a length in four bytes and the points *)
Definition is_slice1 (b : bytes) (l : list E) : Prop :=
  exists pb, b = be32 (N.of_nat (length l)) ++ pb /\ (N.of_nat (length l) < 4294967296)%N /\ are1 pb l.
Definition is_slice2 (b : bytes) (l : list E) : Prop :=
  exists pb, b = be32 (N.of_nat (length l)) ++ pb /\ (N.of_nat (length l) < 4294967296)%N /\ are2 pb l.
(* The first six are read from the start, VKK and CKK from the place computed from w, the number of wires in the
   header of the phase-2 file; the rest of the file and where the first part ends do not matter. *)
Definition evals_read (w : Z) (G : bytes) (v : evals E) : Prop :=
  (exists b1 b2 b3 b4 b5 b6 t, G = b1 ++ b2 ++ b3 ++ b4 ++ b5 ++ b6 ++ t /\ is1 b1 (v_alpha v) /\ is1 b2 (v_beta1 v) /\ is2 b3 (v_beta2 v) /\
    is_slice1 b4 (v_A v) /\ is_slice1 b5 (v_B v) /\ is_slice2 b6 (v_B2 v)) /\
  exists b1 b2 t, skipn (Z.to_nat (vkk_off w)) G = b1 ++ b2 ++ t /\ is_slice1 b1 (v_vkk v) /\ is_slice1 b2 (v_ckk v).
(* 2^k is the least power of two that is not below m *)
Definition least_pow (m : Z) (k : nat) : Prop := (m <= 2 ^ Z.of_nat k)%Z /\ forall j, (m <= 2 ^ Z.of_nat j)%Z -> k <= j.
End Read.
