(* Spec36.v -- how the wires are to be divided among PKK, VKK and CKK, for any data about a commitment. *)
From Verif Require Import Base Fld Circuit.

Section Parted.
Context {X : Type}.
(* the last nbpriv committed wires are the private ones; wire i is looked up at place i, as long as fewer than nbpriv
   were found.  parted c pub i n l p v k: of the points l of the wires from i on, with n private committed wires before
   them, p go to PKK, v to VKK and k to CKK *)
Definition private_of (c : commitment) : list nat := skipn (length (cm_committed c) - cm_nbpriv c) (cm_committed c).
Definition to_vk (c : commitment) (pub : Z) (i : nat) : Prop := (cm_committed c <> [] /\ i = cm_index c) \/ (Z.of_nat i < pub)%Z.
Inductive parted (c : commitment) (pub : Z) : nat -> nat -> list X -> list X -> list X -> list X -> Prop :=
| pt_end i n : parted c pub i n [] [] [] []
| pt_ck i n x l p v k : n < cm_nbpriv c -> cm_nbpriv c <= length (cm_committed c) -> nth_error (private_of c) i = Some i ->
    parted c pub (S i) (S n) l p v k -> parted c pub i n (x :: l) p v (x :: k)
| pt_vk i n x l p v k : (n < cm_nbpriv c -> cm_nbpriv c <= length (cm_committed c) /\ exists w, nth_error (private_of c) i = Some w /\ w <> i) ->
    to_vk c pub i -> parted c pub (S i) n l p v k -> parted c pub i n (x :: l) p (x :: v) k
| pt_pk i n x l p v k : (n < cm_nbpriv c -> cm_nbpriv c <= length (cm_committed c) /\ exists w, nth_error (private_of c) i = Some w /\ w <> i) ->
    ~ to_vk c pub i -> parted c pub (S i) n l p v k -> parted c pub i n (x :: l) (x :: p) v k.
End Parted.
