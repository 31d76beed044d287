(* Spec15.v -- how much the files take up, and files that lack their last byte. *)
From Coq Require Import String.
From Verif Require Import Base Fs Live.

(* the bytes of the files ps *)
Definition bytes_in (ps : list string) (f : fs) : nat := list_sum (map (fun p => length (contents f p)) ps).
(* g is f but for one of the files ps, which has lost its last byte *)
Definition one_short (ps : list string) (f g : fs) : Prop :=
  exists p O b, In p ps /\ f p = Some (O ++ [b]) /\ g p = Some O /\ forall q, q <> p -> g q = f q.

(* the bytes handed to the files *)
Definition op_bytes (o : osop) : nat := match o with OTrunc _ => 0 | OApp _ d => length d end.
Fixpoint ops_bytes (l : list osop) : nat := match l with [] => 0 | o :: l => op_bytes o + ops_bytes l end.
