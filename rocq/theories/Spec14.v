(* Spec14.v -- inputs of p2np: a phase-1 file of power p for the trapdoor T, A, B, a circuit, and a number m of constraints. *)
From Coq Require Import String.
From Verif Require Import Base Fld IO Ext Spec1 Gob GobLemmas Circuit Spec2 Fs Spec3.

Section Input.
Context {E : Ext2}.
Definition parted_input (p : nat) (T A B : E) (cs : r1cs E) (m : nat) (f : fs) (p1 p2 : string) : Prop :=
  (p1 <> p2 /\ p1 <> lag_path /\ p1 <> evals_path /\ p2 <> lag_path /\ p2 <> evals_path) /\ 1 <= p <= 54 /\
  (exists c0 c1 tail, f p1 = Some (phase1_file p c0 c1 (srs_of p T A B) tail)) /\
  circuit_ok cs /\ no_cmt cs /\ (N.of_nat (wires cs) < 4294967296)%N /\
  m <= length (r_cons cs) /\ m <= 2 ^ p /\ (Z.of_nat m <= 2 ^ 27)%Z /\ 1 <= kmax E /\ m <= 2 ^ kmax E.
End Input.
