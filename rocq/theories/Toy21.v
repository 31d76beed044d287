(* Toy21.v -- the phase-1 file of Toy3.v with points that cannot be decoded, for Prop40.v. *)
From Coq Require Import String.
From Verif Require Import Base Fld IO Ext Toy Spec1 Phase1 Circuit Gob Fs Spec3 Init2 Toy2 Toy3.

(* n points from the i-th on *)
Definition spoil (i n : nat) : bytes := firstn (3 + 32 * i) tp1 ++ repeat xff (32 * n) ++ skipn (3 + 32 * (i + n)) tp1.
Definition sfs (c i n : nat) : fs := fset (fset (fun _ => None) p1n (spoil i n)) r1n [b8 (N.of_nat c)].
