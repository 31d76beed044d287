(* Spec13.v -- provers that know nothing of the trapdoor: they form the points of a proof as fixed linear
   combinations of the published points. *)
From Verif Require Import Base Fld IO Ext Spec1 Gob GobLemmas Circuit Spec2 Spec3 Spec4.
Local Open Scope fld_scope.

(* P holds for more than m values *)
Definition more {A} (m : nat) (P : A -> Prop) : Prop := exists l, NoDup l /\ m < length l /\ forall y, In y l -> P y.

Section Provers.
Context {E : Ext2}.
(* sum of c_i l_i *)
Definition comb (c l : list E) : E := sumn (length l) (fun i => nth i c 0 * nth i l 0).
(* the points of G1 and of G2 in the phase-1 file, the proving key and the verifying key, up to repetitions;
   evals and srs.lag hold sums of these *)
Definition published1 (s : srs E) (q : pkey E) (v : vkey E) : list E :=
  tau1 s ++ alpha1 s ++ beta1 s ++ [q_delta q] ++ q_A q ++ q_B q ++ w_K v ++ q_Z q ++ q_K q.
Definition published2 (s : srs E) (q : pkey E) : list E := tau2 s ++ [beta2 s; q_delta2 q] ++ q_B2 q.
(* with the keys for this trapdoor, the proof with coefficients ca, cb, cc is accepted for the public inputs x *)
Definition convinces (p : nat) (cs : r1cs E) (k : nat) (x : nat -> E) (ca cb cc : list E) (alpha beta delta tau : E) : Prop :=
  exists q v, is_keypair cs k (root k) alpha beta delta tau q v /\
    let s := srs_of p tau alpha beta in
    accepts v cs x (comb ca (published1 s q v)) (comb cb (published2 s q)) (comb cc (published1 s q v)).
(* the number of points before the entries of K *)
Definition before_K (p : nat) (cs : r1cs E) (k : nat) : nat :=
  ((2 * 2 ^ p - 1) + 2 ^ p + 2 ^ p + 1 + wires cs + wires cs + nb_public cs + (2 ^ k - 1))%nat.
(* the public inputs, and the prover's coefficients of K *)
Definition extracted (p : nat) (cs : r1cs E) (k : nat) (x : nat -> E) (cc : list E) (i : nat) : E :=
  if (i <? nb_public cs)%nat then x i else nth (before_K p cs k + (i - nb_public cs)) cc 0.
End Provers.
