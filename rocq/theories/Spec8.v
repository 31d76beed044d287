(* Spec8.v -- proofs made by those who know too much, and what is left of a key pair when its files are only
   verified; written without reference to the programs. *)
From Verif Require Import Base Fld IO Ext Poly BitRev Circuit Spec1 Spec2 Spec3 Spec4.
Local Open Scope fld_scope.

Section Forging.
Context {K : Fld}.
(* sum of the public inputs times the points of a verifying key *)
Definition public_sum (v : vkey K) (cs : r1cs K) (x : nat -> K) : K := sumn (nb_public cs) (fun i => x i * nth i (w_K v) 0).
(* a proof made from the proving key and tau: like proves, but with a constant polynomial in place of the
   quotient, which need not exist *)
Definition proves_tau (q : pkey K) (cs : r1cs K) (k : nat) (w : K) (x : nat -> K) (tau r s ar bs krs : K) : Prop :=
  exists a b c, values_poly cs x r_L (2 ^ k) w a /\ values_poly cs x r_R (2 ^ k) w b /\ values_poly cs x r_O (2 ^ k) w c /\
  let e := (peval a tau * peval b tau - peval c tau) / (tau ^ (2 ^ k) - 1) in
  ar = q_alpha q + sumn (wires cs) (fun i => x i * nth i (q_A q) 0) + r * q_delta q /\
  bs = q_beta2 q + sumn (wires cs) (fun i => x i * nth i (q_B2 q) 0) + s * q_delta2 q /\
  let bs1 := q_beta q + sumn (wires cs) (fun i => x i * nth i (q_B q) 0) + s * q_delta q in
  krs = sumn (wires cs - nb_public cs) (fun i => x (nb_public cs + i)%nat * nth i (q_K q) 0) + e * nth 0 (q_Z q) 0 +
        s * ar + r * bs1 - r * s * q_delta q.
End Forging.
