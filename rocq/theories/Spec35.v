(* Spec35.v -- keys of a trapdoor of which K and Z are not known to be right. *)
From Verif Require Import Base Fld Poly BitRev IO Ext Spec1 Circuit Spec3 Spec4.
Local Open Scope fld_scope.

Section Spec35.
Context {K : Fld}.
(* everything that is_keypair (Spec4.v) says except for q_K and q_Z *)
Definition keypair_but_KZ (cs : r1cs K) (k : nat) (w alpha beta delta tau : K) (q : pkey K) (v : vkey K) : Prop :=
  exists t, lag_values (2 ^ k) w tau t /\
  q_alpha q = alpha /\ q_beta q = beta /\ q_delta q = delta /\ q_beta2 q = beta /\ q_delta2 q = delta /\
  q_A q = map (col cs r_L t) (seq 0 (wires cs)) /\ q_B q = map (col cs r_R t) (seq 0 (wires cs)) /\ q_B2 q = q_B q /\
  w_alpha v = alpha /\ w_beta v = beta /\ w_beta2 v = beta /\ w_delta v = delta /\ w_delta2 v = delta /\
  w_K v = map (kat cs alpha beta t) (seq 0 (nb_public cs)) /\ w_ck v = [].
End Spec35.
