(* Toy22.v -- a circuit whose third constraint names a wire that is not there, for Prop42.v. *)
From Verif Require Import Base Fld Ext Toy Circuit Toy2 Toy3.

Definition stray : r1cs Toy2 := mkR1cs (nb_public (tcs 0)) (nb_secret (tcs 0)) (nb_internal (tcs 0))
  (firstn 2 (r_cons (tcs 0)) ++ [mkR1c [mkTerm 1 99] [] []]) (r_coeffs (tcs 0)) (r_cmt (tcs 0)).
