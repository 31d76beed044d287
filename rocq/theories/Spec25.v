(* Spec25.v -- chains of phase-1 records in which every factor is known to its contributor; written without
   reference to the programs. *)
From Verif Require Import Base Fld IO Ext Spec1.
Local Open Scope fld_scope.

Section Attest1.
Context {E : Ext}.
(* a public key that shows the factor x on the challenge point of the hash ph *)
Definition shows (k : key E) (x : E) (ph : bytes) (tag : N) : Prop :=
  kSX k = x * kS k /\ kSPX k = x * chal (kS k) (kSX k) ph tag.
Definition hash_good1 (c : contrib E) : Prop := c_hash c = sha E (enc_vals (rec_vals c)).
(* Records l that multiply, starting at the record o, by the factors xs = (tau, alpha, beta): in G1 always, in G2 if
   the base of the key is not the point at infinity. *)
Inductive updates1 : contrib E -> list (contrib E) -> list (E * E * E) -> Prop :=
| updates1_nil o : updates1 o [] []
| updates1_cons o c l t a b xs :
    c_tau1 c = t * c_tau1 o -> c_alpha1 c = a * c_alpha1 o -> c_beta1 c = b * c_beta1 o ->
    (kS (c_kt c) <> 0 -> c_tau2 c = t * c_tau2 o) -> (kS (c_kb c) <> 0 -> c_beta2 c = b * c_beta2 o) ->
    shows (c_kt c) t (c_hash o) 1 -> shows (c_ka c) a (c_hash o) 2 -> shows (c_kb c) b (c_hash o) 3 ->
    hash_good1 c -> updates1 c l xs -> updates1 o (c :: l) ((t, a, b) :: xs).
Definition taus (xs : list (E * E * E)) : list E := map (fun x => fst (fst x)) xs.
Definition alphas (xs : list (E * E * E)) : list E := map (fun x => snd (fst x)) xs.
Definition betas (xs : list (E * E * E)) : list E := map snd xs.
(* a challenge point that is the identity: HashToG2 gave the point at infinity *)
Definition no_challenge1 (o : contrib E) (l : list (contrib E)) : Prop :=
  exists i c q, nth_error l i = Some c /\ nth_error (o :: l) i = Some q /\
    (chal (kS (c_kt c)) (kSX (c_kt c)) (c_hash q) 1 = 0 \/ chal (kS (c_ka c)) (kSX (c_ka c)) (c_hash q) 2 = 0 \/
     chal (kS (c_kb c)) (kSX (c_kb c)) (c_hash q) 3 = 0).
(* two records with the same SHA-256 hash of different bytes *)
Definition sha_clash1 (c r : contrib E) : Prop :=
  enc_vals (rec_vals c) <> enc_vals (rec_vals r) /\ sha E (enc_vals (rec_vals c)) = sha E (enc_vals (rec_vals r)).
End Attest1.
