(* Spec18.v -- chains of phase-2 records in which every factor is known to its contributor; written without
   reference to the programs. *)
From Verif Require Import Base Fld IO Ext Spec1 Gob Circuit Spec2.
Local Open Scope fld_scope.

Section Attest.
Context {E : Ext}.
(* Records l that multiply delta, starting at prev, by the factors xs: each record shows its factor in both groups,
   in G2 on the challenge point that belongs to the hash before it. *)
Inductive updates : E -> bytes -> list (contrib2 E) -> list E -> Prop :=
| updates_nil prev ph : updates prev ph [] []
| updates_cons prev ph c l x xs : d_delta c = x * prev -> kSX (d_key c) = x * kS (d_key c) ->
    kSPX (d_key c) = x * chal (kS (d_key c)) (kSX (d_key c)) ph 1 -> hash_good2 c ->
    updates (d_delta c) (d_hash c) l xs -> updates prev ph (c :: l) (x :: xs).
(* a challenge point that is the identity: HashToG2 gave the point at infinity *)
Definition no_challenge (l : list (contrib2 E)) : Prop :=
  exists i c, nth_error l i = Some c /\ chal (kS (d_key c)) (kSX (d_key c)) (prev_hash l i) 1 = 0.
(* two records with the same SHA-256 hash of different bytes *)
Definition sha_clash (c r : contrib2 E) : Prop :=
  enc_vals (rec2_vals c) <> enc_vals (rec2_vals r) /\ sha E (enc_vals (rec2_vals c)) = sha E (enc_vals (rec2_vals r)).
End Attest.
