(* Toy14.v -- headers for Prop16.v. *)
From Verif Require Import Base Phase1 Gob GobLemmas.
(* a domain of 0; -1 witnesses; a domain of 2^40 *)
Definition h_dom0 : hdr := mkHdr 5 3 2 0 2 0 1.
Definition h_wit1 : hdr := mkHdr 5 (-1) 2 0 2 2 1.
Definition h_big : hdr := mkHdr 5 3 2 0 2 (2 ^ 40) 1.
Lemma h_dom0_ok : hdr_ok h_dom0.
Proof. unfold hdr_ok, hdr_fields, int64, h_dom0, two63. cbn. repeat constructor; lia. Qed.
Lemma h_big_ok : hdr_ok h_big.
Proof. unfold hdr_ok, hdr_fields, int64, h_big, two63. cbn. repeat constructor; lia. Qed.
