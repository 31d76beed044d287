(* Spec26.v -- what two chains of records must contain if one of them shows a hash of the other one without the same
   history; written without reference to the programs, but for the reading of records that end early (take_chain). *)
From Verif Require Import Base Fld IO Ext Spec1 Phase1 Phase1Verify Gob Circuit Spec2 Spec18 Spec25.
Local Open Scope fld_scope.

Section Binds.
Context {E : Ext}.
(* the inputs of HashToG2 for the same key (tag 1) after two different hashes, giving the same point *)
Definition point_clash (k : key E) (ph ph' : bytes) : Prop :=
  let m x := g1r (kS k) ++ g1r (kSX k) ++ x in m ph <> m ph' /\ h2g2 E (m ph) [b8 1] = h2g2 E (m ph') [b8 1].
(* collision evidence in record a of l and record b of l' *)
Definition clash2 (l l' : list (contrib2 E)) (a b : nat) : Prop :=
  exists c c', nth_error l a = Some c /\ nth_error l' b = Some c' /\
    (sha_clash c c' \/ (c = c' /\ point_clash (d_key c) (prev_hash l a) (prev_hash l' b))).
Definition prev_hash1 (l : list (contrib E)) (i : nat) : bytes := last (map c_hash (firstn i l)) [].
Definition clash1 (l l' : list (contrib E)) (a b : nat) : Prop :=
  exists c c', nth_error l a = Some c /\ nth_error l' b = Some c' /\
    (sha_clash1 c c' \/ (c = c' /\ point_clash (c_kt c) (prev_hash1 l a) (prev_hash1 l' b))).
(* collision evidence in record i of l, seen by who appended the record r to a file with the records lx *)
Definition own_clash2 (l lx : list (contrib2 E)) (i : nat) (r : contrib2 E) : Prop :=
  exists c, nth_error l i = Some c /\ (sha_clash c r \/ (c = r /\ point_clash (d_key r) (prev_hash l i) (last_hash2 lx))).
Definition own_clash1 (l lx : list (contrib E)) (i : nat) (r : contrib E) : Prop :=
  exists c, nth_error l i = Some c /\ (sha_clash1 c r \/ (c = r /\ point_clash (c_kt r) (prev_hash1 l i) (last_hash lx))).
(* the records of the phase-1 file F, which may end early: what is missing keeps the value it had in the record before *)
Definition records1 (F : bytes) (l : list (contrib E)) : Prop :=
  exists p n (s : srs E) sb tail, p < 256 /\ (n < 65536)%N /\ F = b8 (N.of_nat p) :: be16 n ++ sb ++ tail /\ sized p s /\ is_srs sb s /\
    l = take_chain (N.to_nat n) zero_contrib tail.
End Binds.
