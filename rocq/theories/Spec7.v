(* Spec7.v -- cut files: what p1v can confuse when the data ends early. *)
From Verif Require Import Base Fld IO Ext Spec1.
Local Open Scope fld_scope.

Section Spec7.
Context {E : Ext}.

(* the proofs of knowledge of c answer c's own hash *)
Definition follows_itself (c : contrib E) : Prop :=
  kS (c_kt c) * kSPX (c_kt c) = kSX (c_kt c) * chal (kS (c_kt c)) (kSX (c_kt c)) (c_hash c) 1 /\
  kS (c_ka c) * kSPX (c_ka c) = kSX (c_ka c) * chal (kS (c_ka c)) (kSX (c_ka c)) (c_hash c) 2 /\
  kS (c_kb c) * kSPX (c_kb c) = kSX (c_kb c) * chal (kS (c_kb c)) (kSX (c_kb c)) (c_hash c) 3.

(* the first m points of c, the others of a *)
Definition mixed (m : nat) (a c : contrib E) : list (E + E) := firstn m (rec_vals c) ++ skipn m (rec_vals a).
(* two neighbours whose mixture has the hash of the first without having its points *)
Definition stale_collision (l : list (contrib E)) : Prop :=
  exists i m a c, nth_error l i = Some a /\ nth_error l (S i) = Some c /\
    enc_vals (mixed m a c) <> enc_vals (rec_vals a) /\ sha E (enc_vals (mixed m a c)) = sha E (enc_vals (rec_vals a)).

(* a record and its predecessor as challenges give the record's keys the same three points *)
Definition same_challenges (h : bytes) (c : contrib E) : Prop :=
  chal (kS (c_kt c)) (kSX (c_kt c)) h 1 = chal (kS (c_kt c)) (kSX (c_kt c)) (c_hash c) 1 /\
  chal (kS (c_ka c)) (kSX (c_ka c)) h 2 = chal (kS (c_ka c)) (kSX (c_ka c)) (c_hash c) 2 /\
  chal (kS (c_kb c)) (kSX (c_kb c)) h 3 = chal (kS (c_kb c)) (kSX (c_kb c)) (c_hash c) 3.
End Spec7.
