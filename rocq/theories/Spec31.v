(* Spec31.v -- what p2v makes of any bytes behind two headers, written without reference to the programs. *)
From Verif Require Import Base Fld IO Ext Spec1 Gob Circuit Spec2 Spec27 Spec30.
Local Open Scope fld_scope.

Section Pair.
Context {E : Ext}.
(* the bytes of a point in G1 that do not decode *)
Definition undec1 (b : bytes) : Prop :=
  (length b = 32%nat /\ compressed b = true /\ g1dc (e := E) b = None) \/ (length b = 64%nat /\ compressed b = false /\ g1dr (e := E) b = None).
(* n points are wanted at u: those in front of the first that is not there, whether all were there, the bytes left *)
Inductive run1 : nat -> bytes -> list E -> bool -> bytes -> Prop :=
| run_nil u : run1 0 u [] true u
| run_ok n b x u l ok r : is1 b x -> run1 n u l ok r -> run1 (S n) (b ++ u) (x :: l) ok r
| run_broken n b u : undec1 b -> run1 (S n) (b ++ u) [] false u
| run_short n u : short (inl (0 : E)) u -> run1 (S n) u [] false [].
Definition weights (rho : nat -> E) (n : nat) : list E := map rho (seq 0 n).
Definition both (a b : E) (o : option (E * E)) : option (E * E) := match o with Some (x, y) => Some (a + x, b + y) | None => None end.
(* m points are compared, u in the one file with v in the other, bs at a time: the two random combinations, or None where
   a point is not there; and the bytes left in both files *)
Inductive compared (bs : nat) (rho : nat -> nat -> E) : nat -> bytes -> bytes -> option (E * E) -> bytes -> bytes -> Prop :=
| cmp_nil u v : compared bs rho 0 u v (Some (0, 0)) u v
| cmp_left m u v l u' : run1 (Nat.min (S m) bs) u l false u' -> compared bs rho (S m) u v None u' v
| cmp_right m u v l k u' v' : run1 (Nat.min (S m) bs) u l true u' -> run1 (Nat.min (S m) bs) v k false v' -> compared bs rho (S m) u v None u' v'
| cmp_batch m u v l k u' v' o u2 v2 : let n := Nat.min (S m) bs in run1 n u l true u' -> run1 n v k true v' ->
    compared bs rho (S m - n) u' v' o u2 v2 ->
    compared bs rho (S m) u v (both (dot l (weights (rho (S m)) n)) (dot k (weights (rho (S m)) n)) o) u2 v2.
(* the combinations have the ratio g : d; nothing is asked where a point was not there *)
Definition agrees (d g : E) (o : option (E * E)) : Prop := match o with Some (x, y) => x * d = y * g | None => True end.
(* the link of the record c to a predecessor with delta x and hash ch *)
Definition follows2 (x : E) (ch : bytes) (c : contrib2 E) : Prop :=
  known (d_key c) ch 1 /\ stepA x (d_delta c) (d_key c) ch 1 /\ d_hash c = sha E (enc_vals (rec2_vals c)).
Fixpoint linked2 (x : E) (ch : bytes) (l : list (contrib2 E)) : Prop :=
  match l with [] => True | c :: l' => follows2 x ch c /\ linked2 (d_delta c) (d_hash c) l' end.
(* [hb] is the length of the header in front of t *)
Definition accepts2 (bs : nat) (rho : nat -> nat -> nat -> E) (h h0 : hdr) (hb : nat) (t t0 : bytes) (hs : list bytes) : Prop :=
  h_contribs h <> 0%Z /\ h0 = set_contribs h (h_contribs h0) /\ (1 <= h_domain h)%Z /\ (0 <= h_witness h)%Z /\
  exists b1 b2 u (d1 d2 : E) c1 c2 v g1 g2, t = b1 ++ b2 ++ u /\ is1 b1 d1 /\ is2 b2 d2 /\ t0 = c1 ++ c2 ++ v /\ is1 c1 g1 /\ is2 c2 g2 /\
  g1 * d2 = d1 * g2 /\
  exists o1 u1 v1 o2 u2 v2 (l : list (contrib2 E)),
  compared bs (rho 0%nat) (Z.to_nat (h_domain h - 1)) u v o1 u1 v1 /\ agrees d2 g2 o1 /\
  compared bs (rho 1%nat) (Z.to_nat (h_witness h)) u1 v1 o2 u2 v2 /\ agrees d2 g2 o2 /\
  length l = Z.to_nat (h_contribs h) /\ seen2 (hb + length t - length u2) u2 l /\ linked2 g1 [] l /\
  last (map d_delta l) 0 = d1 /\ hs = map d_hash l.
End Pair.
