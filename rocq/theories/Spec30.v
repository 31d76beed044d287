(* Spec30.v -- what p1v makes of any bytes, written without reference to the programs: records that end early or do not
   decode, and the equations of a link. *)
From Verif Require Import Base Fld IO Ext Spec1 Spec27.
Local Open Scope fld_scope.

Section Seen1.
Context {E : Ext}.
Definition same_group (v x : E + E) : Prop := match v, x with inl _, inl _ | inr _, inr _ => True | _, _ => False end.
(* a point's bytes that do not decode, and what the receiver v holds afterwards *)
Definition broken (v : E + E) (b : bytes) (x : E + E) : Prop :=
  match v with
  | inl y => ((length b = 32%nat /\ compressed b = true /\ g1dc (e := E) b = None) \/ (length b = 64%nat /\ compressed b = false /\ g1dr (e := E) b = None)) /\
      x = inl (g1bad b y)
  | inr y => ((length b = 64%nat /\ compressed b = true /\ g2dc (e := E) b = None) \/ (length b = 128%nat /\ compressed b = false /\ g2dr (e := E) b = None)) /\
      x = inr (g2bad b y)
  end.
(* fewer bytes than the point needs *)
Definition short (v : E + E) (u : bytes) : Prop :=
  let n := match v with inl _ => 32%nat | inr _ => 64%nat end in length u < n \/ (compressed u = false /\ length u < 2 * n).
(* the points vs are overwritten with those found at u, up to the first that is not there: the new values, whether all were
   there, the bytes left *)
Inductive points : list (E + E) -> bytes -> list (E + E) -> bool -> bytes -> Prop :=
| pts_nil u : points [] u [] true u
| pts_ok v vs b x u ws ok r : is_val b x -> same_group v x -> points vs u ws ok r -> points (v :: vs) (b ++ u) (x :: ws) ok r
| pts_broken v vs b x u : broken v b x -> points (v :: vs) (b ++ u) (x :: vs) false u
| pts_short v vs u : short v u -> points (v :: vs) u (v :: vs) false [].
(* the record c found at u after the record old *)
Inductive rec1 (old : contrib E) (u : bytes) (c : contrib E) : bytes -> Prop :=
| rec1_whole r : points (rec_vals old) u (rec_vals c) true r -> c_hash c = padded32 (firstn 32 r) -> rec1 old u c (skipn 32 r)
| rec1_part r : points (rec_vals old) u (rec_vals c) false r -> c_hash c = c_hash old -> rec1 old u c r.
Inductive seen1 : contrib E -> bytes -> list (contrib E) -> Prop :=
| seen1_nil old u : seen1 old u []
| seen1_cons old u c r l : rec1 old u c r -> seen1 c r l -> seen1 old u (c :: l).
Definition blank : contrib E := mkContrib 0 0 0 0 0 (mkKey 0 0 0) (mkKey 0 0 0) (mkKey 0 0 0) [].

(* the key k for the challenge ch: S and SX, SP and SPX have the same ratio *)
Definition known (k : key E) (ch : bytes) (tag : N) : Prop := kS k * kSPX k = kSX k * chal (kS k) (kSX k) ch tag.
(* y over x in G1 is the ratio of k's G2 points *)
Definition stepA (x y : E) (k : key E) (ch : bytes) (tag : N) : Prop := y * chal (kS k) (kSX k) ch tag = x * kSPX k.
(* y over x in G2 is the ratio of k's G1 points *)
Definition stepB (x y : E) (k : key E) : Prop := kS k * y = kSX k * x.
Definition follows (o c : contrib E) : Prop :=
  known (c_kt c) (c_hash o) 1 /\ known (c_ka c) (c_hash o) 2 /\ known (c_kb c) (c_hash o) 3 /\
  stepA (c_tau1 o) (c_tau1 c) (c_kt c) (c_hash o) 1 /\ stepA (c_alpha1 o) (c_alpha1 c) (c_ka c) (c_hash o) 2 /\
  stepA (c_beta1 o) (c_beta1 c) (c_kb c) (c_hash o) 3 /\
  stepB (c_tau2 o) (c_tau2 c) (c_kt c) /\ stepB (c_beta2 o) (c_beta2 c) (c_kb c) /\
  c_hash c = sha E (enc_vals (rec_vals c)).
Fixpoint chain1 (o : contrib E) (l : list (contrib E)) : Prop :=
  match l with [] => True | c :: l' => follows o c /\ chain1 c l' end.
(* the file f: p, number of records n, 2^p points and so on, then records that continue o; the last one repeats beta in G2 *)
Definition accepts1 (f : bytes) (o : contrib E) (hs : list bytes) : Prop :=
  exists p n (s : srs E) sb tail l, p <= 62 /\ (n < 65536)%N /\ f = b8 (N.of_nat p) :: be16 n ++ sb ++ tail /\ sized p s /\ is_srs sb s /\
    length l = N.to_nat n /\ seen1 blank tail l /\ chain1 o l /\ beta2 s = c_beta2 (last l blank) /\ hs = map c_hash l.
End Seen1.
