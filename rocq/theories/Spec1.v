(* Spec1.v -- what a phase-1 file is (docs/Format.md), written without reference to the programs. *)
From Verif Require Import Base Fld IO Ext.
Local Open Scope fld_scope.

(* big-endian 16 bit *)
Definition be16 (n : N) : bytes := [b8 (n / 256); b8 n].
(* header: 1 byte power, 2 bytes number of contributions *)
Definition hdr1 (p n : nat) : bytes := b8 (N.of_nat p) :: be16 (N.of_nat n).

Section Spec1.
Context {E : Ext}.

(* the parameters *)
Record srs := mkSrs { tau1 : list E; alpha1 : list E; beta1 : list E; tau2 : list E; beta2 : E }.
Definition sized (p : nat) (s : srs) : Prop :=
  length (tau1 s) = (2 * 2 ^ p - 1)%nat /\ length (alpha1 s) = (2 ^ p)%nat /\
  length (beta1 s) = (2 ^ p)%nat /\ length (tau2 s) = (2 ^ p)%nat.
(* compressed form, as written *)
Definition srs_bytes (s : srs) : bytes :=
  enc1 (tau1 s) ++ enc1 (alpha1 s) ++ enc1 (beta1 s) ++ enc2 (tau2 s) ++ g2c (beta2 s).
(* any accepted form, as read *)
Definition is_srs (b : bytes) (s : srs) : Prop :=
  exists b1 b2 b3 b4 b5, b = b1 ++ b2 ++ b3 ++ b4 ++ b5 /\
    are1 b1 (tau1 s) /\ are1 b2 (alpha1 s) /\ are1 b3 (beta1 s) /\ are2 b4 (tau2 s) /\ is2 b5 (beta2 s).

(* a public key: s*G1, s*x*G1, x*SP *)
Record key := mkKey { kS : E; kSX : E; kSPX : E }.
Record contrib := mkContrib {
  c_tau1 : E; c_alpha1 : E; c_beta1 : E; c_tau2 : E; c_beta2 : E;
  c_kt : key; c_ka : key; c_kb : key; c_hash : bytes }.

(* the points of a record in file order; inl = G1, inr = G2 *)
Definition key_vals (k : key) : list (E + E) := [inl (kS k); inl (kSX k); inr (kSPX k)].
Definition rec_vals (c : contrib) : list (E + E) :=
  [inl (c_tau1 c); inl (c_alpha1 c); inl (c_beta1 c); inr (c_tau2 c); inr (c_beta2 c)]
  ++ key_vals (c_kt c) ++ key_vals (c_ka c) ++ key_vals (c_kb c).
Definition enc_val (v : E + E) : bytes := match v with inl x => g1c x | inr y => g2c y end.
Definition enc_vals (l : list (E + E)) : bytes := flat_map enc_val l.
Definition rec_bytes (c : contrib) : bytes := enc_vals (rec_vals c) ++ c_hash c.
Definition recs_bytes (l : list contrib) : bytes := flat_map rec_bytes l.

Definition is_val (b : bytes) (v : E + E) : Prop := match v with inl x => is1 b x | inr y => is2 b y end.
Definition are_vals : bytes -> list (E + E) -> Prop := parses is_val.
Definition is_rec (b : bytes) (c : contrib) : Prop :=
  exists pb, b = pb ++ c_hash c /\ are_vals pb (rec_vals c) /\ length (c_hash c) = 32.
Definition are_recs : bytes -> list contrib -> Prop := parses is_rec.

(* the file written for power p, parameters s and records l *)
Definition file1 (p : nat) (s : srs) (l : list contrib) : bytes :=
  hdr1 p (length l) ++ srs_bytes s ++ recs_bytes l.
(* b is a readable phase-1 file with these contents, possibly followed by other bytes *)
Definition is_file1 (b : bytes) (p : nat) (s : srs) (l : list contrib) : Prop :=
  exists sb rb junk, b = hdr1 p (length l) ++ sb ++ rb ++ junk /\ sized p s /\
    is_srs sb s /\ are_recs rb l.

(* parameters for secrets T, A, B *)
Definition srs_of (p : nat) (T A B : E) : srs :=
  mkSrs (map (fun i => T ^ i) (seq 0 (2 * 2 ^ p - 1)))
        (map (fun i => A * T ^ i) (seq 0 (2 ^ p)))
        (map (fun i => B * T ^ i) (seq 0 (2 ^ p)))
        (map (fun i => T ^ i) (seq 0 (2 ^ p))) B.

(* what one contribution does to the parameters *)
Definition upd_srs (t a b : E) (s : srs) : srs :=
  mkSrs (mapi (fun i x => t ^ i * x) (tau1 s))
        (mapi (fun i x => a * t ^ i * x) (alpha1 s))
        (mapi (fun i x => b * t ^ i * x) (beta1 s))
        (mapi (fun i x => t ^ i * x) (tau2 s)) (b * beta2 s).

(* challenge point SP = HashToG2(S || SX || challenge) under a one-byte domain tag *)
Definition chal (s sx : E) (ch : bytes) (tag : N) : E := h2g2 E (g1r s ++ g1r sx ++ ch) [b8 tag].
Definition mk_key (x s : E) (ch : bytes) (tag : N) : key :=
  mkKey s (x * s) (x * chal s (x * s) ch tag).

(* a record with the given points, made by a contributor with secrets t a b and key bases st sa sb *)
Definition signed_rec (t1 a1 b1 t2 b2 : E) (t a b st sa sb : E) (prev : bytes) : contrib :=
  let c h := mkContrib t1 a1 b1 t2 b2 (mk_key t st prev 1) (mk_key a sa prev 2) (mk_key b sb prev 3) h in
  c (sha E (enc_vals (rec_vals (c [])))).
(* the record that goes with the (new) parameters s *)
Definition new_rec (t a b st sa sb : E) (s : srs) (prev : bytes) : contrib :=
  signed_rec (nth 1 (tau1 s) 0) (nth 0 (alpha1 s) 0) (nth 0 (beta1 s) 0) (nth 1 (tau2 s) 0) (beta2 s)
    t a b st sa sb prev.

Definition last_hash (l : list contrib) : bytes := last (map c_hash l) [].
End Spec1.
Arguments srs : clear implicits.
Arguments key : clear implicits.
Arguments contrib : clear implicits.

Section Spec1b.
Context {E : Ext}.
(* entry off is what Contribute's firstPoint logic picks *)
Definition first_ok (off bs : nat) (L : list E) : Prop :=
  nth off L 0 <> 0 \/ length L <= bs \/ forall i, off <= i -> nth i L 0 = 0.

(* the origin of a chain *)
Definition origin_gen : contrib E := mkContrib 1 1 1 1 1 (mkKey 0 0 0) (mkKey 0 0 0) (mkKey 0 0 0) [].

Definition origin_of (s : srs E) : contrib E :=
  mkContrib (nth 1 (tau1 s) 0) (nth 0 (alpha1 s) 0) (nth 0 (beta1 s) 0) (nth 1 (tau2 s) 0) (beta2 s)
    (mkKey 0 0 0) (mkKey 0 0 0) (mkKey 0 0 0) [].

(* a powers-of-tau challenge file: 64-byte hash, then uncompressed points *)
Definition ppot (h : bytes) (s : srs E) (junk : bytes) : bytes :=
  h ++ raw1 (tau1 s) ++ raw2 (tau2 s) ++ raw1 (alpha1 s) ++ raw1 (beta1 s) ++ g2r (beta2 s) ++ junk.

(* the first entries *)
Definition cut (b : nat) (s : srs E) : srs E :=
  mkSrs (firstn (2 * 2 ^ b - 1) (tau1 s)) (firstn (2 ^ b) (alpha1 s)) (firstn (2 ^ b) (beta1 s))
    (firstn (2 ^ b) (tau2 s)) (beta2 s).

Definition prodl (l : list E) : E := fold_right (fun x y => x * y) 1 l.

(* the points of the parameters that a record repeats *)
Definition at_points (c : contrib E) (s : srs E) : Prop :=
  c_tau1 c = nth 1 (tau1 s) 0 /\ c_alpha1 c = nth 0 (alpha1 s) 0 /\ c_beta1 c = nth 0 (beta1 s) 0 /\
  c_tau2 c = nth 1 (tau2 s) 0 /\ c_beta2 c = beta2 s.

Definition firsts_ok (bs : nat) (s : srs E) : Prop :=
  first_ok 1 bs (tau1 s) /\ first_ok 0 bs (alpha1 s) /\ first_ok 0 bs (beta1 s) /\ first_ok 1 bs (tau2 s).

(* ---- forged and empty chains ---- *)
Definition zkey : key E := mkKey 0 0 0.

(* a record with all keys at infinity *)
Definition idle_rec (t1 a1 b1 t2 b2 kt ka kb : E) : contrib E :=
  let c h := mkContrib t1 a1 b1 t2 b2 (mkKey 0 0 kt) (mkKey 0 0 ka) (mkKey 0 0 kb) h in
  c (sha E (enc_vals (rec_vals (c [])))).

(* ---- what an accepted link says ---- *)
Definition key_live (k : key E) (prev : bytes) (tag : N) : Prop := kS k <> 0 /\ chal (kS k) (kSX k) prev tag <> 0.

Definition keys_live (c : contrib E) (prev : bytes) : Prop :=
  key_live (c_kt c) prev 1 /\ key_live (c_ka c) prev 2 /\ key_live (c_kb c) prev 3.

Definition linked (prev cur : contrib E) (xt xa xb : E) : Prop :=
  c_tau1 cur = xt * c_tau1 prev /\ c_alpha1 cur = xa * c_alpha1 prev /\ c_beta1 cur = xb * c_beta1 prev /\
  c_tau2 cur = xt * c_tau2 prev /\ c_beta2 cur = xb * c_beta2 prev.

Fixpoint all_live (o : contrib E) (l : list (contrib E)) : Prop :=
  match l with [] => True | c :: l' => keys_live c (c_hash o) /\ all_live c l' end.

Fixpoint all_linked (o : contrib E) (l : list (contrib E)) : Prop :=
  match l with [] => True | c :: l' => (exists xt xa xb, linked o c xt xa xb) /\ all_linked c l' end.

(* the two records at position i of two chains are explicit collision evidence *)
Definition collision_at (o : contrib E) (l1 l2 : list (contrib E)) (i : nat) : Prop :=
  exists c1 c2, nth_error l1 i = Some c1 /\ nth_error l2 i = Some c2 /\
  ((enc_vals (rec_vals c1) <> enc_vals (rec_vals c2) /\
    sha E (enc_vals (rec_vals c1)) = sha E (enc_vals (rec_vals c2))) \/
   (let m l := g1r (kS (c_kt c1)) ++ g1r (kSX (c_kt c1)) ++ c_hash (last (firstn i l) o) in
    m l1 <> m l2 /\ h2g2 E (m l1) [b8 1] = h2g2 E (m l2) [b8 1])).
End Spec1b.
