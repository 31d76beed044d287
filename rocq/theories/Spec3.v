(* Spec3.v -- circuits as matrices, the Lagrange basis, and the files phase-2 initialisation leaves,
   written without reference to the programs. *)
From Verif Require Import Base Fld IO Ext Poly BitRev Gob Circuit Fs Spec1.
Local Open Scope fld_scope.

(* big-endian 32 bit *)
Definition be32 (n : N) : bytes := [b8 (n / 16777216); b8 (n / 65536); b8 (n / 256); b8 n].

Section Circuits.
Context {K : Fld}.

Definition wires (cs : r1cs K) : nat := (nb_public cs + nb_secret cs + nb_internal cs)%nat.
(* gnark's coefficient ids 0..3 stand for 0, 1, 2, -1; the others index the coefficient table *)
Definition cval (cs : r1cs K) (c : nat) : K :=
  match c with 0 => 0 | 1 => 1 | 2 => 1 + 1 | 3 => - (1) | _ => nth c (r_coeffs cs) 0 end.
(* the coefficient of wire w in a linear expression *)
Definition entry (cs : r1cs K) (ts : list term) (w : nat) : K :=
  fsum (map (fun t => if (t_wire t =? w)%nat then cval cs (t_coeff t) else 0) ts).
(* the i-th linear expression of the kind picked by sel (left, right, output) *)
Definition expr (cs : r1cs K) (sel : r1c -> list term) (i : nat) : list term :=
  sel (nth i (r_cons cs) (mkR1c [] [] [])).
(* column w of that matrix, combined with v *)
Definition col (cs : r1cs K) (sel : r1c -> list term) (v : list K) (w : nat) : K :=
  sumn (length (r_cons cs)) (fun i => entry cs (expr cs sel i) w * nth i v 0).
Definition cols (cs : r1cs K) (sel : r1c -> list term) (v : list K) : list K :=
  map (col cs sel v) (seq 0 (wires cs)).

(* wires and coefficients exist *)
Definition term_ok (cs : r1cs K) (t : term) : Prop :=
  (t_wire t < wires cs)%nat /\ ((t_coeff t < 4)%nat \/ (t_coeff t < length (r_coeffs cs))%nat).
Definition circuit_ok (cs : r1cs K) : Prop :=
  forall c, In c (r_cons cs) -> forall t, In t (r_L c ++ r_R c ++ r_O c) -> term_ok cs t.
Definition no_cmt (cs : r1cs K) : Prop := cm_committed (r_cmt cs) = [] /\ cm_nbpriv (r_cmt cs) = 0%nat.

(* b is a (vector of n group elements) written in the Lagrange basis of the points w^0 .. w^(n-1):
   pairing it with the values of a polynomial gives what pairing a with its coefficients gives *)
Definition lag_basis (n : nat) (w : K) (a b : list K) : Prop :=
  length b = n /\ forall c, length c = n ->
    sumn n (fun j => nth j b 0 * peval c (w ^ j)) = sumn n (fun i => nth i c 0 * nth i a 0).
(* the values at tau of the Lagrange polynomials of these points *)
Definition lag_values (n : nat) (w tau : K) (b : list K) : Prop :=
  length b = n /\ forall j c, (j < n)%nat -> lagrange_poly n w j c -> nth j b 0 = peval c tau.
End Circuits.

Section Files.
Context {E : Ext}.
Definition slice1 (l : list E) : bytes := be32 (N.of_nat (length l)) ++ enc1 l.
Definition slice2 (l : list E) : bytes := be32 (N.of_nat (length l)) ++ enc2 l.
(* srs.lag *)
Definition lag_bytes (t a b t2 : list E) : bytes := slice1 t ++ slice1 a ++ slice1 b ++ slice2 t2.
(* evals *)
Record evals := mkEvals { v_alpha : E; v_beta1 : E; v_beta2 : E; v_A : list E; v_B : list E; v_B2 : list E;
  v_vkk : list E; v_ckk : list E; v_cmt : bytes }.
Definition evals_bytes (v : evals) : bytes :=
  g1c (v_alpha v) ++ g1c (v_beta1 v) ++ g2c (v_beta2 v) ++ slice1 (v_A v) ++ slice1 (v_B v) ++ slice2 (v_B2 v) ++
  slice1 (v_vkk v) ++ slice1 (v_ckk v) ++ v_cmt v.
End Files.
Arguments evals : clear implicits.

Section Init.
Context {K : Fld}.
(* the domain 2^k for m constraints: the least power of two that is at least 2 and at least m *)
Definition is_dom (m k : nat) : Prop := 1 <= k /\ m <= 2 ^ k /\ forall j, 1 <= j -> m <= 2 ^ j -> k <= j.
(* the phase-2 header for a circuit without commitment *)
Definition hdr_of (cs : r1cs K) (k : nat) : hdr :=
  mkHdr (Z.of_nat (wires cs)) (Z.of_nat (nb_secret cs + nb_internal cs)) (Z.of_nat (nb_public cs)) 0
    (Z.of_nat (length (r_cons cs))) (Z.of_nat (2 ^ k)) 0.
(* beta A_w + alpha B_w + C_w, where t = the Lagrange polynomials at tau, a = alpha t, b = beta t *)
Definition Lat (cs : r1cs K) (t a b : list K) (w : nat) : K := col cs r_O t w + col cs r_R a w + col cs r_L b w.
Definition Lsum (cs : r1cs K) (t a b : list K) : list K := map (Lat cs t a b) (seq 0 (wires cs)).
Definition kat (cs : r1cs K) (alpha beta : K) (t : list K) (w : nat) : K :=
  beta * col cs r_L t w + alpha * col cs r_R t w + col cs r_O t w.
(* Z for a vector of powers of tau: entry i is tau_{i+n} - tau_i, in bit-reversed order, without the last *)
Definition z_at (n : nat) (tau : list K) (i : nat) : K := nth (i + n)%nat tau 0 - nth i tau 0.
Definition is_z (k : nat) (tau z : list K) : Prop :=
  length z = (2 ^ k - 1)%nat /\
  forall i r, i < 2 ^ k - 1 -> mirrors k i r -> nth_error z r = Some (z_at (2 ^ k) tau i).
End Init.

(* the working directory: the inputs and the outputs have different names *)
Definition names_ok (p1 r1 p2 : string) : Prop :=
  p1 <> p2 /\ r1 <> p2 /\ p1 <> lag_path /\ p1 <> evals_path /\ r1 <> lag_path /\ r1 <> evals_path /\
  p2 <> lag_path /\ p2 <> evals_path.
(* f and g differ at most in the phase-2 file, srs.lag and evals *)
Definition only3 (p2 : string) (f g : fs) : Prop :=
  forall q, q <> p2 -> q <> lag_path -> q <> evals_path -> g q = f q.

Section Input.
Context {E : Ext2}.
(* a phase-1 file: 3 header bytes, the parameters, anything (records) *)
Definition phase1_file (p : nat) (c0 c1 : byte) (s : srs E) (tail : bytes) : bytes :=
  b8 (N.of_nat p) :: c0 :: c1 :: srs_bytes s ++ tail.
(* the same points, but the first of the tau2 section in raw form *)
Definition phase1_raw (p : nat) (c0 c1 : byte) (s : srs E) (tail : bytes) : bytes :=
  b8 (N.of_nat p) :: c0 :: c1 :: enc1 (tau1 s) ++ enc1 (alpha1 s) ++ enc1 (beta1 s) ++
    (g2r (nth 0 (tau2 s) 0) ++ enc2 (tl (tau2 s)) ++ g2c (beta2 s)) ++ tail.
(* the inputs of phase-2 initialisation: a phase-1 file of power p with parameters S0 and a circuit that
   fits (2^27 and kmax: what nextPowerofTwo and fft.NewDomain support) *)
Definition init_input (p : nat) (S0 : srs E) (cs : r1cs E) (f : fs) (p1 r1 p2 : string) : Prop :=
  names_ok p1 r1 p2 /\ 1 <= p <= 54 /\ sized p S0 /\
  (exists c0 c1 tail, f p1 = Some (phase1_file p c0 c1 S0 tail)) /\
  (exists rb, f r1 = Some rb /\ parse_r1cs rb = Some cs) /\
  circuit_ok cs /\ length (r_cons cs) <= 2 ^ p /\ (Z.of_nat (length (r_cons cs)) <= 2 ^ 27)%Z /\
  1 <= kmax E /\ length (r_cons cs) <= 2 ^ kmax E.
(* the circuit with its first m constraints only *)
Definition trunc (m : nat) (cs : r1cs E) : r1cs E :=
  mkR1cs (nb_public cs) (nb_secret cs) (nb_internal cs) (firstn m (r_cons cs)) (r_coeffs cs) (r_cmt cs).
End Input.
