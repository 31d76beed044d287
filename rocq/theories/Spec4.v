(* Spec4.v -- Groth16 key pairs (for circuits as in Spec3.v), their files, proofs and the verification
   equation, written without reference to the programs. *)
From Verif Require Import Base Fld IO Ext Poly BitRev Gob GobLemmas Circuit Spec1 Spec2 Spec3.
Local Open Scope fld_scope.

(* big-endian 64 bit *)
Definition be64 (n : N) : bytes := be32 (n / 4294967296) ++ be32 n.
(* encoding/binary: one byte per bool *)
Definition bools (l : list bool) : bytes := map (fun b : bool => b8 (if b then 1 else 0)) l.

Section Keys.
Context {K : Fld}.
(* a proving key; A, B, B2 with the identity where a wire does not occur *)
Record pkey := mkPk { q_alpha : K; q_beta : K; q_delta : K; q_A : list K; q_B : list K; q_Z : list K; q_K : list K;
  q_beta2 : K; q_delta2 : K; q_B2 : list K }.
(* a verifying key (gamma = 1); w_ck = the basis of the commitment key *)
Record vkey := mkVk { w_alpha : K; w_beta : K; w_beta2 : K; w_delta : K; w_delta2 : K; w_K : list K; w_ck : list K }.

(* points that are not the identity, the positions of those that are *)
Definition present (l : list K) : list K := filter (fun x => negb (feqb x 0)) l.
Definition absent (l : list K) : list bool := map (fun x => feqb x 0) l.
Definition count_absent (l : list K) : nat := (length l - length (present l))%nat.
(* the array from the two *)
Fixpoint restore (flags : list bool) (l : list K) : list K :=
  match flags with
  | [] => []
  | true :: fl => 0 :: restore fl l
  | false :: fl => match l with [] => [] | x :: l' => x :: restore fl l' end
  end.

(* ---- the Groth16 key pair for trapdoor alpha, beta, gamma = 1, delta, tau ---- *)
Definition is_keypair (cs : r1cs K) (k : nat) (w alpha beta delta tau : K) (q : pkey) (v : vkey) : Prop :=
  exists t, lag_values (2 ^ k) w tau t /\
  q_alpha q = alpha /\ q_beta q = beta /\ q_delta q = delta /\ q_beta2 q = beta /\ q_delta2 q = delta /\
  q_A q = map (col cs r_L t) (seq 0 (wires cs)) /\
  q_B q = map (col cs r_R t) (seq 0 (wires cs)) /\ q_B2 q = q_B q /\
  q_K q = map (fun x => kat cs alpha beta t x / delta) (seq (nb_public cs) (wires cs - nb_public cs)) /\
  length (q_Z q) = (2 ^ k - 1)%nat /\
  (forall i r, i < 2 ^ k - 1 -> mirrors k i r -> nth_error (q_Z q) r = Some (tau ^ i * (tau ^ (2 ^ k) - 1) / delta)) /\
  w_alpha v = alpha /\ w_beta v = beta /\ w_beta2 v = beta /\ w_delta v = delta /\ w_delta2 v = delta /\
  w_K v = map (kat cs alpha beta t) (seq 0 (nb_public cs)) /\ w_ck v = [].

(* ---- proofs ---- *)
(* value of a linear expression on an assignment to the wires *)
Definition lin (cs : r1cs K) (x : nat -> K) (ts : list term) : K := sumn (wires cs) (fun w => entry cs ts w * x w).
Definition satisfies (cs : r1cs K) (x : nat -> K) : Prop :=
  forall c, In c (r_cons cs) -> lin cs x (r_L c) * lin cs x (r_R c) = lin cs x (r_O c).
(* a polynomial with fewer than n coefficients that has the values of the expressions at w^0 .. w^(n-1) *)
Definition values_poly (cs : r1cs K) (x : nat -> K) (sel : r1c -> list term) (n : nat) (w : K) (c : list K) : Prop :=
  length c = n /\ forall i, (i < n)%nat -> peval c (w ^ i) = lin cs x (expr cs sel i).
(* h = (A B - C) / (X^n - 1) *)
Definition quotient (cs : r1cs K) (x : nat -> K) (n : nat) (w : K) (h : list K) : Prop :=
  length h = (n - 1)%nat /\ exists a b c,
    values_poly cs x r_L n w a /\ values_poly cs x r_R n w b /\ values_poly cs x r_O n w c /\
    forall y, peval a y * peval b y - peval c y = peval h y * (y ^ n - 1).
(* sum of h_i Z_i, where Z is stored in bit-reversed order without its last entry *)
Definition dotz (k : nat) (h z : list K) (s : K) : Prop :=
  exists rev, (forall i, i < 2 ^ k -> mirrors k i (rev i)) /\
    s = sumn (2 ^ k - 1) (fun i => nth i h 0 * nth (rev i) z 0).
(* the proof (Ar, Bs, Krs) made with prover randomness r, s *)
Definition proves (q : pkey) (cs : r1cs K) (k : nat) (x : nat -> K) (h : list K) (r s : K) (ar bs krs : K) : Prop :=
  exists hz, dotz k h (q_Z q) hz /\
  ar = q_alpha q + sumn (wires cs) (fun i => x i * nth i (q_A q) 0) + r * q_delta q /\
  bs = q_beta2 q + sumn (wires cs) (fun i => x i * nth i (q_B2 q) 0) + s * q_delta2 q /\
  let bs1 := q_beta q + sumn (wires cs) (fun i => x i * nth i (q_B q) 0) + s * q_delta q in
  krs = sumn (wires cs - nb_public cs) (fun i => x (nb_public cs + i)%nat * nth i (q_K q) 0) + hz +
        s * ar + r * bs1 - r * s * q_delta q.
(* e(Ar, Bs) = e(alpha, beta) e(sum of public inputs, gamma) e(Krs, delta) *)
Definition accepts (v : vkey) (cs : r1cs K) (x : nat -> K) (ar bs krs : K) : Prop :=
  ar * bs = w_alpha v * w_beta2 v + sumn (nb_public cs) (fun i => x i * nth i (w_K v) 0) * 1 + krs * w_delta2 v.
End Keys.
Arguments pkey : clear implicits.
Arguments vkey : clear implicits.

Section Files.
Context {E : Ext2}.
Definition rslice1 (l : list E) : bytes := be32 (N.of_nat (length l)) ++ raw1 l.
Definition rslice2 (l : list E) : bytes := be32 (N.of_nat (length l)) ++ raw2 l.
Definition n64 (n : nat) : bytes := be64 (N.of_nat n).

(* the file pk; nw = number of wires *)
Definition pk_bytes (k : nat) (nw : N) (q : pkey E) : bytes :=
  dom_bytes (e := E) k ++ g1c (q_alpha q) ++ g1c (q_beta q) ++ g1c (q_delta q) ++
  slice1 (present (q_A q)) ++ slice1 (present (q_B q)) ++ slice1 (q_Z q) ++ slice1 (q_K q) ++
  g2c (q_beta2 q) ++ g2c (q_delta2 q) ++ slice2 (present (q_B2 q)) ++
  be64 nw ++ n64 (count_absent (q_A q)) ++ n64 (count_absent (q_B q)) ++ bools (absent (q_A q)) ++ bools (absent (q_B q)).
(* the file vk; ck = the commitment key, info = the encoded commitment info *)
Definition vk_bytes (ck info : bytes) (v : vkey E) : bytes :=
  ck ++ g1r (w_alpha v) ++ g1r (w_beta v) ++ g2r (w_beta2 v) ++ g2r (1 : E) ++ g1r (w_delta v) ++ g2r (w_delta2 v) ++
  rslice1 (w_K v) ++ info.
(* the file session.pk.E.save; dom = domain size *)
Definition pkE_bytes (dom : N) (nw : N) (q : pkey E) : bytes :=
  be64 dom ++ g1r (q_alpha q) ++ g1r (q_beta q) ++ g1r (q_delta q) ++ g2r (q_beta2 q) ++ g2r (q_delta2 q) ++
  be64 nw ++ n64 (count_absent (q_A q)) ++ n64 (count_absent (q_B q)) ++ bools (absent (q_A q)) ++ bools (absent (q_B q)).
(* the six files session.pk.{E,A,B1,Z,K,B2}.save *)
Definition split_bytes (dom nw : N) (q : pkey E) : list bytes :=
  [pkE_bytes dom nw q; rslice1 (present (q_A q)); rslice1 (present (q_B q)); rslice1 (q_Z q); rslice1 (q_K q);
   rslice2 (present (q_B2 q))].
(* gob of the zero value of constraint.Commitment *)
Definition empty_info : bytes := cmt_bytes (e := E) (mkCmt [] 0 0).

(* the keys in a phase-2 file with parameters q and an evals file *)
Definition pk_of (q : par2 E) (v : evals E) : pkey E :=
  mkPk (v_alpha v) (v_beta1 v) (p_d1 q) (v_A v) (v_B v) (p_Z q) (p_K q) (v_beta2 v) (p_d2 q) (v_B2 v).
Definition vk_of (q : par2 E) (v : evals E) : vkey E :=
  mkVk (v_alpha v) (v_beta1 v) (v_beta2 v) (p_d1 q) (p_d2 q) (v_vkk v) (v_ckk v).
Definition smalls (v : evals E) : Prop :=
  let small (l : list E) := (N.of_nat (length l) < 4294967296)%N in
  small (v_A v) /\ small (v_B v) /\ small (v_B2 v) /\ small (v_vkk v) /\ small (v_ckk v).
(* a readable phase-2 file, whatever follows the parameters *)
Definition ph2 (F : bytes) (h : hdr) (q : par2 E) : Prop :=
  hdr_ok h /\ sized2 h q /\ exists pb junk, F = gob_hdr h ++ pb ++ junk /\ is_par2 pb q.
(* where VKK starts in evals for a circuit with w wires *)
Definition vkk_off (w : Z) : Z := (128 * (w + 1) + 12)%Z.
Definition same_wires (w : nat) (v : evals E) : Prop := length (v_A v) = w /\ length (v_B v) = w /\ length (v_B2 v) = w.
End Files.
