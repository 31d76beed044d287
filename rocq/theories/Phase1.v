(* Phase1.v -- the programs of /repo/phase1 (and common/keypair.go, SameRatio).
   Input file = handle false, transformed file = handle true, output = 0.
   The printed messages are not modelled, except that Contribute returns the hash it prints and
   Verify the list of hashes it prints.  Which of several I/O errors is returned is not
   distinguished where the code only says "return err". *)
From Verif Require Import Base Fld Conc Parallel IO Ext Spec1.
Local Open Scope fld_scope.
Local Open Scope io_scope.

(* ---- Go integers on amd64 ---- *)
Definition two63 : Z := 9223372036854775808.
Definition wrap64 (z : Z) : Z := ((z + two63) mod (2 * two63) - two63)%Z.
(* int(math.Pow(2, float64(power))) for a byte power: exact below 2^63, MinInt64 above (amd64) *)
Definition pow2 (p : byte) : Z := if (bN p <? 63)%N then (2 ^ Z.of_N (bN p))%Z else (- two63)%Z.
(* bufio.NewReader / NewWriter default size; buffSize of Initialize and Verify; batchSize *)
Definition defBuf : nat := N.to_nat 4096.
Definition bigBuf : nat := N.to_nat 1048576.
Definition batchSize : nat := N.to_nat 1048576.          (* phase1/utils.go:18 *)

Section Phase1.
Context {E : Ext}.
Notation A := false (only parsing).   (* inputFile *)
Notation B := true (only parsing).    (* transformed file *)

(* phase1/header.go:13-28; two separate Read calls, a short second one leaves zeros *)
Definition read_header (h : bool) : io (byte * N) :=
  Rd h 1 (fun x => match x with
  | None => Throw EEof
  | Some b => match b with
    | [] => Throw EEof
    | pw :: _ => Rd h 2 (fun y => match y with
      | None => Throw EEof
      | Some c =>
        match c ++ [b8 0; b8 0] with
        | c0 :: c1 :: _ => Ret (pw, (bN c0 * 256 + bN c1)%N)
        | _ => Boom
        end
      end)
    end
  end).
(* phase1/header.go:30-44 *)
Definition write_header (o : nat) (pw : byte) (n : N) : io unit :=
  write o [pw] ;;; write o (be16 n).

(* common/utils.go:34-44: e(a1,a2) = e(b1,b2) *)
Definition same_ratio (a1 b1 a2 b2 : E) : bool := feqb (a1 * a2) (b1 * b2).

(* common/keypair.go:40-48; HashToG2 only fails for an over-long tag *)
Definition gen_sp (s sx : E) (ch : bytes) (dst : N) : E := h2g2 E (g1r s ++ g1r sx ++ ch) [b8 dst].
(* common/keypair.go:16-37; s is the sampled scalar, the generator is 1 *)
Definition gen_key (x s : E) (ch : bytes) (dst : N) : key E :=
  let S := 1 * s in
  let SX := S * x in
  let SP := gen_sp S SX ch dst in
  mkKey S SX (SP * x).

(* ---- phase1/contribution.go ---- *)
(* a pointer to a field of a Contribution *)
Inductive field :=
| G1F (get : contrib E -> E) (set : contrib E -> E -> contrib E)
| G2F (get : contrib E -> E) (set : contrib E -> E -> contrib E).

Definition s_tau1 (c : contrib E) x := mkContrib x (c_alpha1 c) (c_beta1 c) (c_tau2 c) (c_beta2 c) (c_kt c) (c_ka c) (c_kb c) (c_hash c).
Definition s_alpha1 (c : contrib E) x := mkContrib (c_tau1 c) x (c_beta1 c) (c_tau2 c) (c_beta2 c) (c_kt c) (c_ka c) (c_kb c) (c_hash c).
Definition s_beta1 (c : contrib E) x := mkContrib (c_tau1 c) (c_alpha1 c) x (c_tau2 c) (c_beta2 c) (c_kt c) (c_ka c) (c_kb c) (c_hash c).
Definition s_tau2 (c : contrib E) x := mkContrib (c_tau1 c) (c_alpha1 c) (c_beta1 c) x (c_beta2 c) (c_kt c) (c_ka c) (c_kb c) (c_hash c).
Definition s_beta2 (c : contrib E) x := mkContrib (c_tau1 c) (c_alpha1 c) (c_beta1 c) (c_tau2 c) x (c_kt c) (c_ka c) (c_kb c) (c_hash c).
Definition s_kt (c : contrib E) k := mkContrib (c_tau1 c) (c_alpha1 c) (c_beta1 c) (c_tau2 c) (c_beta2 c) k (c_ka c) (c_kb c) (c_hash c).
Definition s_ka (c : contrib E) k := mkContrib (c_tau1 c) (c_alpha1 c) (c_beta1 c) (c_tau2 c) (c_beta2 c) (c_kt c) k (c_kb c) (c_hash c).
Definition s_kb (c : contrib E) k := mkContrib (c_tau1 c) (c_alpha1 c) (c_beta1 c) (c_tau2 c) (c_beta2 c) (c_kt c) (c_ka c) k (c_hash c).
Definition s_hash (c : contrib E) h := mkContrib (c_tau1 c) (c_alpha1 c) (c_beta1 c) (c_tau2 c) (c_beta2 c) (c_kt c) (c_ka c) (c_kb c) h.
Definition s_S (k : key E) x := mkKey x (kSX k) (kSPX k).
Definition s_SX (k : key E) x := mkKey (kS k) x (kSPX k).
Definition s_SPX (k : key E) x := mkKey (kS k) (kSX k) x.

Definition p_tau1 := G1F (@c_tau1 E) s_tau1.
Definition p_alpha1 := G1F (@c_alpha1 E) s_alpha1.
Definition p_beta1 := G1F (@c_beta1 E) s_beta1.
Definition p_tau2 := G2F (@c_tau2 E) s_tau2.
Definition p_beta2 := G2F (@c_beta2 E) s_beta2.
Definition p_ktS := G1F (fun c => kS (c_kt c)) (fun c x => s_kt c (s_S (c_kt c) x)).
Definition p_ktSX := G1F (fun c => kSX (c_kt c)) (fun c x => s_kt c (s_SX (c_kt c) x)).
Definition p_ktSPX := G2F (fun c => kSPX (c_kt c)) (fun c x => s_kt c (s_SPX (c_kt c) x)).
Definition p_kaS := G1F (fun c => kS (c_ka c)) (fun c x => s_ka c (s_S (c_ka c) x)).
Definition p_kaSX := G1F (fun c => kSX (c_ka c)) (fun c x => s_ka c (s_SX (c_ka c) x)).
Definition p_kaSPX := G2F (fun c => kSPX (c_ka c)) (fun c x => s_ka c (s_SPX (c_ka c) x)).
Definition p_kbS := G1F (fun c => kS (c_kb c)) (fun c x => s_kb c (s_S (c_kb c) x)).
Definition p_kbSX := G1F (fun c => kSX (c_kb c)) (fun c x => s_kb c (s_SX (c_kb c) x)).
Definition p_kbSPX := G2F (fun c => kSPX (c_kb c)) (fun c x => s_kb c (s_SPX (c_kb c) x)).

Definition put (c : contrib E) (f : field) : bytes :=
  match f with G1F g _ => g1c (g c) | G2F g _ => g2c (g c) end.

(* contribution.go:28-44 *)
Definition toEncode : list field :=
  [p_tau1; p_alpha1; p_beta1; p_tau2; p_beta2; p_ktS; p_ktSX; p_ktSPX; p_kaS; p_kaSX; p_kaSPX; p_kbS; p_kbSX; p_kbSPX].
Definition write_contrib (o : nat) (c : contrib E) : io unit :=
  encodes o (map (put c) toEncode) ;;; write o (c_hash c).

(* contribution.go:56-83.  The receiver is updated field by field; [false] = an error was returned *)
Definition toDecode : list field :=
  [p_tau1; p_alpha1; p_beta1; p_tau2; p_beta2; p_ktS; p_ktSX; p_ktSPX; p_kaS; p_kaSX; p_kaSPX; p_kbS; p_kbSX; p_kbSPX].
Fixpoint read_fields (h : bool) (fs : list field) (c : contrib E) : io (contrib E * bool) :=
  match fs with
  | [] => Ret (c, true)
  | G1F g s :: fs' => '(x, ok) <- decode1_into h (g c) ;;
      if ok : bool then read_fields h fs' (s c x) else Ret (s c x, false)
  | G2F g s :: fs' => '(x, ok) <- decode2_into h (g c) ;;
      if ok : bool then read_fields h fs' (s c x) else Ret (s c x, false)
  end.
Definition zeros32 : bytes := repeat (b8 0) 32.
Definition read_contrib (h : bool) (c : contrib E) : io (contrib E * bool) :=
  '(c, ok) <- read_fields h toDecode c ;;
  if ok : bool then
    Rd h 32 (fun x => match x with
      | None => Ret (s_hash c zeros32, false)
      | Some b => Ret (s_hash c (b ++ skipn (length b) zeros32), true)
      end)
  else Ret (c, false).

(* contribution.go:85-110 *)
Definition toHash : list field :=
  [p_tau1; p_alpha1; p_beta1; p_tau2; p_beta2; p_ktS; p_ktSX; p_ktSPX; p_kaS; p_kaSX; p_kaSPX; p_kbS; p_kbSX; p_kbSPX].
Definition compute_hash (c : contrib E) : bytes := sha E (concat (map (put c) toHash)).

(* var c Contribution *)
Definition zero_key : key E := mkKey 0 0 0.
Definition zero_contrib : contrib E := mkContrib 0 0 0 0 0 zero_key zero_key zero_key [].

(* ---- phase1/utils.go ---- *)
(* utils.go:21-28; result[0] panics on n = 0 *)
Fixpoint powers_from (a b : E) (n : nat) : list E :=
  match n with O => [] | S n' => a :: powers_from (a * b) b n' end.
Definition powers (a b : E) (n : nat) : option (list E) :=
  match n with O => None | _ => Some (powers_from a b n) end.

(* utils.go:31-37 *)
Definition batch_mul (a : list E) (b : E) : option (list E) :=
  par_cells (length a) (ncpu E) (fun _ x => x * b) a.

(* an out-of-range access or a panicking callee *)
Definition orBoom {X Y} (o : option X) (k : X -> io Y) : io Y :=
  match o with Some x => k x | None => Boom end.

(* utils.go:39-100 and 102-154.  scaleG1 and scaleG2 are the same text for two point types; [dec n]
   decodes n points, [enc] encodes one, [mul] = multiplicand (always nil in G2).  [bs] = batchSize.
   buff keeps its stale tail in a short last batch. *)
Fixpoint scale_loop (bs : nat) (dec : nat -> io (list E)) (enc : E -> bytes) (o : nat) (tau : E) (mul : option E)
    (fuel remaining : nat) (buff : list E) (first start : E) : io E :=
  match remaining, fuel with
  | O, _ => Ret first
  | _, O => Ret first     (* not reached: fuel = N *)
  | _, S fuel' =>
    let n := Nat.min remaining bs in
    pts <- dec n ;;
    let buff := pts ++ skipn n buff in
    orBoom (powers start tau n) (fun scalars =>
    orBoom (nth_error scalars (n - 1)) (fun lst =>
    let start := lst * tau in
    orBoom (match mul with Some m => batch_mul scalars m | None => Some scalars end) (fun scalars =>
    orBoom (par_cells n (ncpu E) (fun i x => x * nth i scalars 0) buff) (fun buff =>
    encodes o (map enc (firstn n buff)) ;;;
    if feqb first 0 then
      orBoom (nth_error buff (match mul with None => 1 | Some _ => 0 end)) (fun first =>
      scale_loop bs dec enc o tau mul fuel' (remaining - n) buff first start)
    else scale_loop bs dec enc o tau mul fuel' (remaining - n) buff first start))))
  end.
(* make([]T, initialSize) panics for a negative size *)
Definition scale (bs : nat) dec enc o (N : Z) (tau : E) (mul : option E) : io E :=
  if (N <? 0)%Z then Boom else
  let n := Z.to_nat N in
  scale_loop bs dec enc o tau mul n n (repeat 0 (Nat.min n bs)) 0 1.
Definition scaleG1 (bs : nat) (h : bool) (o : nat) (N : Z) (tau : E) (mul : option E) : io E :=
  scale bs (decodes1 h) g1c o N tau mul.
Definition scaleG2 (bs : nat) (h : bool) (o : nat) (N : Z) (tau : E) : io E :=
  scale bs (decodes2 h) g2c o N tau None.

(* utils.go:156-162; rho i = the i-th sampled scalar *)
Definition randomize (rho : nat -> E) (r : list E) : option (list E) :=
  par_cells (length r) (ncpu E) (fun i _ => rho i) r.

(* utils.go:164-194 and 196-226 (same text).  MultiExp's error is dropped: the receiver keeps its
   value.  rho k = randomness of the batch that starts with k points remaining. *)
Fixpoint lincomb_loop (bs : nat) (dec : nat -> io (list E)) (rho : nat -> nat -> E)
    (fuel remaining : nat) (r : list E) (L1 L2 t1 t2 : E) : io (E * E) :=
  match remaining, fuel with
  | O, _ => Ret (L1, L2)
  | _, O => Ret (L1, L2)
  | _, S fuel' =>
    let n := Nat.min remaining bs in
    pts <- dec n ;;
    orBoom (randomize (rho remaining) r) (fun r =>
    let t1 := match mexp E (firstn (n - 1) pts) r with Some x => x | None => t1 end in
    let t2 := match mexp E (skipn 1 pts) r with Some x => x | None => t2 end in
    lincomb_loop bs dec rho fuel' (remaining - n) r (L1 + t1) (L2 + t2) t1 t2)
  end.
Definition lincomb (bs : nat) dec (rho : nat -> nat -> E) (N : Z) : io (E * E) :=
  if (N <? 0)%Z then Boom else
  let n := Z.to_nat N in
  lincomb_loop bs dec rho n n (repeat 0 (Nat.min n bs)) 0 0 0 0.
Definition linearCombinationG1 (bs : nat) (h : bool) rho N : io (E * E) := lincomb bs (decodes1 h) rho N.
Definition linearCombinationG2 (bs : nat) (h : bool) rho N : io (E * E) := lincomb bs (decodes2 h) rho N.

(* utils.go:228-269; None = nil error *)
Definition check {X} (b : bool) (e : X) (k : option X) : option X := if b then k else Some e.
Definition verify_contrib (cur prev : contrib E) : option err :=
  let tauSP := gen_sp (kS (c_kt cur)) (kSX (c_kt cur)) (c_hash prev) 1 in
  let alphaSP := gen_sp (kS (c_ka cur)) (kSX (c_ka cur)) (c_hash prev) 2 in
  let betaSP := gen_sp (kS (c_kb cur)) (kSX (c_kb cur)) (c_hash prev) 3 in
  check (same_ratio (kS (c_kt cur)) (kSX (c_kt cur)) (kSPX (c_kt cur)) tauSP) EKnowTau (
  check (same_ratio (kS (c_ka cur)) (kSX (c_ka cur)) (kSPX (c_ka cur)) alphaSP) EKnowAlpha (
  check (same_ratio (kS (c_kb cur)) (kSX (c_kb cur)) (kSPX (c_kb cur)) betaSP) EKnowBeta (
  check (same_ratio (c_tau1 cur) (c_tau1 prev) tauSP (kSPX (c_kt cur))) EUpdTau1 (
  check (same_ratio (c_alpha1 cur) (c_alpha1 prev) alphaSP (kSPX (c_ka cur))) EUpdAlpha (
  check (same_ratio (c_beta1 cur) (c_beta1 prev) betaSP (kSPX (c_kb cur))) EUpdBeta (
  check (same_ratio (kS (c_kt cur)) (kSX (c_kt cur)) (c_tau2 cur) (c_tau2 prev)) EUpdTau2 (
  check (same_ratio (kS (c_kb cur)) (kSX (c_kb cur)) (c_beta2 cur) (c_beta2 prev)) EUpdBeta2 (
  check (bytes_eqb (c_hash cur) (compute_hash cur)) EHash None)))))))).

(* utils.go:271-315 (transformG1 and transformG2, same text) *)
Fixpoint transform_loop (dec : io E) (enc : E -> bytes) (o : nat) (size : nat) : io unit :=
  match size with
  | O => Ret tt
  | S n => x <- dec ;; write o (enc x) ;;; transform_loop dec enc o n
  end.
Definition transform_section (dec : io E) (enc : E -> bytes) (pos : Z) (size : Z) : io unit :=
  seek A pos ;;;
  NewRd A defBuf (NewWr 0 defBuf (with_flush 0 (transform_loop dec enc 0 (Z.to_nat size)))).
Definition transformG1 := transform_section (decode1 A) g1c.
Definition transformG2 := transform_section (decode2 A) g2c.

(* ---- phase1/phase1.go ---- *)
(* phase1.go:17-83, after the two files were opened *)
Definition transform (inPower outPower : byte) : io unit :=
  write_header 0 outPower 0 ;;;
  let inN := pow2 inPower in
  let outN := pow2 outPower in
  let posTauG1 := 64%Z in
  let posTauG2 := wrap64 (posTauG1 + wrap64 (2 * inN - 1) * 64) in
  let posAlphaG1 := wrap64 (posTauG2 + inN * 128) in
  let posBetaG1 := wrap64 (posAlphaG1 + inN * 64) in
  let posBetaG2 := wrap64 (posBetaG1 + inN * 64) in
  transformG1 posTauG1 (wrap64 (2 * outN - 1)) ;;;
  transformG1 posAlphaG1 outN ;;;
  transformG1 posBetaG1 outN ;;;
  transformG2 posTauG2 outN ;;;
  transformG2 posBetaG2 1.

(* for i := 0; i < n; i++ { if err := enc.Encode(&g) ... } *)
Definition repeat_write (o : nat) (b : bytes) (n : Z) : io unit := encodes o (repeat b (Z.to_nat n)).
(* phase1.go:85-149, after the output was created; the header's and the last point's write errors
   are dropped *)
Definition initialize (power : byte) : io unit :=
  let N := pow2 power in
  try (write_header 0 power 0) ;;;
  NewWr 0 bigBuf (with_flush 0 (
    repeat_write 0 (g1c (1 : E)) (wrap64 (2 * N - 1)) ;;;
    repeat_write 0 (g1c (1 : E)) N ;;;
    repeat_write 0 (g1c (1 : E)) N ;;;
    repeat_write 0 (g2c (1 : E)) N ;;;
    write_ 0 (g2c (1 : E)))).

(* randomness of Contribute *)
Record rnd1 := mkRnd1 { r_tau : E; r_alpha : E; r_beta : E; r_st : E; r_sa : E; r_sb : E }.

(* phase1.go:243-250 *)
Fixpoint copy_contribs (h : bool) (o : nat) (n : nat) (c : contrib E) : io (contrib E) :=
  match n with
  | O => Ret c
  | S n' =>
    '(c, ok) <- read_contrib h c ;;
    if ok : bool then write_contrib o c ;;; copy_contribs h o n' c else Throw EEof
  end.

(* phase1.go:151-273, after both files were opened; returns the printed hash *)
Definition contribute (bs : nat) (w : rnd1) : io bytes :=
  '(pw, n) <- read_header A ;;
  let N := pow2 pw in
  let n1 := ((n + 1) mod 65536)%N in          (* header.Contributions++ on uint16 *)
  write_header 0 pw n1 ;;;
  NewRd A defBuf (NewWr 0 defBuf (with_flush 0 (
    let '(mkRnd1 tau alpha beta st sa sb) := w in
    first1 <- scaleG1 bs A 0 (wrap64 (2 * N - 1)) tau None ;;
    let contribution := s_tau1 zero_contrib first1 in
    first1 <- scaleG1 bs A 0 N tau (Some alpha) ;;
    let contribution := s_alpha1 contribution first1 in
    first1 <- scaleG1 bs A 0 N tau (Some beta) ;;
    let contribution := s_beta1 contribution first1 in
    first2 <- scaleG2 bs A 0 N tau ;;
    let contribution := s_tau2 contribution first2 in
    betaG2 <- decode2 A ;;
    let betaG2 := betaG2 * beta in
    write 0 (g2c betaG2) ;;;
    let contribution := s_beta2 contribution betaG2 in
    let existing := ((n1 + 65535) mod 65536)%N in   (* int(header.Contributions - 1) *)
    c <- copy_contribs A 0 (N.to_nat existing) zero_contrib ;;
    let prevHash := if (existing =? 0)%N then [] else c_hash c in
    let contribution := s_kt contribution (gen_key tau st prevHash 1) in
    let contribution := s_ka contribution (gen_key alpha sa prevHash 2) in
    let contribution := s_kb contribution (gen_key beta sb prevHash 3) in
    let contribution := s_hash contribution (compute_hash contribution) in
    try (write_contrib 0 contribution) ;;;           (* error dropped *)
    Ret (c_hash contribution)))).

(* contribution.go:112-191.  None: empty path; Some false: the file cannot be opened.  The file is
   read unbuffered. *)
Definition default_contrib (trans : option bool) : io (contrib E) :=
  match trans with
  | None =>
    let c := s_tau1 zero_contrib 1 in
    let c := s_alpha1 c 1 in let c := s_beta1 c 1 in
    let c := s_tau2 c 1 in let c := s_beta2 c 1 in Ret c
  | Some false => Throw ENoFile
  | Some true =>
    '(pw, _) <- read_header B ;;
    let N := pow2 pw in
    let posTauG1 := (3 + 32)%Z in
    let posAlphaG1 := wrap64 (posTauG1 + wrap64 (2 * N - 2) * 32) in
    let posBetaG1 := wrap64 (posAlphaG1 + N * 32) in
    let posTauG2 := wrap64 (posBetaG1 + N * 32 + 64) in
    let posBetaG2 := wrap64 (posTauG2 + wrap64 (N - 1) * 64) in
    seek B posTauG1 ;;; t1 <- decode1 B ;;
    seek B posAlphaG1 ;;; a1 <- decode1 B ;;
    seek B posBetaG1 ;;; b1 <- decode1 B ;;
    seek B posTauG2 ;;; t2 <- decode2 B ;;
    seek B posBetaG2 ;;; b2 <- decode2 B ;;
    Ret (mkContrib t1 a1 b1 t2 b2 zero_key zero_key zero_key [])
  end.

(* phase1.go:332-339; ReadFrom's error is dropped.  Returns the last record and the printed hashes *)
Fixpoint verify_chain (n : nat) (cur prev : contrib E) : io (contrib E * list bytes) :=
  match n with
  | O => Ret (cur, [])
  | S n' =>
    '(cur, _) <- read_contrib A cur ;;
    match verify_contrib cur prev with
    | Some e => Throw e
    | None => '(c, hs) <- verify_chain n' cur cur ;; Ret (c, c_hash cur :: hs)
    end
  end.

(* phase1.go:275-375, after the input was opened; rho s = randomness for section s *)
Definition require (b : bool) (e : err) : io unit := if b then Ret tt else Throw e.
Definition verify (bs : nat) (rho : nat -> nat -> nat -> E) (trans : option bool) : io (list bytes) :=
  '(pw, n) <- read_header A ;;
  let N := pow2 pw in
  NewRd A bigBuf (
    '(t1L1, t1L2) <- linearCombinationG1 bs A (rho 0%nat) (wrap64 (2 * N - 1)) ;;
    '(a1L1, a1L2) <- linearCombinationG1 bs A (rho 1%nat) N ;;
    '(b1L1, b1L2) <- linearCombinationG1 bs A (rho 2%nat) N ;;
    '(t2L1, t2L2) <- linearCombinationG2 bs A (rho 3%nat) N ;;
    betaG2 <- decode2 A ;;
    prev <- default_contrib trans ;;
    '(cur, hs) <- verify_chain (N.to_nat n) zero_contrib prev ;;
    require (same_ratio t1L1 t1L2 (c_tau2 cur) 1) EPairing ;;;
    require (same_ratio a1L1 a1L2 (c_tau2 cur) 1) EPairing ;;;
    require (same_ratio b1L1 b1L2 (c_tau2 cur) 1) EPairing ;;;
    require (same_ratio 1 (c_tau1 cur) t2L1 t2L2) EPairing ;;;
    require (feqb betaG2 (c_beta2 cur)) EBetaG2 ;;;
    Ret hs).
End Phase1.
