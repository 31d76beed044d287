(* Init2.v -- phase-2 initialisation: /repo/phase2/utils.go, lagrange.go, parted.go and Initialize.
   Files: handle false = phase 1, handle true = srs.lag; outputs 0 = phase 2, 1 = srs.lag,
   2 = evals.  Messages are not modelled. *)
From Verif Require Import Base Fld Conc Parallel BitRev FFT IO Ext Spec1 Phase1 Phase1Io Gob Circuit Spec3 Fs.
Local Open Scope fld_scope.
Local Open Scope io_scope.

(* utils.go:24-35; [fuel] = remaining iterations *)
Fixpoint np2 (fuel : nat) (res number : Z) : option Z :=
  match fuel with
  | 0 => None
  | S f => if (number <=? res)%Z then Some res else np2 f (wrap64 (res * 2)) number
  end.
Definition next_pow2 (number : Z) : option Z := np2 27 2 number.

(* gnark constraint.Commitment.Is, PrivateCommitted *)
Definition is_cmt (c : commitment) : bool := negb (length (cm_committed c) =? 0).
Definition priv_committed (c : commitment) : option (list nat) :=
  if cm_nbpriv c <=? length (cm_committed c)
  then Some (skipn (length (cm_committed c) - cm_nbpriv c) (cm_committed c)) else None.

(* utils.go:538-559: the three slices under construction *)
Record split (K : Type) := mkSplit { s_pkk : list K; s_vkk : list K; s_ckk : list K; s_v : nat; s_c : nat }.
Arguments mkSplit {K}. Arguments s_pkk {K}. Arguments s_vkk {K}. Arguments s_ckk {K}. Arguments s_v {K}. Arguments s_c {K}.

Section Init2.
Context {E : Ext2}.
Notation A := false (only parsing).   (* phase1File *)
Notation B := true (only parsing).    (* lagFile *)

(* gnark-crypto encoder on slices: uint32 length, then the points *)
Definition write_slice (o : nat) (pts : list bytes) : io unit :=
  write o (be32 (N.of_nat (length pts))) ;;; encodes o pts.
Definition write_slice1 (o : nat) (l : list E) : io unit := write_slice o (map g1c l).
Definition write_slice2 (o : nat) (l : list E) : io unit := write_slice o (map g2c l).
(* gnark-crypto decoder on slices.  The library reads all points before it decompresses any; this
   only matters for which error is returned. *)
Definition read_slice1 (h : bool) : io (list E) :=
  b <- readfull h 4 ;; decodes1 h (N.to_nat (be_val 0 b)).
Definition read_slice2 (h : bool) : io (list E) :=
  b <- readfull h 4 ;; decodes2 h (N.to_nat (be_val 0 b)).

(* utils.go:64-73, parted.go:85-94; int overflow of the sums is not modelled *)
Definition header2_of (cs : r1cs E) (nb dom : Z) : hdr :=
  let c := r_cmt cs in
  let privc := Z.of_nat (cm_nbpriv c) in
  let pub := Z.of_nat (nb_public cs) in
  let wit := (Z.of_nat (nb_secret cs) + Z.of_nat (nb_internal cs) - privc)%Z in
  let wires := (Z.of_nat (nb_internal cs) + Z.of_nat (nb_public cs) + Z.of_nat (nb_secret cs))%Z in
  if is_cmt c then mkHdr wires (wit - 1) (pub + 1) privc nb dom 0
  else mkHdr wires wit pub privc nb dom 0.

(* utils.go:53-81 after the circuit has been read (nb = its number of constraints);
   parted.go:67-104 (nb = nbCons) *)
Definition process_header (cs : r1cs E) (nb : Z) : io (byte * hdr) :=
  orBoom (next_pow2 nb) (fun dom =>
  '(pw, _) <- read_header A ;;
  if (pow2 pw <? nb)%Z then Throw EConstraints
  else let h := header2_of cs nb dom in
       write_hdr 0 h ;;; Ret (pw, h)).

(* fft.NewDomain(uint64(m)): log2 of the cardinality; None = panic *)
Definition new_domain (m : Z) : option nat :=
  if (m <? 0)%Z then None
  else let k := Z.to_nat (Z.log2_up m) in if kmax E <? k then None else Some k.
Definition domain_of (k : nat) : domain E := mk_domain k (finv (root k)).

(* lagrange.go:13-38 and 40-66, the same text for two point types *)
Definition lagrange_section (dec : nat -> io (list E)) (enc : list E -> io unit) (pos : Z) (k : nat) : io unit :=
  seek A pos ;;;
  NewRd A defBuf (NewWr 1 defBuf (with_flush 1 (
    buff <- dec (2 ^ k)%nat ;;
    orBoom (convert (ncpu E) (domain_of k) buff) enc))).
Definition lagrangeG1 : Z -> nat -> io unit := lagrange_section (decodes1 A) (write_slice1 1).
Definition lagrangeG2 : Z -> nat -> io unit := lagrange_section (decodes2 A) (write_slice2 1).

(* utils.go:84-123 after NewDomain and os.Create *)
Definition process_lagrange (pw : byte) (k : nat) : io unit :=
  let N := pow2 pw in
  let pos0 := 3%Z in
  lagrangeG1 pos0 k ;;;
  let pos1 := wrap64 (pos0 + wrap64 (32 * wrap64 (2 * N - 1))) in
  lagrangeG1 pos1 k ;;;
  let pos2 := wrap64 (pos1 + wrap64 (32 * N)) in
  lagrangeG1 pos2 k ;;;
  let pos3 := wrap64 (pos2 + wrap64 (32 * N)) in
  lagrangeG2 pos3 k.

(* utils.go:561-597; unbuffered *)
Definition read_phase1 (pw : byte) : io (E * E * E) :=
  let N := pow2 pw in
  let posAlpha := wrap64 (3 + wrap64 (32 * wrap64 (2 * N - 1))) in
  let posBeta1 := wrap64 (posAlpha + wrap64 (32 * N)) in
  let posBeta2 := wrap64 (posBeta1 + wrap64 (96 * N)) in
  seek A posAlpha ;;;
  alpha <- decode1 A ;;
  seek A posBeta1 ;;;
  beta1 <- decode1 A ;;
  seek A posBeta2 ;;;
  beta2 <- decode2 A ;;
  Ret (alpha, beta1, beta2).

(* utils.go:375-413 (cs = the circuit); the constants are those of gnark constraint: CoeffIdZero = 0, CoeffIdOne = 1,
   CoeffIdTwo = 2, CoeffIdMinusOne = 3.  None = index out of range (panic). *)
Section Accumulate.
Variable cs : r1cs E.
Definition accumulate (res : E) (t : term) (value : E) : option E :=
  match t_coeff t with
  | 0 => Some res
  | 1 => Some (res + value)
  | 3 => Some (res - value)
  | 2 => Some (res + value + value)
  | cID => match nth_error (r_coeffs cs) cID with
           | Some c => Some (res + value * c)
           | None => None
           end
  end.
(* for _, t := range ts { accumulate(&buff[t.WireID()], t, &srs[i]) } *)
Fixpoint acc_terms (srs : list E) (i : nat) (ts : list term) (buff : list E) : option (list E) :=
  match ts with
  | [] => Some buff
  | t :: ts' =>
    match nth_error buff (t_wire t), nth_error srs i with
    | Some r, Some v =>
      match accumulate r t v with
      | Some x => acc_terms srs i ts' (upd buff (t_wire t) x)
      | None => None
      end
    | _, _ => None
    end
  end.
(* for i, c := range r1cs.Constraints { ... }; [sel] picks c.L, c.R or c.O *)
Fixpoint acc_cons (sel : r1c -> list term) (srs : list E) (i : nat) (cons : list r1c)
  (buff : list E) : option (list E) :=
  match cons with
  | [] => Some buff
  | c :: cons' =>
    match acc_terms srs i (sel c) buff with
    | Some buff' => acc_cons sel srs (S i) cons' buff'
    | None => None
    end
  end.
End Accumulate.
(* The constraints visited by the parted loops: for i := 0; i < nbCons; i++
   { c := r1cs.GetConstraintToSolve(i) }, taken to be the i-th constraint; None = out of range.
   The list is built before the accumulation starts, which can only change which panic comes first. *)
Fixpoint get_all (cons : list r1c) (i : nat) (n : nat) : option (list r1c) :=
  match n with
  | 0 => Some []
  | S n' => match nth_error cons i, get_all cons (S i) n' with
            | Some c, Some l => Some (c :: l)
            | _, _ => None
            end
  end.
Definition parted_cons (cs : r1cs E) (nbCons : Z) : option (list r1c) :=
  get_all (r_cons cs) 0 (Z.to_nat nbCons).

Definition zeros (n : Z) : list E := repeat (0 : E) (Z.to_nat n).

(* utils.go:140-156, parted.go:121-137 *)
Definition process_eval_head (pw : byte) : io unit :=
  '(alpha, beta1, beta2) <- read_phase1 pw ;;
  encodes 2 [g1c alpha; g1c beta1; g2c beta2].
(* utils.go:171-224 with cons = r1cs.Constraints, parted.go:139-197; srs.lag is read unbuffered *)
Definition process_eval_body (cs : r1cs E) (cons : option (list r1c)) (h : hdr) : io unit :=
  tauG1 <- read_slice1 B ;;
  orBoom cons (fun cons =>
  orBoom (acc_cons cs r_L tauG1 0 cons (zeros (h_wires h))) (fun bufA =>
  write_slice1 2 bufA ;;;
  orBoom (acc_cons cs r_R tauG1 0 cons (zeros (h_wires h))) (fun bufB =>
  write_slice1 2 bufB ;;;
  Fwd B (Z.to_nat (2 * 32 * h_domain h + 2 * 4)) (
  tauG2 <- read_slice2 B ;;
  orBoom (acc_cons cs r_R tauG2 0 cons (zeros (h_wires h))) (fun buf2 =>
  write_slice2 2 buf2))))).

(* utils.go:229-275 *)
Definition process_delta_z (h : hdr) : io unit :=
  NewWr 0 defBuf (with_flush 0 (
    write 0 (g1c (1 : E)) ;;;
    write 0 (g2c (1 : E)) ;;;
    seek A 3 ;;;
    NewRd A defBuf (
      let n := Z.to_nat (h_domain h) in
      tauG1 <- decodes1 A (2 * n - 1)%nat ;;
      let Z := map (fun i => nth (i + n)%nat tauG1 0 - nth i tauG1 0) (seq 0 (n - 1)%nat) ++ repeat (0 : E) (n - (n - 1))%nat in
      orBoom (bit_reverse Z) (fun Z =>
      encodes 0 (map g1c (firstn (n - 1)%nat Z)))))).

(* utils.go:538-559 *)
Definition set_at (l : list E) (i : nat) (x : E) : option (list E) :=
  if i <? length l then Some (upd l i x) else None.
(* cI < cmtInfo.NbPrivateCommitted && i == cmtInfo.PrivateCommitted()[i] *)
Definition committed_private (c : commitment) (cI i : nat) : option bool :=
  if cI <? cm_nbpriv c then
    match priv_committed c with
    | Some l => match nth_error l i with Some w => Some (i =? w) | None => None end
    | None => None
    end
  else Some false.
Definition filter_step (h : hdr) (c : commitment) (i : nat) (x : E) (s : split E) : option (split E) :=
  match committed_private c (s_c s) i with
  | None => None
  | Some true =>
      match set_at (s_ckk s) (s_c s) x with
      | Some l => Some (mkSplit (s_pkk s) (s_vkk s) l (s_v s) (S (s_c s)))
      | None => None
      end
  | Some false =>
      if (is_cmt c && (i =? cm_index c)) || (Z.of_nat i <? h_public h)%Z then
        match set_at (s_vkk s) (s_v s) x with
        | Some l => Some (mkSplit (s_pkk s) l (s_ckk s) (S (s_v s)) (s_c s))
        | None => None
        end
      else
        match set_at (s_pkk s) (i - s_c s - s_v s)%nat x with
        | Some l => Some (mkSplit l (s_vkk s) (s_ckk s) (s_v s) (s_c s))
        | None => None
        end
  end.
Fixpoint filter_loop (h : hdr) (c : commitment) (i : nat) (L : list E) (s : split E) : option (split E) :=
  match L with
  | [] => Some s
  | x :: L' => match filter_step h c i x s with Some s' => filter_loop h c (S i) L' s' | None => None end
  end.
Definition filterL (L : list E) (h : hdr) (c : commitment) : option (list E * list E * list E) :=
  if ((h_witness h <? 0) || (h_public h <? 0) || (h_privc h <? 0))%Z then None   (* make panics *)
  else match filter_loop h c 0 L (mkSplit (zeros (h_witness h)) (zeros (h_public h)) (zeros (h_privc h)) 0 0) with
       | Some s => Some (s_pkk s, s_vkk s, s_ckk s)
       | None => None
       end.

(* utils.go:296-372 after the circuit has been read, parted.go:210-289.  evals is written through a
   bufio.Writer opened for appending; that it can be opened is clear, it was created before. *)
Definition process_pvckk (cs : r1cs E) (cons : option (list r1c)) (h : hdr) : io unit :=
  NewRd B defBuf (NewWr 0 defBuf (with_flush 0 (
    srs <- read_slice1 B ;;
    orBoom cons (fun cons =>
    orBoom (acc_cons cs r_O srs 0 cons (zeros (h_wires h))) (fun L1 =>
    srs <- read_slice1 B ;;
    orBoom (acc_cons cs r_R srs 0 cons L1) (fun L2 =>
    srs <- read_slice1 B ;;
    orBoom (acc_cons cs r_L srs 0 cons L2) (fun L =>
    orBoom (filterL L h (r_cmt cs)) (fun '(pkk, vkk, ckk) =>
    encodes 0 (map g1c pkk) ;;;
    NewWr 2 defBuf (with_flush 2 (
      write_slice1 2 vkk ;;;
      write_slice1 2 ckk ;;;
      write 2 (cmt_bytes (e := E) (r_cmt cs)))))))))))).
End Init2.

(* ---- the commands ---- *)
Section Cmd.
Context {E : Ext2}.
Local Open Scope cmd_scope.

(* os.Open(r1csPath); r1cs.ReadFrom *)
Definition read_r1cs (p : string) : cmd (r1cs E) :=
  copen p ;;; fun f => match parse_r1cs (contents f p) with Some cs => (Ok cs, f) | None => (Err ER1cs, f) end.

(* utils.go:84-123 *)
Definition c_lagrange (p1 p2 : string) (pw : byte) (h : hdr) : cmd unit :=
  match new_domain (E := E) (h_domain h) with
  | None => cboom
  | Some k => ccreate lag_path ;;; stage (process_lagrange (E := E) pw k) p1 p1 [p2; lag_path]
  end.
(* the five steps; [circuit] = reading the circuit where a step does so, [cons] = the constraints its
   loops visit, [nb] = number of constraints *)
Definition init_steps (circuit : cmd (r1cs E)) (cons : r1cs E -> option (list r1c)) (nb : r1cs E -> Z)
  (p1 p2 : string) : cmd unit :=
  cs <- circuit ;;
  '(pw, h) <- stage (process_header cs (nb cs)) p1 p1 [p2] ;;
  c_lagrange p1 p2 pw h ;;;
  copen lag_path ;;; ccreate evals_path ;;;
  stage (process_eval_head (E := E) pw) p1 lag_path [p2; lag_path; evals_path] ;;;
  cs <- circuit ;;
  stage (process_eval_body cs (cons cs) h) p1 lag_path [p2; lag_path; evals_path] ;;;
  stage (process_delta_z (E := E) h) p1 lag_path [p2; lag_path; evals_path] ;;;
  copen lag_path ;;;
  cs <- circuit ;;
  stage (process_pvckk cs (cons cs) h) p1 lag_path [p2; lag_path; evals_path].

(* phase2.go:15-56 *)
Definition p2n (p1 r1 p2 : string) : cmd unit :=
  copen p1 ;;; ccreate p2 ;;;
  init_steps (read_r1cs r1) (fun cs => Some (r_cons cs)) (fun cs => Z.of_nat (length (r_cons cs))) p1 p2.
(* parted.go:17-64; cs = what LoadFromSplitBinaryConcurrent loaded *)
Definition p2np (cs : r1cs E) (p1 p2 : string) (nbCons : Z) : cmd unit :=
  copen p1 ;;; ccreate p2 ;;;
  init_steps (cret cs) (fun cs => parted_cons cs nbCons) (fun _ => nbCons) p1 p2.
End Cmd.
