(* Phase2.v -- phase2.Contribute and phase2.Verify with their helpers.
   Contribute: input = handle false, output = 0.  Verify: input = handle false, origin = handle true.
   Printed messages are not modelled, except that Contribute returns the hash it prints and Verify
   the list of hashes it prints. *)
From Verif Require Import Base Fld Conc Parallel IO Ext Spec1 Phase1 Gob Circuit Spec2.
Local Open Scope fld_scope.
Local Open Scope io_scope.

Section Phase2.
Context {E : Ext2}.
Notation A := false (only parsing).
Notation B := true (only parsing).

(* header.go:18-24 *)
Definition read_hdr2 (h : bool) : io hdr := read_hdr (@gob_alt E) h.

(* ---- phase2/contribution.go ---- *)
(* contribution.go:17-33 *)
Definition put2 (c : contrib2 E) : list bytes :=
  [g1c (d_delta c); g1c (kS (d_key c)); g1c (kSX (d_key c)); g2c (kSPX (d_key c))].
Definition write_contrib2 (o : nat) (c : contrib2 E) : io unit :=
  encodes o (put2 c) ;;; write o (d_hash c).
(* contribution.go:35-52.  Every caller stops at an error, so the partly filled receiver is not
   modelled.  The hash is read by one Read; a short read leaves zeros. *)
Definition read_contrib2 (h : bool) : io (contrib2 E) :=
  delta <- decode1 h ;;
  s <- decode1 h ;;
  sx <- decode1 h ;;
  spx <- decode2 h ;;
  Rd h 32 (fun x => match x with
    | None => Throw EEof
    | Some b => Ret (mkC2 delta (mkKey s sx spx) (b ++ skipn (length b) zeros32))
    end).
(* contribution.go:54-69 *)
Definition compute_hash2 (c : contrib2 E) : bytes :=
  sha E (concat [g1c (d_delta c); g1c (kS (d_key c)); g1c (kSX (d_key c)); g2c (kSPX (d_key c))]).
(* var c Contribution *)
Definition zero_contrib2 : contrib2 E := mkC2 0 zero_key [].

(* ---- phase2/utils.go ---- *)
(* utils.go:415-450; [bs] = batchSize; buff keeps its stale tail in a short last batch *)
Fixpoint scale2_loop (bs : nat) (h : bool) (o : nat) (delta : E) (fuel remaining : nat) (buff : list E) : io unit :=
  match remaining, fuel with
  | O, _ => Ret tt
  | _, O => Ret tt      (* not reached: fuel = N *)
  | _, S fuel' =>
    let n := Nat.min remaining bs in
    pts <- decodes1 h n ;;
    let buff := pts ++ skipn n buff in
    orBoom (par_cells n (ncpu E) (fun _ x => x * delta) buff) (fun buff =>
    encodes o (map g1c (firstn n buff)) ;;;
    scale2_loop bs h o delta fuel' (remaining - n) buff)
  end.
(* make panics for a negative size *)
Definition scale2 (bs : nat) (h : bool) (o : nat) (N : Z) (delta : E) : io unit :=
  if (N <? 0)%Z then Boom else
  let n := Z.to_nat N in scale2_loop bs h o delta n n (repeat 0 (Nat.min n bs)).

(* utils.go:452-472; None = nil error *)
Definition verify_contrib2 (c : contrib2 E) (prevDelta : E) (prevHash : bytes) : option err :=
  let sp := gen_sp (kS (d_key c)) (kSX (d_key c)) prevHash 1 in
  check (same_ratio (kS (d_key c)) (kSX (d_key c)) (kSPX (d_key c)) sp) EKnowDelta (
  check (same_ratio (d_delta c) prevDelta sp (kSPX (d_key c))) EUpdDelta (
  check (bytes_eqb (d_hash c) (compute_hash2 c)) EHash None)).

(* utils.go:486-536.  r has the length of the whole section; rho k = randomness of the batch that
   starts with k points remaining.  MultiExp's receiver is only used when it succeeds. *)
Fixpoint aggregate_loop (bs : nat) (rho : nat -> nat -> E) (fuel remaining : nat) (r : list E) (inG orG : E) : io (E * E) :=
  match remaining, fuel with
  | O, _ => Ret (inG, orG)
  | _, O => Ret (inG, orG)
  | _, S fuel' =>
    orBoom (randomize (rho remaining) r) (fun r =>
    let n := Nat.min remaining bs in
    ins <- decodes1 A n ;;
    match mexp E ins (firstn n r) with
    | None => Throw EDecode
    | Some t =>
      let inG := inG + t in
      ors <- decodes1 B n ;;
      match mexp E ors (firstn n r) with
      | None => Throw EDecode
      | Some t => aggregate_loop bs rho fuel' (remaining - n) r inG (orG + t)
      end
    end)
  end.
Definition aggregate (bs : nat) (rho : nat -> nat -> E) (size : Z) : io (E * E) :=
  if (size <? 0)%Z then Boom else
  let n := Z.to_nat size in aggregate_loop bs rho n n (repeat 0 n) 0 0.
(* utils.go:474-484; an error of aggregate is swallowed: "return nil" *)
Definition verify_param (bs : nat) (rho : nat -> nat -> E) (delta g : E) (size : Z) (e : err) : io unit :=
  o <- try (aggregate bs rho size) ;;
  match o with
  | None => Ret tt
  | Some (i, r) => require (same_ratio i r delta g) e
  end.

(* ---- phase2/phase2.go ---- *)
(* phase2.go:133-141 *)
Fixpoint copy_contribs2 (h : bool) (o : nat) (n : nat) (c : contrib2 E) : io (contrib2 E) :=
  match n with
  | O => Ret c
  | S n' => c <- read_contrib2 h ;; write_contrib2 o c ;;; copy_contribs2 h o n' c
  end.
(* phase2.go:58-163, after both files were opened; d, s = the sampled scalars; returns the hash *)
Definition contribute2 (bs : nat) (d s : E) : io bytes :=
  NewRd A defBuf (NewWr 0 defBuf (with_flush 0 (
    header <- read_hdr2 A ;;
    let header := set_contribs header (wrap64 (h_contribs header + 1)) in
    write_hdr 0 header ;;;
    let deltaInv := finv d in
    delta1 <- decode1 A ;;
    let delta1 := delta1 * d in
    write 0 (g1c delta1) ;;;
    delta2 <- decode2 A ;;
    let delta2 := delta2 * d in
    write 0 (g2c delta2) ;;;
    scale2 bs A 0 (wrap64 (h_domain header - 1)) deltaInv ;;;
    scale2 bs A 0 (h_witness header) deltaInv ;;;
    let existing := wrap64 (h_contribs header - 1) in
    c <- copy_contribs2 A 0 (Z.to_nat existing) zero_contrib2 ;;
    let prevHash := if (existing =? 0)%Z then [] else d_hash c in
    let contribution := mkC2 delta1 (gen_key d s prevHash 1) [] in
    let contribution := mkC2 (d_delta contribution) (d_key contribution) (compute_hash2 contribution) in
    try (write_contrib2 0 contribution) ;;;           (* error dropped *)
    Ret (d_hash contribution)))).

(* phase2.go:236-249; returns the last Delta and the printed hashes.  [last] = c.Delta, the zero value
   (identity) before the first iteration *)
Fixpoint verify_chain2 (n : nat) (last prevDelta : E) (prevHash : bytes) : io (E * list bytes) :=
  match n with
  | O => Ret (last, [])
  | S n' =>
    c <- read_contrib2 A ;;
    match verify_contrib2 c prevDelta prevHash with
    | Some e => Throw e
    | None => '(x, hs) <- verify_chain2 n' (d_delta c) (d_delta c) (d_hash c) ;; Ret (x, d_hash c :: hs)
    end
  end.
(* phase2.go:165-259, after both files were opened; rho 0 / rho 1 = randomness for Z / PKK *)
Definition verify2 (bs : nat) (rho : nat -> nat -> nat -> E) : io (list bytes) :=
  NewRd A defBuf (NewRd B defBuf (
    cur <- read_hdr2 A ;;
    org <- read_hdr2 B ;;
    require (negb (h_contribs cur =? 0)%Z) ENoContrib ;;;
    require (hdr_eqb cur org) EHeader ;;;
    g1 <- decode1 B ;;
    g2 <- decode2 B ;;
    d1 <- decode1 A ;;
    d2 <- decode2 A ;;
    require (same_ratio g1 d1 d2 g2) EDelta ;;;
    verify_param bs (rho 0%nat) d2 g2 (wrap64 (h_domain cur - 1)) EInconsZ ;;;
    verify_param bs (rho 1%nat) d2 g2 (h_witness cur) EInconsPKK ;;;
    '(delta, hs) <- verify_chain2 (Z.to_nat (h_contribs cur)) 0 g1 [] ;;
    require (feqb delta d1) ELastDelta ;;;
    Ret hs)).
End Phase2.
