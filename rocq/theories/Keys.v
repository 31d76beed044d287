(* Keys.v -- /repo/keys/keys.go: extraction of the proving and verifying keys.
   Handle false = phase-2 file, handle true = evals.  Messages are not modelled. *)
From Coq Require String.
From Verif Require Import Base Fld IO Ext Spec1 Phase1 Gob Circuit Spec2 Phase2 Spec3 Fs Init2 Spec4.
Local Open Scope fld_scope.
Local Open Scope io_scope.

(* uint64(z) *)
Definition u64 (z : Z) : N := Z.to_N (z mod 18446744073709551616).

(* int arithmetic on 32-bit machines *)
Definition wrap32 (z : Z) : Z := ((z + 2147483648) mod 4294967296 - 2147483648)%Z.

Section Keys.
Context {E : Ext2}.
Notation A := false (only parsing).   (* phase2File *)
Notation B := true (only parsing).    (* evalsFile *)

(* keys.go:706-719 and 721-735, the same text for two point types; j <= i < len(buff), so both
   updates are in range *)
Fixpoint filter_inf_loop (i j : nat) (l : list E) (filtered : list E) (infinityAt : list bool) : list E * list bool * nat :=
  match l with
  | [] => (filtered, infinityAt, j)
  | e :: l' =>
    if feqb e 0 then filter_inf_loop (S i) j l' filtered (upd infinityAt i true)
    else filter_inf_loop (S i) (S j) l' (upd filtered j e) infinityAt
  end.
Definition filterInfinity (buff : list E) : list E * list bool * N :=
  let '(filtered, infinityAt, j) := filter_inf_loop 0 0 buff (repeat 0 (length buff)) (repeat false (length buff)) in
  (firstn j filtered, infinityAt, N.of_nat (length buff - j)).

(* buffG1 = make([]bn254.G1Affine, n); for i := 0; i < n; i++ { decPh2.Decode(&buffG1[i]) } *)
Definition read_n (n : Z) : io (list E) := if (n <? 0)%Z then Boom else decodes1 A (Z.to_nat n).

(* keys.go:73-238 after both files were opened; output 0 = pk, which is created after the header was
   read.  domain.WriteTo is one write whose error is dropped. *)
Definition extract_pk : io unit :=
  NewRd A defBuf (NewRd B defBuf (
  header <- read_hdr2 (E := E) A ;;
  NewWr 0 defBuf (with_flush 0 (
  orBoom (new_domain (E := E) (h_domain header)) (fun k =>
  write_ 0 (dom_bytes (e := E) k) ;;;
  alphaG1 <- decode1 (E := E) B ;;
  write 0 (g1c alphaG1) ;;;
  betaG1 <- decode1 (E := E) B ;;
  write 0 (g1c betaG1) ;;;
  deltaG1 <- decode1 (E := E) A ;;
  write 0 (g1c deltaG1) ;;;
  betaG2 <- decode2 (E := E) B ;;
  deltaG2 <- decode2 (E := E) A ;;
  buffG1 <- read_slice1 B ;;
  let '(buffG1, infinityA, nbInfinityA) := filterInfinity buffG1 in
  write_slice1 0 buffG1 ;;;
  buffG1 <- read_slice1 B ;;
  let '(buffG1, infinityB, nbInfinityB) := filterInfinity buffG1 in
  write_slice1 0 buffG1 ;;;
  buffG1 <- read_n (wrap64 (h_domain header - 1)) ;;
  write_slice1 0 buffG1 ;;;
  buffG1 <- read_n (h_witness header) ;;
  write_slice1 0 buffG1 ;;;
  write 0 (g2c betaG2) ;;;
  write 0 (g2c deltaG2) ;;;
  buffG2 <- read_slice2 B ;;
  let '(buffG2, _, _) := filterInfinity buffG2 in
  write_slice2 0 buffG2 ;;;
  write 0 (be64 (u64 (h_wires header))) ;;;
  write 0 (be64 nbInfinityA) ;;;
  write 0 (be64 nbInfinityB) ;;;
  write 0 (bools infinityA) ;;;
  write 0 (bools infinityB)))))).

(* bn254.NewEncoder(w, bn254.RawEncoding()) on slices *)
Definition write_raw1 (o : nat) (l : list E) : io unit := write_slice o (map g1r l).
Definition write_raw2 (o : nat) (l : list E) : io unit := write_slice o (map g2r l).

(* keys.go:240-462 likewise; outputs 0..5 = session.pk.{E,A,B1,Z,K,B2}.save, flushed in reverse order *)
Definition extract_split_pk : io unit :=
  NewRd A defBuf (NewRd B defBuf (
  header <- read_hdr2 (E := E) A ;;
  NewWr 0 defBuf (with_flush 0 (NewWr 1 defBuf (with_flush 1 (NewWr 2 defBuf (with_flush 2 (
  NewWr 3 defBuf (with_flush 3 (NewWr 4 defBuf (with_flush 4 (NewWr 5 defBuf (with_flush 5 (
  write 0 (be64 (u64 (h_domain header))) ;;;
  alphaG1 <- decode1 (E := E) B ;;
  write 0 (g1r alphaG1) ;;;
  betaG1 <- decode1 (E := E) B ;;
  write 0 (g1r betaG1) ;;;
  deltaG1 <- decode1 (E := E) A ;;
  write 0 (g1r deltaG1) ;;;
  betaG2 <- decode2 (E := E) B ;;
  deltaG2 <- decode2 (E := E) A ;;
  buffG1 <- read_slice1 B ;;
  let '(buffG1, infinityA, nbInfinityA) := filterInfinity buffG1 in
  write_raw1 1 buffG1 ;;;
  buffG1 <- read_slice1 B ;;
  let '(buffG1, infinityB, nbInfinityB) := filterInfinity buffG1 in
  write_raw1 2 buffG1 ;;;
  buffG1 <- read_n (wrap64 (h_domain header - 1)) ;;
  write_raw1 3 buffG1 ;;;
  buffG1 <- read_n (h_witness header) ;;
  write_raw1 4 buffG1 ;;;
  write 0 (g2r betaG2) ;;;
  write 0 (g2r deltaG2) ;;;
  buffG2 <- read_slice2 B ;;
  let '(buffG2, _, _) := filterInfinity buffG2 in
  write_raw2 5 buffG2 ;;;
  write 0 (be64 (u64 (h_wires header))) ;;;
  write 0 (be64 nbInfinityA) ;;;
  write 0 (be64 nbInfinityB) ;;;
  write 0 (bools infinityA) ;;;
  write 0 (bools infinityB))))))))))))))).

(* keys.go:34-71; the commitment key is compressed whatever the caller chose, its several writes are one *)
Definition write_vk (o : nat) (ck : bytes) (alpha beta1 beta2 gamma2 delta1 delta2 : E) (k : list E) (info : commitment) : io unit :=
  write o ck ;;;
  write o (g1r alpha) ;;;
  write o (g1r beta1) ;;;
  write o (g2r beta2) ;;;
  write o (g2r gamma2) ;;;
  write o (g1r delta1) ;;;
  write o (g2r delta2) ;;;
  write_raw1 o k ;;;
  write o (cmt_bytes (e := E) info).

(* keys.go:464-552 and 554-656 up to vk.writeTo, the same text, after both files were opened; output 0 = vk, created after
   the header was read.  [fin] = what is done about the deferred flush of vk here.  [wr] = the platform's int arithmetic (wrap64 on 64-bit machines), g and sigma =
   what pedersen.Setup samples.  vk.CommitmentInfo is never set.  Returns the commitment key. *)
Definition vk_with (fin : io bytes -> io bytes) (wr : Z -> Z) (g sigma : E) : io bytes :=
  NewRd A defBuf (NewRd B defBuf (
  header <- read_hdr2 (E := E) A ;;
  NewWr 0 defBuf (fin (
  alpha <- decode1 (E := E) B ;;
  beta1 <- decode1 (E := E) B ;;
  beta2 <- decode2 (E := E) B ;;
  let gamma2 := 1 in
  delta1 <- decode1 (E := E) A ;;
  delta2 <- decode2 (E := E) A ;;
  let pos := wr (wr (128 * wr (h_wires header + 1)) + 12)%Z in
  seek B pos ;;;
  NewRd B defBuf (
  k <- read_slice1 B ;;
  ckk <- read_slice1 B ;;
  let commitmentKey := ped (e := E) g sigma ckk in
  write_vk 0 commitmentKey alpha beta1 beta2 gamma2 delta1 delta2 k (mkCmt [] 0 0) ;;;
  Ret commitmentKey))))).
(* keys.go:464-552: vk is flushed on every return *)
Definition extract_vk (wr : Z -> Z) (g sigma : E) : io bytes := Eval cbv beta delta [vk_with] in vk_with (with_flush 0) wr g sigma.
(* keys.go:554-641: vk is flushed later, see l_split_vk *)
Definition extract_vk_open (wr : Z -> Z) (g sigma : E) : io bytes := vk_with (fun q => q) wr g sigma.
End Keys.

From Coq Require Import String.
Definition pk_path : string := "pk"%string.
Definition vk_path : string := "vk"%string.
Definition save_path (session part : string) : string := (session ++ part ++ ".save")%string.
Definition vks_path (session : string) : string := save_path session ".vk".
Definition ckey_path (session : string) : string := save_path session ".pk.CommitmentKey".
Definition split_names (session : string) : list string :=
  List.map (save_path session) [".pk.E"; ".pk.A"; ".pk.B1"; ".pk.Z"; ".pk.K"; ".pk.B2"]%string.

Section Cmd.
Context {E : Ext2}.
Local Open Scope cmd_scope.

(* Each command reads the header twice where the program creates its output after reading it; this
   makes a difference only when an output has the name of an input. *)
Definition c_header (p : string) : cmd hdr := stage (NewRd false defBuf (read_hdr2 (E := E) false)) p p [].
(* keys.go:73-238 *)
Definition c_pk (p : string) : cmd unit :=
  copen p ;;; copen evals_path ;;;
  c_header p ;;; ccreate pk_path ;;;
  stage (extract_pk (E := E)) p evals_path [pk_path].
(* keys.go:464-552 *)
Definition c_vk (wr : Z -> Z) (g sigma : E) (p : string) : cmd unit :=
  copen p ;;; copen evals_path ;;;
  c_header p ;;; ccreate vk_path ;;;
  stage (extract_vk wr g sigma) p evals_path [vk_path] ;;; cret tt.
(* keys.go:240-462 *)
Definition c_split_pk (p session : string) : cmd unit :=
  let names := split_names session in
  copen p ;;; copen evals_path ;;;
  c_header p ;;;
  fold_left (fun c n => c ;;; ccreate n) names (cret tt) ;;;
  stage (extract_split_pk (E := E)) p evals_path names.
(* keys.go:554-656; the first of the two writes of the commitment key drops its error.  The deferred
   flush of the vk file happens after these writes; without failing writes this makes no difference
   (LiveTwin.v, lref_split_vk). *)
Definition c_split_vk (wr : Z -> Z) (g sigma : E) (p session : string) : cmd unit :=
  let vk := vks_path session in
  let ckp := ckey_path session in
  copen p ;;; copen evals_path ;;;
  c_header p ;;; ccreate vk ;;;
  ck <- stage (extract_vk wr g sigma) p evals_path [vk] ;;
  ccreate ckp ;;;
  stage (bind (write_ 0 ck) (fun _ => write 0 ck)) ckp ckp [ckp].
(* keys.go:658-669 *)
Definition extract_keys (wr : Z -> Z) (g sigma : E) (p : string) : cmd unit :=
  c_pk p ;;; c_vk wr g sigma p.
(* keys.go:671-682 *)
Definition extract_split_keys (wr : Z -> Z) (g sigma : E) (p session : string) : cmd unit :=
  c_split_pk p session ;;; c_split_vk wr g sigma p session.
End Cmd.
