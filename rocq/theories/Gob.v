(* Gob.v -- the phase-2 header and the part of encoding/gob that reads and writes it
   (phase2/header.go).  The decoder is modelled for streams that start with the type definition the
   tool itself writes; other type definitions go to an arbitrary program [alt]. *)
From Coq Require Import ZifyBool ZifyNat ZifyN.
From Verif Require Import Base IO.
Local Open Scope io_scope.

(* phase2/header.go:8-16 *)
Record hdr := mkHdr { h_wires : Z; h_witness : Z; h_public : Z; h_privc : Z; h_cons : Z; h_domain : Z; h_contribs : Z }.
Definition hdr0 : hdr := mkHdr 0 0 0 0 0 0 0.
(* header.go:34-44 *)
Definition hdr_eqb (a b : hdr) : bool :=
  ((h_wires a =? h_wires b) && (h_witness a =? h_witness b) && (h_public a =? h_public b) &&
   (h_privc a =? h_privc b) && (h_cons a =? h_cons b) && (h_domain a =? h_domain b))%Z.
Definition set_contribs (h : hdr) (n : Z) : hdr :=
  mkHdr (h_wires h) (h_witness h) (h_public h) (h_privc h) (h_cons h) (h_domain h) n.
Definition hdr_fields (h : hdr) : list Z :=
  [h_wires h; h_witness h; h_public h; h_privc h; h_cons h; h_domain h; h_contribs h].
Definition hdr_set (i : nat) (z : Z) (h : hdr) : hdr :=
  let '(mkHdr a b c d e f g) := h in
  match i with
  | 0 => mkHdr z b c d e f g | 1 => mkHdr a z c d e f g | 2 => mkHdr a b z d e f g
  | 3 => mkHdr a b c z e f g | 4 => mkHdr a b c d z f g | 5 => mkHdr a b c d e z g
  | _ => mkHdr a b c d e f z
  end.

(* ---- encoding/gob encode.go ---- *)
(* minimal big-endian digits of n, at most [fuel] of them *)
Fixpoint be_min (fuel : nat) (n : N) (acc : bytes) : bytes :=
  match fuel with
  | 0 => acc
  | S f => if (n =? 0)%N then acc else be_min f (n / 256) (b8 n :: acc)
  end.
(* encodeUint: one byte below 128, else minus the byte count and the bytes *)
Definition gob_uint (n : N) : bytes :=
  if (n <? 128)%N then [b8 n]
  else let d := be_min 8 n [] in b8 (256 - N.of_nat (length d)) :: d.
(* encodeInt *)
Definition zigzag (z : Z) : N := if (z <? 0)%Z then Z.to_N (2 * (- z - 1) + 1) else Z.to_N (2 * z).
Definition gob_int (z : Z) : bytes := gob_uint (zigzag z).
(* struct: field number increments, zero fields left out, 0 ends *)
Fixpoint gob_fields (delta : N) (l : list Z) : bytes :=
  match l with
  | [] => [x00]
  | z :: l' => if (z =? 0)%Z then gob_fields (delta + 1) l'
               else gob_uint delta ++ gob_int z ++ gob_fields 1 l'
  end.
Definition ascii (l : list N) : bytes := map b8 l.
(* one field of the type description: name, type int *)
Definition tfield (name : bytes) : bytes := [x01] ++ [b8 (N.of_nat (length name))] ++ name ++ [x01; x04; x00].
(* the type description of phase2.Header, type id 65 *)
Definition n_Header := ascii [72;101;97;100;101;114]%N.
Definition n_Wires := ascii [87;105;114;101;115]%N.
Definition n_Witness := ascii [87;105;116;110;101;115;115]%N.
Definition n_Public := ascii [80;117;98;108;105;99]%N.
Definition n_PrivateCommitted := ascii [80;114;105;118;97;116;101;67;111;109;109;105;116;116;101;100]%N.
Definition n_Constraints := ascii [67;111;110;115;116;114;97;105;110;116;115]%N.
Definition n_Domain := ascii [68;111;109;97;105;110]%N.
Definition n_Contributions := ascii [67;111;110;116;114;105;98;117;116;105;111;110;115]%N.
Definition typedef : bytes :=
  gob_int (-65) ++ [x03; x01; x01] ++ [x06] ++ n_Header ++ [x01] ++ gob_int 65 ++ [x00; x01; x07] ++
  tfield n_Wires ++ tfield n_Witness ++ tfield n_Public ++ tfield n_PrivateCommitted ++
  tfield n_Constraints ++ tfield n_Domain ++ tfield n_Contributions ++ [x00; x00].
Definition value (h : hdr) : bytes := gob_int 65 ++ gob_fields 1 (hdr_fields h).
Definition message (body : bytes) : bytes := gob_uint (N.of_nat (length body)) ++ body.
(* the bytes of an encoded header *)
Definition gob_hdr (h : hdr) : bytes := message typedef ++ message (value h).
(* header.go:26-32: one Write per message *)
Definition write_hdr (o : nat) (h : hdr) : io unit :=
  write o (message typedef) ;;; write o (message (value h)).

(* ---- encoding/gob decode.go, decoder.go ---- *)
Fixpoint be_val (acc : N) (b : bytes) : N :=
  match b with [] => acc | x :: t => be_val (acc * 256 + bN x)%N t end.
(* decodeUint on the message buffer *)
Definition dec_uint (b : bytes) : option (N * bytes) :=
  match b with
  | [] => None
  | x :: t =>
    if (bN x <? 128)%N then Some (bN x, t)
    else let n := N.to_nat (256 - bN x) in
         if 8 <? n then None else if length t <? n then None
         else Some (be_val 0 (firstn n t), skipn n t)
  end.
Definition unzig (n : N) : Z := if N.odd n then (- Z.of_N (n / 2) - 1)%Z else Z.of_N (n / 2).
Definition dec_int (b : bytes) : option (Z * bytes) :=
  match dec_uint b with Some (n, t) => Some (unzig n, t) | None => None end.
(* decodeStruct; [next] = 1 + number of the last field seen; bytes after the end marker are ignored *)
Fixpoint dec_fields (fuel : nat) (next : nat) (h : hdr) (b : bytes) : option hdr :=
  match fuel with
  | 0 => None
  | S f =>
    match dec_uint b with
    | None => None
    | Some (d, t) =>
      if (d =? 0)%N then Some h
      else if (7 <? N.of_nat next + d)%N then None
      else let i := next + N.to_nat d - 1 in
        match dec_int t with
        | None => None
        | Some (z, t') => dec_fields f (S i) (hdr_set i z h) t'
        end
    end
  end.

(* decodeUintReader *)
Definition rd_uint (h : bool) : io N :=
  b <- readfull h 1 ;;
  match b with
  | [] => Throw EGob
  | x :: _ =>
    if (bN x <? 128)%N then Ret (bN x)
    else let n := N.to_nat (256 - bN x) in
         if 8 <? n then Throw EGob
         else d <- readfull h n ;; Ret (be_val 0 d)
  end.
(* recvMessage; tooBig = 1 << 30 *)
Definition recv (h : bool) : io bytes :=
  n <- rd_uint h ;;
  if (1073741824 <=? n)%N then Throw EGob else readfull h (N.to_nat n).

(* a program that only reads, from h *)
Fixpoint only_reads {X} (h : bool) (p : io X) : Prop :=
  match p with
  | Ret _ | Throw _ | Boom => True
  | Rd h' k c => h' = h /\ 0 < k /\ forall x, (forall b, x = Some b -> length b <= k) -> only_reads h (c x)
  | _ => False
  end.

(* header.go:18-24; the variable it decodes into is always a fresh zero Header *)
Definition read_hdr (alt : bool -> list bytes -> io hdr) (h : bool) : io hdr :=
  b <- recv h ;;
  if bytes_eqb b typedef then
    v <- recv h ;;
    match dec_int v with
    | Some (65%Z, t) =>
      match dec_fields (length t) 0 hdr0 t with Some x => Ret x | None => Throw EGob end
    | _ => alt h [b; v]
    end
  else alt h [b].
