(* Circuit.v -- constraint systems as the tool sees them, and what phase 2 and key extraction take
   from outside (gnark, gnark-crypto, encoding/gob) beyond Ext.v. *)
From Verif Require Import Base Fld IO Ext Gob.

(* gnark constraint.Term: an index into the coefficient table and a wire *)
Record term := mkTerm { t_coeff : nat; t_wire : nat }.
(* gnark constraint.R1C: L * R = O *)
Record r1c := mkR1c { r_L : list term; r_R : list term; r_O : list term }.
(* gnark constraint.Commitment: Committed, NbPrivateCommitted, CommitmentIndex (the hint id plays no
   role here; it is part of the gob bytes, see cmt_bytes) *)
Record commitment := mkCmt { cm_committed : list nat; cm_nbpriv : nat; cm_index : nat }.
(* gnark cs_bn254.R1CS.  The counts are numbers of variables, so natural numbers; a corrupted .r1cs
   file with negative counts is not modelled. *)
Record r1cs (K : Fld) := mkR1cs {
  nb_public : nat; nb_secret : nat; nb_internal : nat;
  r_cons : list r1c; r_coeffs : list K; r_cmt : commitment }.
Arguments mkR1cs {K}. Arguments nb_public {K}. Arguments nb_secret {K}. Arguments nb_internal {K}.
Arguments r_cons {K}. Arguments r_coeffs {K}. Arguments r_cmt {K}.

Record Ext2 := mkExt2 {
  X1 :> Ext;
  (* encoding/gob on a header stream that does not start with the type definition the tool writes:
     some program that only reads from that file *)
  gob_alt : bool -> list bytes -> io hdr;
  gob_alt_reads : forall h bs, only_reads h (gob_alt h bs);
  (* fft.NewDomain: for 2^k with k <= kmax a primitive 2^k-th root of unity (kmax = 28 for BN254) *)
  kmax : nat;
  kmax_lt : kmax < 64;
  root : nat -> X1;
  root_ok : forall k, 1 <= k <= kmax -> (root k ^ (2 ^ (k - 1)) = - (1))%F;
  char_ok : ((1 : X1) + 1 <> 0)%F;
  (* R1CS.ReadFrom on the contents of a .r1cs file *)
  parse_r1cs : bytes -> option (r1cs X1);
  (* gob.NewEncoder(w).Encode(commitment) *)
  cmt_bytes : commitment -> bytes;
  (* fft.Domain.WriteTo for cardinality 2^k *)
  dom_bytes : nat -> bytes;
  (* pedersen.Setup(basis), which samples a point of G2 and a scalar, followed by Key.WriteTo *)
  ped : X1 -> X1 -> list X1 -> bytes
}.
Arguments gob_alt {e}. Arguments root {e}. Arguments parse_r1cs {e}. Arguments cmt_bytes {e}.
Arguments dom_bytes {e}. Arguments ped {e}.
