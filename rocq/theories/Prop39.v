(* Prop39.v -- properties C99 and C100: the pairs of files p2v accepts; an origin that ends early.  accepts2, compared, run1,
   linked2: Spec31.v; seen2: Spec27.v; is_file2, file2: Spec2.v. *)
From Verif Require Import Base Fld IO Ext Spec1 Phase1 Phase1Io Phase1Verify Phase1Facts Toy1 Gob GobLemmas Circuit Spec2 Phase2
  Phase2Lemmas Phase2Claims Phase2More Phase2Bad Toy2 Spec27 Spec30 Spec31 V2Iff CutOrigin.
Local Open Scope fld_scope.

(* t and t0 are any bytes *)
Theorem C99_p2v : forall (E : Ext2) bs (rho : nat -> nat -> nat -> E) h h0 t t0 hs, 1 <= bs -> hdr_ok h -> hdr_ok h0 -> (- two63 < h_domain h)%Z ->
  (exec (verify2 bs rho) (gob_hdr h ++ t) (gob_hdr h0 ++ t0) = (Ok hs, []) <-> accepts2 bs rho h h0 (length (gob_hdr h)) t t0 hs).
Proof. exact @v2_iff. Qed.
Print Assumptions C99_p2v.

(* two honest contributions; and the same records behind a PKK of which the first point is another one, the second does not
   decode and the third is missing *)
Example C99_case : let t := par2_bytes tq2 ++ recs2_bytes trecs2 in
  let f := gob_hdr th2 ++ g1c (p_d1 tq2) ++ g2c (p_d2 tq2) ++ enc1 (p_Z tq2) ++ g1c (u 5) ++ ffb ++ recs2_bytes trecs2 in
  hdr_ok th2 /\ hdr_ok th /\ tf2 = gob_hdr th2 ++ t /\ accepts2 2 trho2 th2 th (length (gob_hdr th2)) t (par2_bytes tq) ths2 /\ length ths2 = 2%nat /\
  exec (verify2 4 trho2) f tf0 = (Ok ths2, []) /\ run1 (E := Toy2) 3 (g1c (u 5) ++ ffb ++ recs2_bytes trecs2) [u 5] false (recs2_bytes trecs2).
Proof.
  cbv zeta. split; [exact th2_ok|]. split; [exact th_ok|]. split; [apply bytes_eqb_true; vm_compute; reflexivity|].
  split; [|split; [reflexivity|split; [vm_compute; reflexivity|]]].
  - apply v2_iff; [lia|exact th2_ok|exact th_ok|reflexivity|]. vm_compute. reflexivity.
  - constructor; [apply is1_c|]. apply run_broken. left. repeat split; vm_compute; reflexivity.
Qed.

(* q, the parameters of the file, is anything with the right deltas: p2v accepts with every randomness if the origin ends
   inside the last batch of Z and PKK is one batch (2^20 points in the code) *)
Theorem C100_cut_in_Z_refuted : forall (E : Ext2) bs (rho : nat -> nat -> nat -> E) h n0 (q qo : par2 E) f l lo k m,
  hdr_ok h -> int64 n0 -> is_file2 f h q l -> l <> [] ->
  sized2 h qo -> length (p_Z q) <= (m + 1) * bs -> length (p_K q) <= bs -> 1 <= bs ->
  p_d1 qo * p_d2 q = p_d1 q * p_d2 qo -> linked2 (p_d1 qo) [] l -> last (map d_delta l) 0 = p_d1 q ->
  let g := gob_hdr (set_contribs h n0) in
  length g + 96 + 32 * (m * bs) <= k < length g + 96 + 32 * length (p_Z qo) ->
  exec (verify2 bs rho) f (firstn k (file2 (set_contribs h n0) qo lo)) = (Ok (map d_hash l), []).
Proof. exact @cut_in_Z. Qed.
Print Assumptions C100_cut_in_Z_refuted.

(* inside the last batch of PKK, however long the sections are: Z has to be right, PKK may be anything *)
Theorem C100_cut_in_PKK_refuted : forall (E : Ext2) bs (rho : nat -> nat -> nat -> E) h n0 (q qo : par2 E) f l lo k m,
  hdr_ok h -> int64 n0 -> is_file2 f h q l -> l <> [] ->
  sized2 h qo -> length (p_K q) <= (m + 1) * bs -> 1 <= bs ->
  p_d1 qo * p_d2 q = p_d1 q * p_d2 qo -> linked2 (p_d1 qo) [] l -> last (map d_delta l) 0 = p_d1 q ->
  (forall i, (i < length (p_Z q))%nat -> nth i (p_Z q) 0 * p_d2 q = nth i (p_Z qo) 0 * p_d2 qo) ->
  let g := gob_hdr (set_contribs h n0) in
  length g + 96 + 32 * length (p_Z qo) + 32 * (m * bs) <= k < length g + 96 + 32 * length (p_Z qo) + 32 * length (p_K qo) ->
  exec (verify2 bs rho) f (firstn k (file2 (set_contribs h n0) qo lo)) = (Ok (map d_hash l), []).
Proof. exact @cut_in_K. Qed.
Print Assumptions C100_cut_in_PKK_refuted.

(* so one byte is enough for any sizes and any batch: the last one of the origin as p2n wrote it *)
Theorem C100_last_byte_refuted : forall (E : Ext2) bs (rho : nat -> nat -> nat -> E) h n0 (q qo : par2 E) f l fo b,
  hdr_ok h -> int64 n0 -> is_file2 f h q l -> l <> [] -> sized2 h qo -> p_K q <> [] -> 1 <= bs ->
  p_d1 qo * p_d2 q = p_d1 q * p_d2 qo -> linked2 (p_d1 qo) [] l -> last (map d_delta l) 0 = p_d1 q ->
  (forall i, (i < length (p_Z q))%nat -> nth i (p_Z q) 0 * p_d2 q = nth i (p_Z qo) 0 * p_d2 qo) ->
  file2 (set_contribs h n0) qo [] = fo ++ [b] ->
  exec (verify2 bs rho) f fo = (Ok (map d_hash l), []).
Proof. exact @cut_last. Qed.
Print Assumptions C100_last_byte_refuted.

(* two honest records and other values in Z: refused with the whole origin, accepted with one byte less than its Z; the
   same for PKK *)
Example C100_case : let g := gob_hdr th in let kq := mkPar2 (p_d1 tq2) (p_d2 tq2) (p_Z tq2) [u 1; u 7; u 13] in let kf := file2 th2 kq trecs2 in
  is_file2 xf2 th2 xq2 trecs2 /\ sized2 th2 tq /\ linked2 (p_d1 tq) [] trecs2 /\ feqb (last (map d_delta trecs2) 0) (p_d1 xq2) = true /\
  length trecs2 = 2%nat /\ length (p_Z tq) = 3%nat /\
  fst (exec (verify2 4 trho2) xf2 tf0) = Err EInconsZ /\ exec (verify2 4 trho2) xf2 (firstn (length g + 191) tf0) = (Ok ths2, []) /\
  fst (exec (verify2 4 trho2) xf2 (firstn (length g + 192) tf0)) = Err EInconsZ /\
  fst (exec (verify2 4 trho2) kf tf0) = Err EInconsPKK /\ exec (verify2 4 trho2) kf (firstn (length tf0 - 1) tf0) = (Ok ths2, []) /\
  fst (exec (verify2 2 trho2) xf2 tf0) = Err EInconsZ /\ fst (exec (verify2 2 trho2) kf tf0) = Err EInconsPKK /\
  exec (verify2 2 trho2) kf (firstn (length tf0 - 1) tf0) = (Ok ths2, []) /\ exec (verify2 1 trho2) kf (firstn (length tf0 - 1) tf0) = (Ok ths2, []).
Proof.
  cbv zeta. split; [exact xf2_is|]. split; [split; reflexivity|]. split; [apply linked2_iff; vm_compute; reflexivity|].
  repeat (split; [vm_compute; reflexivity|]). vm_compute. reflexivity.
Qed.
