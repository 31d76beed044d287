(* Prop16.v -- property C78: which files make a command panic.  f, g are the first and second file a command
   reads; exec gives the result and the bytes written.  is1 b x: b is the encoding, compressed or not, of a point
   of G1 with logarithm x that Decode accepts; are1 b l the same for a list of points; gob_hdr h the encoding of the header h. *)
From Coq Require Import String.
From Verif Require Import Base Fld IO Ext Toy Spec1 Phase1 Phase1Io Phase1Verify Phase1Facts Toy1 Gob GobLemmas Circuit Spec2 Phase2 Phase2Lemmas
  Fs Init2 Spec3 Init2Claims Init2More Keys Toy2 Toy3 Live LiveCmd Spec5 Safe Safe2 Safe3 Toy14.
Local Open Scope fld_scope.
Local Open Scope io_scope.

(* p1v and p1vt panic exactly on files of at least two bytes with a power of 63 or more *)
Theorem C78_p1v_refuted : forall (E : Ext) bs (rho : nat -> nat -> nat -> E) trans f g,
  fst (exec (verify bs rho trans) f g) = Panic <-> exists pw c t, f = pw :: c :: t /\ (63 <= bN pw)%N.
Proof. exact @verify_panics. Qed.
Print Assumptions C78_p1v_refuted.

Example C78_p1v_case :
  fst (exec (verify (E := Toy true) 2 (trho true) None) [b8 63; b8 0; b8 0] []) = Panic /\
  fst (exec (verify (E := Toy true) 2 (trho true) None) [b8 63] []) = Err EEof /\
  fst (exec (verify (E := Toy true) 2 (trho true) None) (b8 2 :: b8 0 :: repeat (b8 7) 900) []) = Err EDecode.
Proof. vm_compute. repeat split. Qed.

(* p1c panics on these, and on files with power 0 and one decodable point *)
Theorem C78_p1c_refuted : forall (E : Ext) bs (w : @rnd1 E) f g, 2 <= bs ->
  (fst (exec (contribute bs w) f g) = Panic <->
   (exists pw c t, f = pw :: c :: t /\ (63 <= bN pw)%N) \/
   (exists c0 c1 b (x : E) t, f = b8 0 :: c0 :: c1 :: b ++ t /\ is1 b x)).
Proof. exact @contribute_panics. Qed.
Print Assumptions C78_p1c_refuted.

Example C78_p1c_case :
  fst (exec (contribute (E := Toy true) 2 (tw1 true)) (b8 0 :: b8 0 :: b8 0 :: g1c (e := Toy true) (z17 true 1)) []) = Panic /\
  fst (exec (contribute (E := Toy true) 2 (tw1 true)) (b8 0 :: b8 0 :: b8 0 :: repeat xff 64) []) = Err EDecode /\
  fst (exec (contribute (E := Toy true) 2 (tw1 true)) (b8 64 :: b8 0 :: repeat xff 64) []) = Panic.
Proof. vm_compute. repeat split. Qed.

(* with any number of bytes left on the disk *)
Theorem C78_p1c_any_device : forall (E : Ext) dev bs (w : @rnd1 E) ip op f, 2 <= bs ->
  result_of (l_contribute dev bs w ip op) f = Panic ->
  exists pw t, f ip = Some (pw :: t) /\ (bN pw = 0 \/ 63 <= bN pw)%N.
Proof. exact @l_contribute_panics. Qed.
Print Assumptions C78_p1c_any_device.

Example C78_p1c_any_device_case :
  result_of (l_contribute (E := Toy true) (disk 40) 2 (tw1 true) "in" "out"%string) (fset (fun _ => None) "in"%string [b8 63; b8 0; b8 0]) = Panic.
Proof. vm_compute. reflexivity. Qed.

(* p1t and p1n never panic *)
Theorem C78_p1t : forall (E : Ext) dev a b ip op f, result_of (l_transform (E := E) dev a b ip op) f <> Panic.
Proof. exact @l_transform_safe. Qed.
Print Assumptions C78_p1t.

Theorem C78_p1n : forall (E : Ext) dev a op f, result_of (l_initialize (E := E) dev a op) f <> Panic.
Proof. exact @l_initialize_safe. Qed.
Print Assumptions C78_p1n.

Example C78_p1t_case : result_of (l_transform (E := Toy true) no_limit (b8 255) (b8 255) "in" "out"%string)
  (fset (fun _ => None) "in"%string (repeat xff 70)) = Err EDecode.
Proof. vm_compute. reflexivity. Qed.

(* p2c on a file with a header and anything behind it: it panics exactly if both deltas are decodable and the
   domain is not positive, or the number of witnesses is negative and the points of Z are decodable *)
Theorem C78_p2c_refuted : forall (E : Ext2) bs (d s : E) h t g, 1 <= bs -> hdr_ok h -> (- 2 ^ 63 < h_domain h)%Z ->
  (fst (exec (contribute2 bs d s) (gob_hdr h ++ t) g) = Panic <->
   exists b1 (x1 : E) b2 (x2 : E) t1, t = b1 ++ b2 ++ t1 /\ is1 b1 x1 /\ is2 b2 x2 /\
     ((h_domain h <= 0)%Z \/
      (h_witness h < 0)%Z /\ exists b3 (l : list E) t2, t1 = b3 ++ t2 /\ are1 b3 l /\ Z.of_nat (length l) = (h_domain h - 1)%Z)).
Proof. exact @contribute2_panics. Qed.
Print Assumptions C78_p2c_refuted.

Example C78_p2c_case :
  let ds := g1c (e := Toy2) (u 1) ++ g2c (e := Toy2) (u 1) in
  hdr_ok h_dom0 /\
  fst (exec (contribute2 (E := Toy2) 2 (u 3) (u 5)) (gob_hdr h_dom0 ++ ds) []) = Panic /\
  fst (exec (contribute2 (E := Toy2) 2 (u 3) (u 5)) (gob_hdr h_wit1 ++ ds ++ g1c (e := Toy2) (u 4)) []) = Panic /\
  fst (exec (contribute2 (E := Toy2) 2 (u 3) (u 5)) (gob_hdr h_wit1 ++ ds ++ repeat xff 40) []) = Err EDecode.
Proof. cbv zeta. split; [exact h_dom0_ok|]. vm_compute. repeat split. Qed.

(* p2v.  The bound 2^42 is not needed in the model, which has no limit on memory; make([]bn254.G1Affine, n) panics
   for larger n *)
Theorem C78_p2v : forall (E : Ext2) bs (rho : nat -> nat -> nat -> E) h h' t t',
  hdr_ok h -> hdr_ok h' -> (1 <= h_domain h <= 2 ^ 42)%Z -> (0 <= h_witness h <= 2 ^ 42)%Z ->
  fst (exec (verify2 bs rho) (gob_hdr h ++ t) (gob_hdr h' ++ t')) <> Panic.
Proof. exact @verify2_safe. Qed.
Print Assumptions C78_p2v.

Theorem C78_p2v_refuted : forall (E : Ext2) bs (rho : nat -> nat -> nat -> E) h h' (o1 o2 x1 x2 : E) b1 b2 b3 b4 t t',
  hdr_ok h -> hdr_ok h' -> hdr_eqb h h' = true -> h_contribs h <> 0%Z -> (- 2 ^ 63 < h_domain h <= 0)%Z ->
  is1 b1 x1 -> is2 b2 x2 -> is1 b3 o1 -> is2 b4 o2 -> o1 * x2 = x1 * o2 ->
  fst (exec (verify2 bs rho) (gob_hdr h ++ b1 ++ b2 ++ t) (gob_hdr h' ++ b3 ++ b4 ++ t')) = Panic.
Proof. exact @verify2_panics. Qed.
Print Assumptions C78_p2v_refuted.

Example C78_p2v_case :
  let ds := g1c (e := Toy2) (u 1) ++ g2c (e := Toy2) (u 1) in
  fst (exec (verify2 2 trho2) (gob_hdr h_dom0 ++ ds) (gob_hdr (set_contribs h_dom0 0) ++ ds)) = Panic /\
  fst (exec (verify2 2 trho2) (gob_hdr th2 ++ ds) (gob_hdr th ++ ds)) = Err EEof.
Proof. vm_compute. repeat split. Qed.

(* the keys *)
Theorem C78_pk : forall (E : Ext2) h t g, hdr_ok h -> (1 <= h_domain h <= 2 ^ Z.of_nat (kmax E))%Z -> (0 <= h_witness h <= 2 ^ 42)%Z ->
  fst (exec (extract_pk (E := E)) (gob_hdr h ++ t) g) <> Panic.
Proof. exact @pk_safe. Qed.
Print Assumptions C78_pk.

Theorem C78_pk_refuted : forall (E : Ext2) h t g, hdr_ok h -> (h_domain h < 0 \/ 2 ^ Z.of_nat (kmax E) < h_domain h)%Z ->
  exec (extract_pk (E := E)) (gob_hdr h ++ t) g = (Panic, []).
Proof. exact @pk_panics. Qed.
Print Assumptions C78_pk_refuted.

Theorem C78_split_pk : forall (E : Ext2) h t g, hdr_ok h -> (1 <= h_domain h <= 2 ^ 42)%Z -> (0 <= h_witness h <= 2 ^ 42)%Z ->
  fst (exec (extract_split_pk (E := E)) (gob_hdr h ++ t) g) <> Panic.
Proof. exact @split_pk_safe. Qed.
Print Assumptions C78_split_pk.

Theorem C78_vk : forall (E : Ext2) wr (x sigma : E) h t g, hdr_ok h -> fst (exec (extract_vk wr x sigma) (gob_hdr h ++ t) g) <> Panic.
Proof. exact @vk_safe. Qed.
Print Assumptions C78_vk.

Example C78_pk_case : hdr_ok h_big /\ (2 ^ Z.of_nat (kmax Toy2) < h_domain h_big)%Z /\
  fst (exec (extract_pk (E := Toy2)) (gob_hdr h_big) []) = Panic /\
  fst (exec (extract_pk (E := Toy2)) (gob_hdr th2 ++ [b8 1]) [b8 1]) = Err EEof.
Proof. split; [exact h_big_ok|]. vm_compute. repeat split. Qed.

(* p2n on any phase-1 file whatever, for circuits it can initialise: without commitments, or with a commitment
   to public wires whose own wire is the first private one *)
Theorem C78_p2n : forall (E : Ext2) (cs : r1cs E) f p1 r1 p2 rb F,
  names_ok p1 r1 p2 -> f p1 = Some F -> f r1 = Some rb -> parse_r1cs rb = Some cs -> circuit_ok cs ->
  (Z.of_nat (length (r_cons cs)) <= 2 ^ 27)%Z -> 1 <= kmax E -> length (r_cons cs) <= 2 ^ kmax E ->
  (no_cmt cs \/ cm_committed (r_cmt cs) <> [] /\ cm_nbpriv (r_cmt cs) = 0%nat /\ cm_index (r_cmt cs) = nb_public cs /\ nb_public cs < wires cs) ->
  fst (p2n (E := E) p1 r1 p2 f) <> Panic.
Proof. exact @p2n_never_panics. Qed.
Print Assumptions C78_p2n.

(* a phase-1 file that is cut, one without points, and one of zeros, which p2n takes for points *)
Example C78_p2n_case :
  names_ok p1n r1n p2n' /\ circuit_ok (tcs 0) /\ no_cmt (tcs 0) /\ tfs 0 r1n = Some [b8 0] /\ parse_r1cs (e := Toy2) [b8 0] = Some (tcs 0) /\
  fst (p2n (E := Toy2) p1n r1n p2n' (fset (tfs 0) p1n (firstn 300 tp1))) = Err EEof /\
  fst (p2n (E := Toy2) p1n r1n p2n' (fset (tfs 0) p1n (b8 2 :: b8 0 :: b8 4 :: repeat xff 3000))) = Err EDecode /\
  fst (p2n (E := Toy2) p1n r1n p2n' (fset (tfs 0) p1n (b8 2 :: b8 0 :: b8 4 :: repeat x00 3000))) = Ok tt.
Proof.
  split; [apply (tfs_input 0); lia|]. split; [apply circuit_okb_ok; vm_compute; reflexivity|]. split; [repeat split|].
  split; [reflexivity|]. split; [reflexivity|]. repeat split; vm_compute; reflexivity.
Qed.
