(* Prop45.v -- property C106: p2v as it would be if verifyParameter returned the error of aggregate.  verify2 is in
   Phase2.v, verify2_strict in Strict2.v, ph2 in Spec4.v. *)
From Coq Require Import String.
From Verif Require Import Base Fld IO Ext Spec1 Phase1 Phase1Facts Phase1Verify Gob GobLemmas Circuit Spec2 Phase2 Phase2Claims Fs Spec3 Init2 Spec4 Keys Toy1 Toy2 Toy3 Toy4
  Toy8 Toy18 Spec34 Toy23 Strict2 StrictIff.
Local Open Scope fld_scope.

(* nothing that p2v accepts today is lost but the pairs in which some points of a file cannot be read *)
Theorem C106_return_err : forall (E : Ext2) bs (rho : nat -> nat -> nat -> E) h h0 t t0 hs, 1 <= bs -> hdr_ok h -> hdr_ok h0 -> (- two63 < h_domain h)%Z ->
  let F := gob_hdr h ++ t in let G := gob_hdr h0 ++ t0 in
  (exec (verify2_strict bs rho) F G = (Ok hs, []) <->
   exec (verify2 bs rho) F G = (Ok hs, []) /\ (exists q : par2 E, ph2 F h q) /\ (exists q0 : par2 E, ph2 G h0 q0)).
Proof. exact @strict_iff. Qed.
Print Assumptions C106_return_err.

(* an origin that ends anywhere before the end of its parameters is refused, whatever the final file *)
Theorem C106_cut_origin : forall (E : Ext2) bs (rho : nat -> nat -> nat -> E) h0 (q0 : par2 E) pb j, 1 <= bs -> hdr_ok h0 -> sized2 h0 q0 -> is_par2 pb q0 ->
  let G := gob_hdr h0 ++ pb in (j < length G)%nat -> forall F hs, fst (exec (verify2_strict bs rho) F (firstn j G)) <> Ok hs.
Proof. exact @strict_cut. Qed.
Print Assumptions C106_cut_origin.

(* the files of C104: p2v accepts both pairs *)
Example C106_case : hdr_ok kh /\ sized2 kh kq0 /\ (exists t, nF = gob_hdr (set_contribs kh 2) ++ t) /\ (exists t, kF = gob_hdr (set_contribs kh 2) ++ t) /\
  (exists b, kF0 = nF0 ++ [b]) /\
  exec (verify2 2 trho2) kF kF0 = (Ok (map d_hash nrecs), []) /\ exec (verify2 2 trho2) nF nF0 = (Ok (map d_hash nrecs), []) /\
  exec (verify2_strict 2 trho2) kF kF0 = (Ok (map d_hash nrecs), []) /\ is_ok (fst (exec (verify2_strict 2 trho2) nF nF0)) = false.
Proof.
  split; [unfold hdr_ok, hdr_fields, int64, kh, two63; cbn; repeat constructor; lia|]. split; [split; vm_compute; reflexivity|].
  split; [exists (skipn (List.length (gob_hdr (set_contribs kh 2))) nF); apply bytes_eqb_true; vm_compute; reflexivity|].
  split; [exists (skipn (List.length (gob_hdr (set_contribs kh 2))) kF); apply bytes_eqb_true; vm_compute; reflexivity|].
  split; [exists (List.last kF0 (b8 0)); apply bytes_eqb_true; vm_compute; reflexivity|].
  split; [vm_compute; reflexivity|]. split; [vm_compute; reflexivity|]. split; vm_compute; reflexivity.
Qed.
