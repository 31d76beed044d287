(* Prop28.v -- property C43: the header of a phase-2 file is the gob stream of the documentation.  stream_is is in
   Spec23.v. *)
From Coq Require Import String.
From Verif Require Import Base IO Gob GobLemmas Spec23 GobDoc Toy2.
Local Open Scope string_scope.

Theorem C43_documented : forall h b, hdr_ok h ->
  (stream_is "Header" ["Wires"; "Witness"; "Public"; "PrivateCommitted"; "Constraints"; "Domain"; "Contributions"]
     [h_wires h; h_witness h; h_public h; h_privc h; h_cons h; h_domain h; h_contribs h] b <-> b = gob_hdr h).
Proof. exact gob_doc. Qed.
Print Assumptions C43_documented.

(* the example of the package documentation: struct { X, Y int } called Point, with 22 and 33; point_example is in Spec23.v *)
Example C43_case_documented : hdr_ok whdr /\ stream_is "Point" ["X"; "Y"] [22; 33]%Z (map b8 point_example).
Proof.
  split; [exact whdr_ok|].
  assert (U : forall n b, (n < 18446744073709551616)%N -> b = gob_uint n -> uint_is n b) by (intros n b L; now apply uint_iff).
  assert (I : forall z b, int64 z -> b = gob_int z -> int_is z b) by (intros z b L; now apply int_iff).
  exists (map b8 (firstn 32 point_example)), (map b8 (skipn 32 point_example)). split; [|split; [|reflexivity]].
  - exists [b8 31], (map b8 (firstn 31 (skipn 1 point_example))). split; [apply U; vm_compute; reflexivity|]. split; [|reflexivity].
    exists [xff; x81], [x05; x50; x6f; x69; x6e; x74], [xff; x82], [x02], [x01; x01; x58; x01; x04; x00; x01; x01; x59; x01; x04; x00].
    split; [apply I; [split; vm_compute; congruence|reflexivity]|]. split; [exists [x05]; split; [apply U; vm_compute; reflexivity|reflexivity]|].
    split; [apply I; [split; vm_compute; congruence|reflexivity]|]. split; [apply U; vm_compute; reflexivity|]. split; [|reflexivity].
    apply (types_cons _ _ [x01; x01; x58; x01; x04; x00]); [|apply (types_cons _ _ [x01; x01; x59; x01; x04; x00] []); [|constructor]].
    + exists [x01; x58], [x04]. split; [exists [x01]; split; [apply U; vm_compute; reflexivity|reflexivity]|]. split; [apply I; [split; vm_compute; congruence|reflexivity]|reflexivity].
    + exists [x01; x59], [x04]. split; [exists [x01]; split; [apply U; vm_compute; reflexivity|reflexivity]|]. split; [apply I; [split; vm_compute; congruence|reflexivity]|reflexivity].
  - exists [x07], [xff; x82; x01; x2c; x01; x42; x00]. split; [apply U; vm_compute; reflexivity|]. split; [|reflexivity].
    exists [xff; x82], [x01; x2c; x01; x42; x00]. split; [apply I; [split; vm_compute; congruence|reflexivity]|]. split; [|reflexivity].
    apply (struct_field _ _ _ [x01] [x2c]); [discriminate|apply U; vm_compute; reflexivity|apply I; [split; vm_compute; congruence|reflexivity]|].
    apply (struct_field _ _ _ [x01] [x42] [x00]); [discriminate|apply U; vm_compute; reflexivity|apply I; [split; vm_compute; congruence|reflexivity]|].
    constructor.
Qed.
