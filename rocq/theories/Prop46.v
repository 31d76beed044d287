(* Prop46.v -- property C107: how filterL divides the wires.  parted is in Spec36.v. *)
From Verif Require Import Base Fld IO Ext Gob Circuit Init2 Toy1 Toy2 Spec36 PartIff.
Local Open Scope fld_scope.

(* any sizes in the header and any data about a commitment, also data that gnark never writes: filterL ends if and only
   if the wires can be divided and fit, and then every slice holds its points in order, followed by points at infinity *)
Theorem C107_filterL : forall (E : Ext2) (L : list E) h c pkk vkk ckk,
  filterL L h c = Some (pkk, vkk, ckk) <->
  (0 <= h_witness h)%Z /\ (0 <= h_public h)%Z /\ (0 <= h_privc h)%Z /\
  exists p v k, parted c (h_public h) 0 0 L p v k /\
    (Z.of_nat (length p) <= h_witness h)%Z /\ (Z.of_nat (length v) <= h_public h)%Z /\ (Z.of_nat (length k) <= h_privc h)%Z /\
    pkk = p ++ repeat (0 : E) (Z.to_nat (h_witness h) - length p) /\ vkk = v ++ repeat (0 : E) (Z.to_nat (h_public h) - length v) /\
    ckk = k ++ repeat (0 : E) (Z.to_nat (h_privc h) - length k).
Proof. exact @part_iff. Qed.
Print Assumptions C107_filterL.

(* wire 0 is committed and private, wire 3 is the commitment; then no room for CKK, and a list that is too short *)
Example C107_case : let L : list Toy2 := [u 1; u 2; u 3; u 4] in
  parted (mkCmt [0%nat] 1 3) 1 0 0 L [u 2; u 3] [u 4] [u 1] /\
  filterL L (mkHdr 4 3 1 1 0 4 0) (mkCmt [0%nat] 1 3) = Some ([u 2; u 3; u 0], [u 4], [u 1]) /\
  filterL L (mkHdr 4 3 1 0 0 4 0) (mkCmt [0%nat] 1 3) = None /\
  filterL L (mkHdr 4 3 1 3 0 4 0) (mkCmt [7%nat; 1%nat; 9%nat] 3 3) = None.
Proof.
  cbv zeta. split; [|split; [vm_compute; reflexivity|split; vm_compute; reflexivity]].
  apply pt_ck; [cbn; lia|cbn; lia|reflexivity|].
  apply pt_pk; [cbn; lia|unfold to_vk; cbn; lia|]. apply pt_pk; [cbn; lia|unfold to_vk; cbn; lia|].
  apply pt_vk; [cbn; lia|left; split; [discriminate|reflexivity]|]. constructor.
Qed.
