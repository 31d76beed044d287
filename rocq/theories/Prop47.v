(* Prop47.v -- property C108: filterL as it would be with two changes.  filterL is in Init2.v, filterL_fixed in Fixed3.v,
   those in Spec37.v. *)
From Coq Require Import Sorted.
From Verif Require Import Base Fld IO Ext Gob Circuit Spec3 Init2 Toy1 Toy2 Toy3 Spec37 Fixed3 FixedPf.
Local Open Scope fld_scope.

(* every circuit with commitment data as gnark writes it, with the header p2n makes: PKK, VKK and CKK are filled exactly *)
Theorem C108_fixed : forall (E : Ext2) (cs : r1cs E) nb dom (L : list E) pubs privs, let c := r_cmt cs in
  cm_committed c = pubs ++ privs -> cm_nbpriv c = length privs -> StronglySorted lt privs -> Forall (fun w => nb_public cs <= w < wires cs) privs ->
  (cm_committed c <> [] -> nb_public cs <= cm_index c < wires cs /\ ~ In (cm_index c) privs) -> length L = wires cs ->
  let ck j := existsb (Nat.eqb j) privs in
  let vk j := (j <? nb_public cs) || match cm_committed c with [] => false | _ => j =? cm_index c end in
  filterL_fixed L (nb_public cs) (header2_of cs nb dom) c =
    Some (those (fun j => negb (ck j || vk j)) 0 L, those vk 0 L, those ck 0 L).
Proof. exact @fixed_right. Qed.
Print Assumptions C108_fixed.

(* two public wires, wires 2 and 4 committed and private, wire 5 the commitment: filterL panics *)
Example C108_case : let cs : r1cs Toy2 := mkR1cs 2 3 2 [] [] (mkCmt [1%nat; 2%nat; 4%nat] 2 5) in
  let L : list Toy2 := [u 1; u 2; u 3; u 4; u 5; u 6; u 7] in
  cm_committed (r_cmt cs) = [1%nat] ++ [2%nat; 4%nat] /\ cm_nbpriv (r_cmt cs) = length [2%nat; 4%nat] /\ StronglySorted lt [2%nat; 4%nat] /\
  Forall (fun w => nb_public cs <= w < wires cs) [2%nat; 4%nat] /\ nb_public cs <= cm_index (r_cmt cs) < wires cs /\ ~ In (cm_index (r_cmt cs)) [2%nat; 4%nat] /\
  length L = wires cs /\
  filterL L (header2_of cs 0 4) (r_cmt cs) = None /\
  filterL_fixed L 2 (header2_of cs 0 4) (r_cmt cs) = Some ([u 4; u 7], [u 1; u 2; u 6], [u 3; u 5]).
Proof.
  cbv zeta. split; [reflexivity|]. split; [reflexivity|]. split; [repeat constructor|]. split; [repeat constructor; cbn; lia|].
  split; [cbn; lia|]. split; [cbn; lia|]. split; [reflexivity|]. split; vm_compute; reflexivity.
Qed.
