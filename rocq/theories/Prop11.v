(* Prop11.v -- property C51, continued: exactly when Transform and the key extraction report that the disk
   is full.  disk C is a device with C bytes of free space. *)
From Coq Require Import String.
From Verif Require Import Base Fld IO Ext Spec1 Phase1 Phase1Verify Gob Circuit Spec2 Phase2 Fs Spec3 Init2 Spec4 Keys
  Live LiveCmd Spec5 LiveDisk2 LiveDisk3 Toy Toy1 Toy2 Toy3 Toy4 Toy5.

(* Transform writes five sections, each behind a buffer of 4096 bytes whose flush is not checked *)
Theorem C51_transform_full_disk : forall (E : Ext) pin pout ip op f F O C, ip <> op -> f ip = Some F ->
  exec (transform (E := E) pin pout) F F = (Ok tt, O) ->
  let c := l_transform (E := E) (disk C) pin pout ip op in
  after c f op = Some (firstn C O) /\
  ((bN pout <= 6)%N \/ (63 <= bN pout)%N ->
     (3 <= C -> result_of c f = Ok tt) /\ (C < 3 -> exists e, result_of c f = Err e)) /\
  ((6 < bN pout < 63)%N ->
     ((N.of_nat (length O) <= N.of_nat C + 4160)%N -> result_of c f = Ok tt) /\
     ((N.of_nat C + 4160 < N.of_nat (length O))%N -> exists e, result_of c f = Err e)).
Proof. exact @c51_transform. Qed.
Print Assumptions C51_transform_full_disk.
Theorem C51_transform_reported_refuted : forall (E : Ext) pin pout ip op f F O, ip <> op -> f ip = Some F ->
  exec (transform (E := E) pin pout) F F = (Ok tt, O) -> 3 < length O ->
  exists C, C < length O /\ result_of (l_transform (E := E) (disk C) pin pout ip op) f = Ok tt /\
    after (l_transform (E := E) (disk C) pin pout ip op) f op <> Some O.
Proof. exact @c51_transform_refuted. Qed.
Print Assumptions C51_transform_reported_refuted.

(* a file of 2499 bytes for power 4: success from 3 bytes on; one of 24611 bytes for power 7: from 20451 on *)
Example C51_case_transform : ian <> obn /\
  (let F := contents (tr_fs 7) ian in tr_fs 7 ian = Some F /\
   fst (exec (transform (E := Toy true) (b8 7) (b8 7)) F F) = Ok tt /\
   N.of_nat (length (snd (exec (transform (E := Toy true) (b8 7) (b8 7)) F F))) = 24611%N) /\
  map (tr_res 7 4) [2; 3; 2499]%N = [(1, 2%N); (0, 3%N); (0, 2499%N)] /\
  map (tr_res 7 7) [3; 20450; 20451; 24610; 24611]%N = [(1, 3%N); (1, 20450%N); (0, 20451%N); (0, 24610%N); (0, 24611%N)].
Proof. split; [discriminate|]. split; [split; [reflexivity|split; vm_compute; reflexivity]|]. split; vm_compute; reflexivity. Qed.

(* key: P and V are the keys that belong into the two files; need = the bytes of P whose loss is noticed.  P ends in two
   lists of w bytes, each written in one piece; a piece that needs more than the rest of the buffer and another one is
   passed on at once.  So need is all of P for more than 6144 wires, and full_blocks P for at most 4096. *)
Theorem C51_keys_full_disk : forall (E : Ext2) (g sg : E) p f F h (q : par2 E) (v : evals E) w k C,
  (forall j, length (dom_bytes (e := E) j) <= N.to_nat 4096) -> length (empty_info (E := E)) <= N.to_nat 4096 ->
  length (ped (e := E) g sg (v_ckk v)) <= N.to_nat 4096 ->
  p <> pk_path -> p <> vk_path -> f p = Some F -> f evals_path = Some (evals_bytes v) ->
  ph2 F h q -> smalls v -> same_wires w v -> h_wires h = Z.of_nat w -> (Z.of_nat w < 72057594037927935)%Z ->
  new_domain (E := E) (h_domain h) = Some k ->
  let P := pk_bytes k (u64 (h_wires h)) (pk_of q v) in
  let V := vk_bytes (ped (e := E) g sg (v_ckk v)) (empty_info (E := E)) (vk_of q v) in
  let c := l_keys (disk C) wrap64 g sg p in
  after c f pk_path = Some (firstn C P) /\
  forall need, need = (if (12288 <? 2 * N.of_nat w + last_block (firstn (length P - 2 * w) P))%N then N.of_nat (length P) else full_blocks P) ->
  ((N.of_nat C < need)%N -> (exists e, result_of c f = Err e) /\ after c f vk_path = f vk_path) /\
  ((need <= N.of_nat C)%N ->
     after c f vk_path = Some (firstn (C - length P) V) /\
     ((N.min (N.of_nat C) (N.of_nat (length P)) + full_blocks V <= N.of_nat C)%N -> result_of c f = Ok tt) /\
     ((N.of_nat C < N.min (N.of_nat C) (N.of_nat (length P)) + full_blocks V)%N -> exists e, result_of c f = Err e)).
Proof. exact @c51_keys_disk. Qed.
Print Assumptions C51_keys_full_disk.
(* so for every circuit with at most 4096 wires, key can succeed with a cut proving key and an empty verifying key *)
Theorem C51_keys_cut_refuted : forall (E : Ext2) (g sg : E) p f F h (q : par2 E) (v : evals E) w k,
  (forall j, length (dom_bytes (e := E) j) <= N.to_nat 4096) -> length (empty_info (E := E)) <= N.to_nat 4096 ->
  length (ped (e := E) g sg (v_ckk v)) <= N.to_nat 4096 ->
  p <> pk_path -> p <> vk_path -> f p = Some F -> f evals_path = Some (evals_bytes v) ->
  ph2 F h q -> smalls v -> same_wires w v -> h_wires h = Z.of_nat w -> w <= N.to_nat 4096 ->
  new_domain (E := E) (h_domain h) = Some k ->
  let P := pk_bytes k (u64 (h_wires h)) (pk_of q v) in
  let V := vk_bytes (ped (e := E) g sg (v_ckk v)) (empty_info (E := E)) (vk_of q v) in
  (N.of_nat (length V) <= 4096)%N ->
  exists C, C < length P /\ result_of (l_keys (disk C) wrap64 g sg p) f = Ok tt /\
    after (l_keys (disk C) wrap64 g sg p) f pk_path = Some (firstn C P) /\ after (l_keys (disk C) wrap64 g sg p) f vk_path = Some [].
Proof. exact @c51_keys_refuted. Qed.
Print Assumptions C51_keys_cut_refuted.

(* 100 wires: keys of 13365 and 903 bytes; success from 12288 bytes on.  The hypotheses hold for any number of wires. *)
Example C51_case_keys : (forall j, length (dom_bytes (e := Toy2) j) = 1) /\ length (empty_info (E := Toy2)) = 3 /\
  length (ped (e := Toy2) (u 2) (u 6) [u 3]) = 192 /\ new_domain (E := Toy2) 2 = Some 1 /\ pzn <> pk_path /\ pzn <> vk_path /\
  (forall n, (N.of_nat n < 4294967296)%N -> wfs n pzn = Some (wfile n) /\ wfs n evals_path = Some (evals_bytes (wv n)) /\
    ph2 (wfile n) (mkHdr (Z.of_nat n) 2 1 0 1 2 0) (mkPar2 (u 4) (u 4) [u 9] [u 1; u 2]) /\ smalls (wv n) /\ same_wires n (wv n)) /\
  map (wres 100) [0; 12287; 12288; 13364; 13865; 14268]%N =
    [(1, (0, 0)%N); (1, (12287, 0)%N); (0, (12288, 0)%N); (0, (13364, 0)%N); (0, (13365, 500)%N); (0, (13365, 903)%N)].
Proof.
  split; [reflexivity|]. do 3 (split; [vm_compute; reflexivity|]). split; [discriminate|]. split; [discriminate|].
  split; [exact wfs_ok|]. vm_compute. reflexivity.
Qed.
(* 5000 wires: 650365 bytes, of which the loss of the first 647168 is noticed; 6000 wires: all 780365 are needed *)
Example C51_case_lists :
  map (fun n => let w := N.to_nat n in let P := pk_bytes 1 n (pk_of (mkPar2 (u 4) (u 4) [u 9] [u 1; u 2]) (wv w)) in
    (N.of_nat (length P), full_blocks P, 2 * n + last_block (firstn (length P - 2 * w) P)))%N [100; 5000; 6000]%N =
  [(13365, 12288, 1077); (650365, 647168, 11389); (780365, 778240, 14413)]%N.
Proof. vm_compute. reflexivity. Qed.
