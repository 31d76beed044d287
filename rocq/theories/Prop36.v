(* Prop36.v -- property C96: what key makes of any phase-2 file that starts with a header and any evals.  evals_read and
   least_pow are in Spec28.v, ph2 and the bytes of the keys in Spec4.v. *)
From Coq Require Import String.
From Verif Require Import Base Fld IO Ext Spec1 Phase1 Gob GobLemmas Circuit Spec2 Spec3 Fs Init2 Spec4 Keys Toy1 Toy2 Toy3 Toy4 Toy5 Spec28 KeyIff.
Local Open Scope fld_scope.

(* for all bytes behind the header and all bytes in evals: which are accepted, and what is written for them *)
Theorem C96_key : forall (E : Ext2) (g sg : E) p f h t G P V,
  p <> pk_path -> p <> vk_path -> f p = Some (gob_hdr h ++ t) -> f evals_path = Some G ->
  hdr_ok h -> (- 2 ^ 63 < h_domain h)%Z -> (0 <= h_wires h < 72057594037927935)%Z ->
  ((exists f', extract_keys wrap64 g sg p f = (Ok tt, f') /\ f' pk_path = Some P /\ f' vk_path = Some V) <->
   exists k (q : par2 E) v, ph2 (gob_hdr h ++ t) h q /\ least_pow (h_domain h) k /\ k <= kmax E /\ evals_read (h_wires h) G v /\
     P = pk_bytes k (u64 (h_wires h)) (pk_of q v) /\ V = vk_bytes (ped (e := E) g sg (v_ckk v)) (empty_info (E := E)) (vk_of q v)).
Proof. exact @key_iff. Qed.
Print Assumptions C96_key.

(* the split keys: the number in the header is written as it is, no domain is built *)
Theorem C96_split : forall (E : Ext2) (g sg : E) p s f h t G Ps V C,
  ~ In p (split_names s) -> p <> vks_path s -> f p = Some (gob_hdr h ++ t) -> f evals_path = Some G ->
  hdr_ok h -> (- 2 ^ 63 < h_domain h)%Z -> (0 <= h_wires h < 72057594037927935)%Z ->
  ((exists f', extract_split_keys wrap64 g sg p s f = (Ok tt, f') /\ map f' (split_names s) = map Some Ps /\
      f' (vks_path s) = Some V /\ f' (ckey_path s) = Some C) <->
   exists (q : par2 E) v, ph2 (gob_hdr h ++ t) h q /\ evals_read (h_wires h) G v /\ let ck := ped (e := E) g sg (v_ckk v) in
     Ps = split_bytes (u64 (h_domain h)) (u64 (h_wires h)) (pk_of q v) /\ V = vk_bytes ck (empty_info (E := E)) (vk_of q v) /\ C = ck ++ ck).
Proof. exact @split_iff. Qed.
Print Assumptions C96_split.

(* the numbers of points in A, B and B2 are not compared with the number of wires: with anything in place of the
   missing points the keys are written *)
Theorem C96_lengths_refuted : forall (E : Ext2) (g sg : E) p f h t k (q : par2 E) v w gap,
  p <> pk_path -> p <> vk_path -> f p = Some (gob_hdr h ++ t) -> ph2 (gob_hdr h ++ t) h q ->
  least_pow (h_domain h) k -> k <= kmax E -> h_wires h = Z.of_nat w -> (Z.of_nat w < 72057594037927935)%Z -> smalls v ->
  (32 * length (v_A v) + 32 * length (v_B v) + 64 * length (v_B2 v) + length gap = 128 * w)%nat ->
  f evals_path = Some (g1c (v_alpha v) ++ g1c (v_beta1 v) ++ g2c (v_beta2 v) ++ slice1 (v_A v) ++ slice1 (v_B v) ++ slice2 (v_B2 v) ++
    gap ++ slice1 (v_vkk v) ++ slice1 (v_ckk v) ++ v_cmt v) ->
  exists f', extract_keys wrap64 g sg p f = (Ok tt, f') /\ f' pk_path = Some (pk_bytes k (N.of_nat w) (pk_of q v)) /\
    f' vk_path = Some (vk_bytes (ped (e := E) g sg (v_ckk v)) (empty_info (E := E)) (vk_of q v)).
Proof. exact @gap_keys. Qed.
Print Assumptions C96_lengths_refuted.

(* three wires *)
Example C96_case : exists t, let h := mkHdr 3 2 1 0 1 2 0 in let q := mkPar2 (u 4) (u 4) [u 9] [u 1; u 2] in let G := evals_bytes (wv 3) in
  let r := extract_keys (E := Toy2) wrap64 (u 2) (u 6) pzn (wfs 3) in let r' := extract_split_keys (E := Toy2) wrap64 (u 2) (u 6) pzn "s"%string (wfs 3) in
  pzn <> pk_path /\ pzn <> vk_path /\ ~ In pzn (split_names "s"%string) /\ pzn <> vks_path "s"%string /\
  wfs 3 pzn = Some (gob_hdr h ++ t) /\ wfs 3 evals_path = Some G /\
  ph2 (gob_hdr h ++ t) h q /\ least_pow (h_domain h) 1 /\ 1 <= kmax Toy2 /\ evals_read (h_wires h) G (wv 3) /\
  is_ok (fst r) = true /\ has (snd r) pk_path (pk_bytes 1 3 (pk_of q (wv 3))) = true /\
  has (snd r) vk_path (vk_bytes (ped (e := Toy2) (u 2) (u 6) [u 3]) (empty_info (E := Toy2)) (vk_of q (wv 3))) = true /\
  is_ok (fst r') = true /\ forallb (fun '(p, b) => has (snd r') p b) (combine (split_names "s"%string) (split_bytes 2 3 (pk_of q (wv 3)))) = true /\
  is_ok (fst (extract_keys (E := Toy2) wrap64 (u 2) (u 6) pzn (fset (wfs 3) evals_path (firstn 560 G)))) = false.
Proof.
  destruct (wfs_ok 3 ltac:(lia)) as [A1 [A2 [A3 [A4 A5]]]].
  exists (par2_bytes (mkPar2 (E := Toy2) (u 4) (u 4) [u 9] [u 1; u 2])). cbv zeta.
  split; [discriminate|]. split; [discriminate|].
  split; [intros H; repeat (destruct H as [H|H]; [discriminate H|]); destruct H|]. split; [discriminate|].
  assert (W : wfile 3 = gob_hdr (mkHdr 3 2 1 0 1 2 0) ++ par2_bytes (mkPar2 (E := Toy2) (u 4) (u 4) [u 9] [u 1; u 2])) by (apply bytes_eqb_true; vm_compute; reflexivity).
  rewrite <- W. split; [exact A1|]. split; [exact A2|]. split; [exact A3|].
  split; [split; [cbn; lia|intros [|j] J; [cbn in J; lia|lia]]|]. split; [vm_compute; lia|].
  split. { pose proof (gap_read (wv 3) 3 [] A4 ltac:(vm_compute; reflexivity)) as Q. exact Q. }
  split; [vm_compute; reflexivity|]. split; [vm_compute; reflexivity|]. split; [vm_compute; reflexivity|].
  split; [vm_compute; reflexivity|]. split; vm_compute; reflexivity.
Qed.

(* three wires in the header, but A has one point and B and B2 have two; 160 bytes stand for the missing points *)
Example C96_lengths_case : exists t, let h := mkHdr 3 2 1 0 1 2 0 in let q := mkPar2 (u 4) (u 4) [u 9] [u 1; u 2] in
  let v := mkEvals (u 5) (u 7) (u 7) [u 1] [u 4; u 2] [u 4; u 2] [u 9; u 12] [u 3] [b8 1] in let gap := repeat (b8 255) 160 in
  let f := fset (wfs 3) evals_path (g1c (v_alpha v) ++ g1c (v_beta1 v) ++ g2c (v_beta2 v) ++ slice1 (v_A v) ++ slice1 (v_B v) ++ slice2 (v_B2 v) ++
    gap ++ slice1 (v_vkk v) ++ slice1 (v_ckk v) ++ v_cmt v) in
  let r := extract_keys (E := Toy2) wrap64 (u 2) (u 6) pzn f in
  f pzn = Some (gob_hdr h ++ t) /\ ph2 (gob_hdr h ++ t) h q /\ least_pow (h_domain h) 1 /\ 1 <= kmax Toy2 /\ smalls v /\
  (32 * length (v_A v) + 32 * length (v_B v) + 64 * length (v_B2 v) + length gap = 128 * 3)%nat /\ ~ same_wires 3 v /\
  is_ok (fst r) = true /\ has (snd r) pk_path (pk_bytes 1 3 (pk_of q v)) = true.
Proof.
  destruct (wfs_ok 3 ltac:(lia)) as [A1 [A2 [A3 [A4 A5]]]].
  exists (par2_bytes (mkPar2 (E := Toy2) (u 4) (u 4) [u 9] [u 1; u 2])). cbv zeta.
  assert (W : wfile 3 = gob_hdr (mkHdr 3 2 1 0 1 2 0) ++ par2_bytes (mkPar2 (E := Toy2) (u 4) (u 4) [u 9] [u 1; u 2])) by (apply bytes_eqb_true; vm_compute; reflexivity).
  rewrite <- W. split; [rewrite <- A1; reflexivity|]. split; [exact A3|].
  split; [split; [cbn; lia|intros [|j] J; [cbn in J; lia|lia]]|]. split; [vm_compute; lia|].
  split; [unfold smalls; cbn; repeat split; lia|]. split; [vm_compute; reflexivity|].
  split; [intros [H _]; discriminate H|]. split; vm_compute; reflexivity.
Qed.
