(* Prop4.v -- properties C44-C50: key extraction.  extract_keys wr g sg p is the command `key p` and
   extract_split_keys wr g sg p session the command `keys p session`, as functions on file systems; wr is
   the platform's int arithmetic, g and sg what pedersen.Setup samples (Keys.v).  Keys, their files, proofs
   and the verification equation are in Spec4.v. *)
From Coq Require Import String.
From Verif Require Import Base Fld BitRev Poly IO Ext Spec1 Phase1 Phase1Verify Phase1Facts Gob GobLemmas Circuit Spec2 Phase2 Phase2Claims
  Fs Spec3 Init2 Init2Pure Init2More Spec4 Keys KeysProps KeysClaims Toy Toy1 Toy2 Toy3 Toy4.
Local Open Scope fld_scope.

(* C44: what extraction writes, on 64-bit and on 32-bit platforms *)
Theorem C44_vk_offset : forall (E : Ext2) (g sg : E) wr F h q v w,
  ph2 F h q -> smalls v -> same_wires w v -> h_wires h = Z.of_nat w ->
  (wr = wrap64 /\ (Z.of_nat w < 72057594037927935)%Z) \/ (wr = wrap32 /\ (Z.of_nat w < 16777215)%Z) ->
  exec (extract_vk wr g sg) F (evals_bytes v) =
    (Ok (ped (e := E) g sg (v_ckk v)), vk_bytes (ped (e := E) g sg (v_ckk v)) (empty_info (E := E)) (vk_of q v)).
Proof. exact @c44. Qed.
Print Assumptions C44_vk_offset.

(* the section VKK does start at that offset *)
Theorem C44_offset_is_vkk : forall (E : Ext2) (v : evals E) w, same_wires w v ->
  skipn (Z.to_nat (128 * (Z.of_nat w + 1) + 12)) (evals_bytes v) = slice1 (v_vkk v) ++ slice1 (v_ckk v) ++ v_cmt v.
Proof. exact @vkk_at. Qed.
Print Assumptions C44_offset_is_vkk.

(* from 2^24 - 1 wires on, extraction never succeeds with 32-bit ints *)
Theorem C44_vk_offset_32bit_refuted : forall (E : Ext2) (g sg : E) F G h t ck out,
  F = gob_hdr h ++ t -> hdr_ok h -> (16777215 <= h_wires h < 33554431)%Z ->
  exec (extract_vk wrap32 g sg) F G <> (Ok ck, out).
Proof. exact @c44_32. Qed.
Print Assumptions C44_vk_offset_32bit_refuted.

Example C44_case : ph2 kfile (mkHdr 3 2 1 0 1 2 0) (mkPar2 (u 4) (u 4) [u 9] [u 1; u 2]) /\ smalls kv /\ same_wires 3 kv /\
  fst (exec (extract_vk wrap32 (u 2) (u 6)) kfile (evals_bytes kv)) = Ok (g1r (u 2) ++ g1r (u 6) ++ g1r (u 3)) /\
  bytes_eqb (snd (exec (extract_vk wrap64 (u 2) (u 6)) kfile (evals_bytes kv)))
    ((g1r (u 2) ++ g1r (u 6) ++ g1r (u 3)) ++ g1r (u 5) ++ g1r (u 7) ++ g2r (u 7) ++ g2r (u 1) ++ g1r (u 4) ++ g2r (u 4) ++
     (be32 2 ++ g1r (u 9) ++ g1r (u 12)) ++ [b8 0; b8 0; b8 0]) = true /\
  hdr_ok (mkHdr 16777215 4 2 0 3 4 0) /\
  fst (exec (extract_vk wrap32 (u 2) (u 6)) (file2 (mkHdr 16777215 4 2 0 3 4 0) kq0 []) (evals_bytes kv)) = Err ESeek.
Proof.
  split; [apply file2_ph2; [repeat constructor; unfold int64, two63; cbn; lia|split; reflexivity]|].
  split; [repeat split; vm_compute; reflexivity|]. split; [repeat split|].
  split; [vm_compute; reflexivity|]. split; [vm_compute; reflexivity|].
  split; [repeat constructor; unfold int64, two63; cbn; lia|]. vm_compute. reflexivity.
Qed.

(* C45: filterInfinity l = (points that are not the identity, flags, number of identities) *)
Theorem C45_filter : forall (E : Ext2) (l : list E),
  filterInfinity l = (present l, absent l, N.of_nat (count_absent l)) /\ restore (absent l) (present l) = l.
Proof. exact @c45_filter. Qed.
Print Assumptions C45_filter.

(* the flags of B also are the flags of B2: B2 is restored with them *)
Theorem C45_same_flags : forall (E : Ext2) p S0 (cs : r1cs E) f p1 r1 p2,
  init_input p S0 cs f p1 r1 p2 -> no_cmt cs -> tau2 S0 = firstn (2 ^ p) (tau1 S0) ->
  exists f' (v : evals E), p2n (E := E) p1 r1 p2 f = (Ok tt, f') /\ f' evals_path = Some (evals_bytes v) /\
    length (v_B v) = wires cs /\ absent (v_B2 v) = absent (v_B v) /\
    restore (absent (v_B v)) (present (v_B2 v)) = v_B2 v.
Proof. exact @c45_flags. Qed.
Print Assumptions C45_same_flags.

Example C45_case : filterInfinity [u 12; u 0; u 8; u 10; u 0; u 0] =
    ([u 12; u 8; u 10], [false; true; false; false; true; true], 3%N) /\
  init_input 2 tsrs (tcs 0) (tfs 0) p1n r1n p2n' /\ no_cmt (tcs 0) /\
  map (zv 17) (tau2 tsrs) = [1; 3; 9; 10]%Z /\ map (zv 17) (firstn (2 ^ 2) (tau1 tsrs)) = [1; 3; 9; 10]%Z.
Proof. split; [vm_compute; reflexivity|]. split; [apply tfs_input; lia|]. split; [split; reflexivity|]. vm_compute. auto. Qed.

(* C46: unsplit = no hash of a record lies across a 4096-byte boundary of the file (C36) *)
Theorem C46_keypair : forall (E : Ext2) p T A B (cs : r1cs E) f p1 r1 p2 bs (ws : list (E * E)),
  init_input p (srs_of p T A B) cs f p1 r1 p2 -> no_cmt cs -> (N.of_nat (wires cs) < 4294967296)%N ->
  1 <= bs -> (Z.of_nat (length ws) < 9223372036854775808)%Z ->
  exists fa k h (q0 : par2 E), p2n (E := E) p1 r1 p2 f = (Ok tt, fa) /\ fa p2 = Some (file2 h q0 []) /\
    is_dom (length (r_cons cs)) k /\ 1 <= k <= kmax E /\
    ((forall j, (1 <= j <= length ws)%nat -> unsplit (set_contribs h (Z.of_nat j)) q0 j) ->
     exists F hs, ceremony2 (E := E) bs (file2 h q0 []) ws = Ok (F, hs) /\
     forall g sg pz, pz <> pk_path -> pz <> vk_path -> pz <> evals_path ->
     exists fb (q : pkey E) (v : vkey E), extract_keys wrap64 g sg pz (fset fa pz F) = (Ok tt, fb) /\
       fb pk_path = Some (pk_bytes k (N.of_nat (wires cs)) q) /\
       fb vk_path = Some (vk_bytes (ped (e := E) g sg []) (empty_info (E := E)) v) /\
       is_keypair cs k (root k) A B (prodf ws) T q v).
Proof. exact @c46. Qed.
Print Assumptions C46_keypair.

(* the same with the phase-1 file of an honest phase-1 ceremony *)
Theorem C46_keypair_both_phases : forall (E : Ext2) bs p (ws1 : list (@rnd1 E)) (ws2 : list (E * E)) (cs : r1cs E) f p1 r1 p2 rb,
  2 <= bs -> 1 <= p <= 54 -> length ws1 <= N.to_nat 65535 ->
  names_ok p1 r1 p2 -> p1 <> r1 -> f r1 = Some rb -> parse_r1cs rb = Some cs ->
  circuit_ok cs -> length (r_cons cs) <= 2 ^ p -> (Z.of_nat (length (r_cons cs)) <= 2 ^ 27)%Z -> 1 <= kmax E -> length (r_cons cs) <= 2 ^ kmax E ->
  no_cmt cs -> (N.of_nat (wires cs) < 4294967296)%N -> (Z.of_nat (length ws2) < 9223372036854775808)%Z ->
  exists F1 hs1 fa k h (q0 : par2 E), ceremony1 bs p ws1 = Ok (F1, hs1) /\ length hs1 = length ws1 /\
    p2n (E := E) p1 r1 p2 (fset f p1 F1) = (Ok tt, fa) /\ fa p2 = Some (file2 h q0 []) /\
    is_dom (length (r_cons cs)) k /\
    ((forall j, (1 <= j <= length ws2)%nat -> unsplit (set_contribs h (Z.of_nat j)) q0 j) ->
     exists F hs, ceremony2 (E := E) bs (file2 h q0 []) ws2 = Ok (F, hs) /\
     forall g sg pz, pz <> pk_path -> pz <> vk_path -> pz <> evals_path ->
     exists fb (q : pkey E) (v : vkey E), extract_keys wrap64 g sg pz (fset fa pz F) = (Ok tt, fb) /\
       fb pk_path = Some (pk_bytes k (N.of_nat (wires cs)) q) /\
       fb vk_path = Some (vk_bytes (ped (e := E) g sg []) (empty_info (E := E)) v) /\
       is_keypair cs k (root k) (prodl (map (fun w => r_alpha w) ws1)) (prodl (map (fun w => r_beta w) ws1)) (prodf ws2)
         (prodl (map (fun w => r_tau w) ws1)) q v).
Proof. exact @c46_full. Qed.
Print Assumptions C46_keypair_both_phases.

Example C46_case : init_input 2 (srs_of 2 (u 3) (u 5) (u 7)) (tcs 0) (tfs 0) p1n r1n p2n' /\ no_cmt (tcs 0) /\
  has kfa p2n' (file2 kh kq0 []) = true /\
  (forall j, (1 <= j <= length kws)%nat -> unsplit (set_contribs kh (Z.of_nat j)) kq0 j) /\
  let r := extract_keys (E := Toy2) wrap64 (u 2) (u 6) pzn kfs in
  fst r = Ok tt /\ has (snd r) pk_path (pk_bytes 2 6 kpk) = true /\
  has (snd r) vk_path (vk_bytes (g1r (u 2) ++ g1r (u 6)) (empty_info (E := Toy2)) kvk) = true.
Proof.
  split; [apply (tfs_input 0); lia|]. split; [split; reflexivity|]. split; [vm_compute; reflexivity|].
  split; [exact k_unsplit|]. vm_compute. auto.
Qed.

(* phase 1 in one contribution with secrets 3, 5, 7 *)
Example C46_both_case : let fs1 := fset (fun _ => None) r1n [b8 0] in
  fs1 r1n = Some [b8 0] /\ parse_r1cs (e := Toy2) [b8 0] = Some (tcs 0) /\ names_ok p1n r1n p2n' /\ p1n <> r1n /\
  has (snd (p2n (E := Toy2) p1n r1n p2n' (fset fs1 p1n
    (cer_file (ceremony1 (E := Toy2) 2 2 [mkRnd1 (u 3) (u 5) (u 7) (u 2) (u 4) (u 6)]))))) p2n' (file2 kh kq0 []) = true.
Proof.
  cbv zeta. split; [reflexivity|]. split; [reflexivity|]. split; [repeat split; discriminate|]. split; [discriminate|].
  vm_compute. reflexivity.
Qed.

(* C47 *)
Theorem C47_completeness : forall (E : Ext2) p T A B (cs : r1cs E) f p1 r1 p2 bs (ws : list (E * E)),
  init_input p (srs_of p T A B) cs f p1 r1 p2 -> no_cmt cs -> (N.of_nat (wires cs) < 4294967296)%N ->
  1 <= bs -> (Z.of_nat (length ws) < 9223372036854775808)%Z -> prodf (E := E) ws <> 0 ->
  exists fa k h (q0 : par2 E), p2n (E := E) p1 r1 p2 f = (Ok tt, fa) /\ fa p2 = Some (file2 h q0 []) /\
    ((forall j, (1 <= j <= length ws)%nat -> unsplit (set_contribs h (Z.of_nat j)) q0 j) ->
     exists F hs, ceremony2 (E := E) bs (file2 h q0 []) ws = Ok (F, hs) /\
     forall g sg pz, pz <> pk_path -> pz <> vk_path -> pz <> evals_path ->
     exists fb (q : pkey E) (v : vkey E), extract_keys wrap64 g sg pz (fset fa pz F) = (Ok tt, fb) /\
       fb pk_path = Some (pk_bytes k (N.of_nat (wires cs)) q) /\
       fb vk_path = Some (vk_bytes (ped (e := E) g sg []) (empty_info (E := E)) v) /\
       forall x, (satisfies cs x <-> exists h, quotient cs x (2 ^ k) (root k) h) /\
         forall h r s ar bs krs, quotient cs x (2 ^ k) (root k) h -> proves q cs k x h r s ar bs krs -> accepts v cs x ar bs krs).
Proof. exact @c47. Qed.
Print Assumptions C47_completeness.

(* the same for every key pair, however made *)
Theorem C47_keypair_complete : forall (E : Ext2) k (cs : r1cs E) alpha beta delta tau q v x,
  1 <= k <= kmax E -> (length (r_cons cs) <= 2 ^ k)%nat ->
  delta <> 0 -> is_keypair cs k (root k) alpha beta delta tau q v ->
  (satisfies cs x <-> exists h, quotient cs x (2 ^ k) (root k) h) /\
  forall h r s ar bs krs, quotient cs x (2 ^ k) (root k) h -> proves q cs k x h r s ar bs krs -> accepts v cs x ar bs krs.
Proof. exact @c47_spec. Qed.
Print Assumptions C47_keypair_complete.

(* the keys are those of C46_case; another statement is not accepted with the same proof *)
Example C47_case : prodf (E := Toy2) kws <> 0 /\ satisfies (tcs 0) kx /\ ~ satisfies (tcs 0) kbad /\
  quotient (tcs 0) kx (2 ^ 2) (root (e := Toy2) 2) [u 14; u 3; u 6] /\
  proves kpk (tcs 0) 2 kx [u 14; u 3; u 6] (u 2) (u 3) (u 5) (u 9) (u 5) /\
  accepts kvk (tcs 0) kx (u 5) (u 9) (u 5) /\ ~ accepts kvk (tcs 0) kbad (u 5) (u 9) (u 5).
Proof.
  split; [fld_neq|]. split; [exact kx_sat|]. split; [exact kbad_sat|]. split; [exact kquot|]. split; [exact kproves|].
  split; [by17|fld_neq].
Qed.

(* C48: for every file system on which `key` succeeds *)
Theorem C48_split_same : forall (E : Ext2) wr (g sg : E) p s f f1,
  p <> pk_path -> p <> vk_path -> ~ In p (split_names s) -> p <> vks_path s ->
  extract_keys wr g sg p f = (Ok tt, f1) ->
  exists f2 k dom nw (q : pkey E) (v : vkey E), let ck := ped (e := E) g sg (w_ck v) in
    extract_split_keys wr g sg p s f = (Ok tt, f2) /\
    f1 pk_path = Some (pk_bytes k nw q) /\ map f2 (split_names s) = map Some (split_bytes dom nw q) /\
    f1 vk_path = Some (vk_bytes ck (empty_info (E := E)) v) /\ f2 (vks_path s) = f1 vk_path /\
    f2 (ckey_path s) = Some (ck ++ ck).
Proof. exact @c48. Qed.
Print Assumptions C48_split_same.

(* the names of the files *)
Theorem C48_names : forall s : string,
  split_names s = [s ++ ".pk.E.save"; s ++ ".pk.A.save"; s ++ ".pk.B1.save"; s ++ ".pk.Z.save"; s ++ ".pk.K.save"; s ++ ".pk.B2.save"]%string /\
  vks_path s = (s ++ ".vk.save")%string /\ ckey_path s = (s ++ ".pk.CommitmentKey.save")%string /\
  pk_path = "pk"%string /\ vk_path = "vk"%string /\ evals_path = "evals"%string.
Proof. exact c48_names. Qed.
Print Assumptions C48_names.

(* after a ceremony *)
Theorem C48_split_keypair : forall (E : Ext2) p T A B (cs : r1cs E) f p1 r1 p2 bs (ws : list (E * E)),
  init_input p (srs_of p T A B) cs f p1 r1 p2 -> no_cmt cs -> (N.of_nat (wires cs) < 4294967296)%N ->
  1 <= bs -> (Z.of_nat (length ws) < 9223372036854775808)%Z ->
  exists fa k h (q0 : par2 E), p2n (E := E) p1 r1 p2 f = (Ok tt, fa) /\ fa p2 = Some (file2 h q0 []) /\
    is_dom (length (r_cons cs)) k /\
    ((forall j, (1 <= j <= length ws)%nat -> unsplit (set_contribs h (Z.of_nat j)) q0 j) ->
     exists F hs, ceremony2 (E := E) bs (file2 h q0 []) ws = Ok (F, hs) /\
     forall g sg pz session, ~ In pz (split_names session) -> pz <> vks_path session -> pz <> evals_path ->
     exists fb (q : pkey E) (v : vkey E), extract_split_keys wrap64 g sg pz session (fset fa pz F) = (Ok tt, fb) /\
       map fb (split_names session) = map Some (split_bytes (N.of_nat (2 ^ k)) (N.of_nat (wires cs)) q) /\
       fb (vks_path session) = Some (vk_bytes (ped (e := E) g sg []) (empty_info (E := E)) v) /\
       is_keypair cs k (root k) A B (prodf ws) T q v).
Proof. exact @c48_pipeline. Qed.
Print Assumptions C48_split_keypair.

Example C48_case : let r := extract_split_keys (E := Toy2) wrap64 (u 2) (u 6) pzn "s"%string kfs in
  fst (extract_keys (E := Toy2) wrap64 (u 2) (u 6) pzn kfs) = Ok tt /\
  pzn <> pk_path /\ pzn <> vk_path /\ ~ In pzn (split_names "s"%string) /\ pzn <> vks_path "s"%string /\
  fst r = Ok tt /\ forallb (fun '(p, b) => has (snd r) p b) (combine (split_names "s"%string) (split_bytes 4 6 kpk)) = true /\
  split_names "s"%string = ["s.pk.E.save"; "s.pk.A.save"; "s.pk.B1.save"; "s.pk.Z.save"; "s.pk.K.save"; "s.pk.B2.save"]%string.
Proof.
  cbv zeta. split; [vm_compute; reflexivity|]. split; [discriminate|]. split; [discriminate|].
  split; [intros H; repeat (destruct H as [H|H]; [discriminate H|]); destruct H|]. split; [discriminate|].
  split; [vm_compute; reflexivity|]. split; [vm_compute; reflexivity|reflexivity].
Qed.

(* C49: the commitment info in vk is the empty one, on every input on which extraction succeeds *)
Theorem C49_commitment_info_refuted : forall (E : Ext2) wr (g sg : E) F G ck out,
  exec (extract_vk wr g sg) F G = (Ok ck, out) -> exists v : vkey E, out = vk_bytes ck (empty_info (E := E)) v.
Proof. exact @c49. Qed.
Print Assumptions C49_commitment_info_refuted.

(* for a circuit that commits to a public wire (C32), whose info evals holds *)
Example C49_case : let fa := snd (p2n (E := Toy2) p1n r1n p2n' (tfs 5)) in
  fst (p2n (E := Toy2) p1n r1n p2n' (tfs 5)) = Ok tt /\
  r_cmt (tcs 5) = mkCmt [1%nat] 0 2 /\ cmt_bytes (e := Toy2) (r_cmt (tcs 5)) = [b8 1; b8 0; b8 2] /\
  empty_info (E := Toy2) = [b8 0; b8 0; b8 0] /\
  option_map (fun b => skipn (length b - 3) b) (fa evals_path) = Some [b8 1; b8 0; b8 2] /\
  let r := extract_keys (E := Toy2) wrap64 (u 2) (u 6) p2n' fa in
  fst r = Ok tt /\ option_map (fun b => skipn (length b - 3) b) (snd r vk_path) = Some [b8 0; b8 0; b8 0].
Proof. vm_compute. auto 10. Qed.

(* C50: A, B and the verifying key are those of the second circuit, K and Z those of the first *)
Theorem C50_own_evals_refuted : forall (E : Ext2) p T A B (cs1 cs2 : r1cs E) f p1 r1 r2 p2 p2',
  init_input p (srs_of p T A B) cs1 f p1 r1 p2 -> init_input p (srs_of p T A B) cs2 f p1 r2 p2' ->
  no_cmt cs1 -> no_cmt cs2 -> p2 <> p2' -> r2 <> p2 -> p2 <> pk_path -> p2 <> vk_path ->
  wires cs1 = wires cs2 -> (N.of_nat (wires cs1) < 4294967296)%N ->
  exists fa fb k1 k2 t1 t2, p2n (E := E) p1 r1 p2 f = (Ok tt, fa) /\ p2n (E := E) p1 r2 p2' fa = (Ok tt, fb) /\
    is_dom (length (r_cons cs1)) k1 /\ lag_values (2 ^ k1) (root k1) T t1 /\
    is_dom (length (r_cons cs2)) k2 /\ lag_values (2 ^ k2) (root k2) T t2 /\
    forall g sg, exists fc (q : pkey E) (v : vkey E), extract_keys wrap64 g sg p2 fb = (Ok tt, fc) /\
      fc pk_path = Some (pk_bytes k1 (N.of_nat (wires cs1)) q) /\
      fc vk_path = Some (vk_bytes (ped (e := E) g sg []) (empty_info (E := E)) v) /\
      q_K q = map (kat cs1 A B t1) (seq (nb_public cs1) (wires cs1 - nb_public cs1)) /\ length (q_Z q) = (2 ^ k1 - 1)%nat /\
      q_A q = map (col cs2 r_L t2) (seq 0 (wires cs2)) /\ q_B q = map (col cs2 r_R t2) (seq 0 (wires cs2)) /\ q_B2 q = q_B q /\
      w_K v = map (kat cs2 A B t2) (seq 0 (nb_public cs2)).
Proof. exact @c50. Qed.
Print Assumptions C50_own_evals_refuted.

(* extracting after the second initialisation gives another pk and vk than before it *)
Example C50_case : init_input 2 (srs_of 2 (u 3) (u 5) (u 7)) (tcs 0) tfs2 p1n r1n p2n' /\
  init_input 2 (srs_of 2 (u 3) (u 5) (u 7)) (tcs 1) tfs2 p1n r2n p2n'' /\
  no_cmt (tcs 0) /\ no_cmt (tcs 1) /\ wires (tcs 0) = wires (tcs 1) /\
  let fa := snd (p2n (E := Toy2) p1n r1n p2n' tfs2) in let fb := snd (p2n (E := Toy2) p1n r2n p2n'' fa) in
  let ra := extract_keys (E := Toy2) wrap64 (u 2) (u 6) p2n' fa in let rb := extract_keys (E := Toy2) wrap64 (u 2) (u 6) p2n' fb in
  fst ra = Ok tt /\ fst rb = Ok tt /\ fa p2n' = fb p2n' /\
  match snd ra pk_path with Some b => has (snd rb) pk_path b | None => true end = false /\
  match snd ra vk_path with Some b => has (snd rb) vk_path b | None => true end = false.
Proof.
  split; [exact tfs2_input1|]. split; [exact tfs2_input2|]. split; [split; reflexivity|]. split; [split; reflexivity|].
  split; [reflexivity|]. vm_compute. auto.
Qed.
