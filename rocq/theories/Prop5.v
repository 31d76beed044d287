(* Prop5.v -- properties C18, C51, C52, C55, C56: what the commands do to the files when writes fail, when
   the process is killed and when input and output are the same file.  l_contribute dev .. etc. are the
   commands on a device dev (Live.v: how many bytes of a write it takes, which files can be created; no_limit: all, disk C: C bytes
   of free space); exec p F F is what p computes from the bytes F without failures. *)
From Coq Require Import String.
From Verif Require Import Base Fld IO Ext Spec1 Phase1 Phase1Verify Gob Circuit Spec2 Phase2 Fs Spec3 Init2 Spec4 Keys
  Live LiveCmd Spec5 LiveProps LiveGrow Toy Toy1 Toy2 Toy3 Toy4 Toy5.

(* C18: whatever happens, only the output file changes *)
Theorem C18_contribute : forall (E : Ext) dev bs (w : @rnd1 E) ip op, confined [op] (l_contribute dev bs w ip op).
Proof. exact @c18_contribute. Qed.
Print Assumptions C18_contribute.
Theorem C18_contribute2 : forall (E : Ext2) dev bs (d s : E) ip op, confined [op] (l_contribute2 dev bs d s ip op).
Proof. exact @c18_contribute2. Qed.
Print Assumptions C18_contribute2.
Theorem C18_transform : forall (E : Ext) dev pin pout ip op, confined [op] (l_transform (E := E) dev pin pout ip op).
Proof. exact @c18_transform. Qed.
Print Assumptions C18_transform.
(* with input = output, the file is lost *)
Theorem C18_same_file : forall (E : Ext) dev bs (w : @rnd1 E) p f, can_create dev 0 p = true -> f p <> None ->
  result_of (l_contribute dev bs w p p) f = Err EEof /\ after (l_contribute dev bs w p p) f p = Some [].
Proof. exact @c18_same. Qed.
Print Assumptions C18_same_file.
Theorem C18_same_file2 : forall (E : Ext2) dev bs (d s : E) p f, can_create dev 0 p = true -> f p <> None ->
  result_of (l_contribute2 dev bs d s p p) f = Err EEof /\ after (l_contribute2 dev bs d s p p) f p = Some [].
Proof. exact @c18_same2. Qed.
Print Assumptions C18_same_file2.
Theorem C18_same_file_transform : forall (E : Ext) dev pin pout p f, can_create dev 0 p = true -> f p <> None ->
  (exists e, result_of (l_transform (E := E) dev pin pout p p) f = Err e) /\
  exists n, after (l_transform (E := E) dev pin pout p p) f p = Some (firstn n [pout; x00; x00]).
Proof. exact @c18_same_transform. Qed.
Print Assumptions C18_same_file_transform.

Example C18_case :
  (* a working device, a full one, a truncated input, and the input as output *)
  let c dev op := l_contribute dev 32 (tw1 true) ian op in
  let short := fset ifs ian (firstn 1000 iF) in
  ires (result_of (c no_limit obn) ifs) = 0 /\ ilen (after (c no_limit obn) ifs) obn = 6819%N /\
  ires (result_of (c (disk 10) obn) ifs) = 1 /\ ilen (after (c (disk 10) obn) ifs) obn = 10%N /\
  ires (result_of (c no_limit obn) short) = 1 /\ ilen (after (c no_limit obn) short) ian = 1000%N /\
  has (after (c (disk 10) obn) ifs) ian iF = true /\ has ifs obn [b8 1; b8 2] = true /\
  ires (result_of (c no_limit ian) ifs) = 1 /\ after (c no_limit ian) ifs ian = Some [] /\
  after (l_transform (E := Toy true) no_limit (b8 2) (b8 1) ian ian) ifs ian = Some [b8 1; b8 0; b8 0].
Proof. repeat (split; [vm_compute; reflexivity|]). vm_compute. reflexivity. Qed.

(* C51: Contribute on a disk with C bytes left *)
Theorem C51_full_disk : forall (E : Ext) bs (w : @rnd1 E) ip op f F h O C, ip <> op -> f ip = Some F ->
  exec (contribute bs w) F F = (Ok h, O) ->
  after (l_contribute (disk C) bs w ip op) f op = Some (firstn C O) /\
  ((3 + 4096 * ((N.of_nat (length O) - 644) / 4096) <= N.of_nat C)%N -> result_of (l_contribute (disk C) bs w ip op) f = Ok h) /\
  ((N.of_nat C < 3 + 4096 * ((N.of_nat (length O) - 644) / 4096))%N -> exists e, result_of (l_contribute (disk C) bs w ip op) f = Err e).
Proof. exact @c51_contribute. Qed.
Print Assumptions C51_full_disk.
Theorem C51_full_disk2 : forall (E : Ext2) bs (d s : E) ip op f F h O C, ip <> op -> f ip = Some F ->
  exec (contribute2 bs d s) F F = (Ok h, O) ->
  after (l_contribute2 (disk C) bs d s ip op) f op = Some (firstn C O) /\
  ((4096 * ((N.of_nat (length O) - 193) / 4096) <= N.of_nat C)%N -> result_of (l_contribute2 (disk C) bs d s ip op) f = Ok h) /\
  ((N.of_nat C < 4096 * ((N.of_nat (length O) - 193) / 4096))%N -> exists e, result_of (l_contribute2 (disk C) bs d s ip op) f = Err e).
Proof. exact @c51_contribute2. Qed.
Print Assumptions C51_full_disk2.
(* so that success does not mean that the file is complete, for any contribution (the outputs have more
   than the 643 and 192 bytes of the header and one record) *)
Theorem C51_reported_refuted : forall (E : Ext) bs (w : @rnd1 E) ip op f F h O, ip <> op -> f ip = Some F ->
  exec (contribute bs w) F F = (Ok h, O) -> 643 < length O ->
  exists C, C < length O /\ result_of (l_contribute (disk C) bs w ip op) f = Ok h /\
    after (l_contribute (disk C) bs w ip op) f op <> Some O.
Proof. exact @c51_refuted. Qed.
Print Assumptions C51_reported_refuted.
Theorem C51_reported2_refuted : forall (E : Ext2) bs (d s : E) ip op f F h O, ip <> op -> f ip = Some F ->
  exec (contribute2 bs d s) F F = (Ok h, O) -> 192 < length O ->
  exists C, C < length O /\ result_of (l_contribute2 (disk C) bs d s ip op) f = Ok h /\
    after (l_contribute2 (disk C) bs d s ip op) f op <> Some O.
Proof. exact @c51_refuted2. Qed.
Print Assumptions C51_reported2_refuted.
(* on any device: a returned hash is the one a working device would have given *)
Theorem C51_hash : forall (E : Ext) dev bs (w : @rnd1 E) ip op f F h, ip <> op -> f ip = Some F ->
  result_of (l_contribute dev bs w ip op) f = Ok h -> exists O, exec (contribute bs w) F F = (Ok h, O).
Proof. exact @c51_hash. Qed.
Print Assumptions C51_hash.
Theorem C51_hash2 : forall (E : Ext2) dev bs (d s : E) ip op f F h, ip <> op -> f ip = Some F ->
  result_of (l_contribute2 dev bs d s ip op) f = Ok h -> exists O, exec (contribute2 bs d s) F F = (Ok h, O).
Proof. exact @c51_hash2. Qed.
Print Assumptions C51_hash2.

Example C51_case : ian <> obn /\ ifs ian = Some iF /\ exec (contribute 32 (tw1 true)) iF iF = (Ok ih, iO) /\
  N.of_nat (length iO) = 6819%N /\ (3 + 4096 * ((6819 - 644) / 4096) = 4099)%N /\
  map (fun n => let c := l_contribute (disk (N.to_nat n)) 32 (tw1 true) ian obn in (ires (result_of c ifs), ilen (after c ifs) obn))
    [0; 3; 4098; 4099; 6818; 6819; 7000]%N = [(1, 0%N); (1, 3%N); (1, 4098%N); (0, 4099%N); (0, 6818%N); (0, 6819%N); (0, 6819%N)].
Proof. split; [discriminate|]. repeat (split; [vm_compute; reflexivity|]). vm_compute. reflexivity. Qed.
Example C51_case2 : p2n' <> pzn /\ kfs p2n' = Some (contents kfs p2n') /\
  (let x := exec (contribute2 (E := Toy2) 2 (u 3) (u 5)) (contents kfs p2n') (contents kfs p2n') in ires (fst x) = 0 /\ N.of_nat (length (snd x)) = 648%N) /\
  (* nothing is stored, and the contribution is reported *)
  result_of (l_contribute2 (E := Toy2) (disk 0) 2 (u 3) (u 5) p2n' pzn) kfs =
    fst (exec (contribute2 (E := Toy2) 2 (u 3) (u 5)) (contents kfs p2n') (contents kfs p2n')) /\
  after (l_contribute2 (E := Toy2) (disk 0) 2 (u 3) (u 5) p2n' pzn) kfs pzn = Some [].
Proof. split; [discriminate|]. split; [vm_compute; reflexivity|]. split; [vm_compute; split; reflexivity|]. split; vm_compute; reflexivity. Qed.

(* the other commands do not report it either: p2n leaves a cut phase-2 file, key a cut proving key *)
Theorem C51_p2n_reported_refuted : exists (E : Ext2) (f : fs) p1 r1 p2 C,
  result_of (l_p2n (E := E) (disk C) p1 r1 p2) f = Ok tt /\ fst (p2n (E := E) p1 r1 p2 f) = Ok tt /\
  after (l_p2n (E := E) (disk C) p1 r1 p2) f p2 <> snd (p2n (E := E) p1 r1 p2 f) p2.
Proof. exact c51_p2n. Qed.
Print Assumptions C51_p2n_reported_refuted.
Theorem C51_keys_reported_refuted : exists (E : Ext2) (g sg : E) (f : fs) p,
  result_of (l_keys (disk 0) wrap64 g sg p) f = Ok tt /\ fst (extract_keys wrap64 g sg p f) = Ok tt /\
  after (l_keys (disk 0) wrap64 g sg p) f pk_path = Some [].
Proof. exact c51_keys. Qed.
Print Assumptions C51_keys_reported_refuted.
Theorem C51_initialize_full_disk : forall (E : Ext) pw op f O C, op <> EmptyString -> exec (initialize (E := E) pw) [] [] = (Ok tt, O) ->
  after (l_initialize (E := E) (disk C) pw op) f op = Some (firstn C O) /\
  ((N.min 3 (N.of_nat C) + 1048576 * ((N.of_nat (length O) - 68) / 1048576) <= N.of_nat C)%N -> result_of (l_initialize (E := E) (disk C) pw op) f = Ok tt) /\
  ((N.of_nat C < N.min 3 (N.of_nat C) + 1048576 * ((N.of_nat (length O) - 68) / 1048576))%N -> exists e, result_of (l_initialize (E := E) (disk C) pw op) f = Err e).
Proof. exact @c51_initialize. Qed.
Print Assumptions C51_initialize_full_disk.
Theorem C51_initialize_reported_refuted : forall (E : Ext) pw op f O, op <> EmptyString ->
  exec (initialize (E := E) pw) [] [] = (Ok tt, O) -> 3 < length O ->
  exists C, C < length O /\ result_of (l_initialize (E := E) (disk C) pw op) f = Ok tt /\
    after (l_initialize (E := E) (disk C) pw op) f op <> Some O.
Proof. exact @c51_init. Qed.
Print Assumptions C51_initialize_reported_refuted.
Example C51_case_initialize : exec (initialize (E := Toy true) (b8 1)) [] [] = (Ok tt, file1 1 (srs_of 1 (z17 true 1) (z17 true 1) (z17 true 1)) []) /\
  ires (result_of (l_initialize (E := Toy true) (disk 0) (b8 1) obn) ifs) = 0 /\
  after (l_initialize (E := Toy true) (disk 0) (b8 1) obn) ifs obn = Some [].
Proof. repeat (split; [vm_compute; reflexivity|]). vm_compute. reflexivity. Qed.

(* C52: killed at any time, on any device, Contribute leaves a prefix of the output O (or the old file) and
   nothing else changed *)
Theorem C52_contribute : forall (E : Ext) dev bs (w : @rnd1 E) ip op f F r O, ip <> op -> f ip = Some F ->
  exec (contribute bs w) F F = (r, O) ->
  (can_create dev 0 op = true -> exists n, after (l_contribute dev bs w ip op) f op = Some (firstn n O)) /\
  (can_create dev 0 op = false -> result_of (l_contribute dev bs w ip op) f = Err ECreate /\ after (l_contribute dev bs w ip op) f = f) /\
  forall g, killed (l_contribute dev bs w ip op) f g ->
    (forall q, q <> op -> g q = f q) /\ (g op = f op \/ exists n, g op = Some (firstn n O)).
Proof. exact @c52_contribute. Qed.
Print Assumptions C52_contribute.
Theorem C52_contribute2 : forall (E : Ext2) dev bs (d s : E) ip op f F r O, ip <> op -> f ip = Some F ->
  exec (contribute2 bs d s) F F = (r, O) ->
  (can_create dev 0 op = true -> exists n, after (l_contribute2 dev bs d s ip op) f op = Some (firstn n O)) /\
  (can_create dev 0 op = false -> result_of (l_contribute2 dev bs d s ip op) f = Err ECreate /\ after (l_contribute2 dev bs d s ip op) f = f) /\
  forall g, killed (l_contribute2 dev bs d s ip op) f g ->
    (forall q, q <> op -> g q = f q) /\ (g op = f op \/ exists n, g op = Some (firstn n O)).
Proof. exact @c52_contribute2. Qed.
Print Assumptions C52_contribute2.

(* killed in the middle of the third of four writes *)
Example C52_case : exists g, killed (l_contribute no_limit 32 (tw1 true) ian obn) ifs g /\ g ian = Some iF /\
  exec (contribute 32 (tw1 true)) iF iF = (Ok ih, iO) /\ length (w_ops (snd (l_contribute no_limit 32 (tw1 true) ian obn (start ifs)))) = 5 /\
  has g obn (firstn 1000 iO) = true.
Proof.
  set (ops := w_ops (snd (l_contribute no_limit 32 (tw1 true) ian obn (start ifs)))).
  set (d := match nth 3 ops (OTrunc obn) with OApp _ d => d | _ => [] end).
  exists (replay (firstn 3 ops ++ [OApp obn (firstn 997 d)]) ifs).
  split.
  - eexists. split; [|reflexivity]. right. exists (firstn 3 ops), obn, d, 997, (skipn 4 ops).
    split; [vm_compute; reflexivity|reflexivity].
  - repeat (split; [vm_compute; reflexivity|]). vm_compute. reflexivity.
Qed.

(* the other commands leave prefixes of what they would have left (C55: on a working device, of the complete
   files) *)
Theorem C52_transform : forall (E : Ext) dev pin pout ip op, prefixes (l_transform (E := E) dev pin pout ip op).
Proof. exact @grow_transform. Qed.
Print Assumptions C52_transform.
Theorem C52_initialize : forall (E : Ext) dev pw op, prefixes (l_initialize (E := E) dev pw op).
Proof. exact @grow_init. Qed.
Print Assumptions C52_initialize.
Theorem C52_p2n : forall (E : Ext2) dev p1 r1 p2, p2 <> lag_path -> p2 <> evals_path -> prefixes (l_p2n (E := E) dev p1 r1 p2).
Proof. exact @grow_p2n. Qed.
Print Assumptions C52_p2n.
Theorem C52_p2np : forall (E : Ext2) dev (cs : r1cs E) p1 p2 nbCons, p2 <> lag_path -> p2 <> evals_path ->
  prefixes (l_p2np (E := E) dev cs p1 p2 nbCons).
Proof. exact @grow_p2np. Qed.
Print Assumptions C52_p2np.
Theorem C52_keys : forall (E : Ext2) dev wr (g sg : E) p, prefixes (l_keys dev wr g sg p).
Proof. exact @grow_keys. Qed.
Print Assumptions C52_keys.
Theorem C52_split_keys : forall (E : Ext2) dev wr (g sg : E) p session, prefixes (l_split_keys dev wr g sg p session).
Proof. exact @grow_split_keys. Qed.
Print Assumptions C52_split_keys.

(* extraction killed in the middle of the verifying key: the proving key is complete *)
Example C52_case_keys : let c := l_keys no_limit wrap64 (u 2) (u 6) pzn in
  exists g, killed c kfs g /\ g pk_path = after c kfs pk_path /\ ilen g pk_path = 921%N /\ ilen g vk_path = 5%N /\
    (5 < ilen (after c kfs) vk_path)%N.
Proof.
  cbv zeta. set (ops := w_ops (snd (l_keys no_limit wrap64 (u 2) (u 6) pzn (start kfs)))).
  set (n := length ops - 1). set (d := match nth n ops (OTrunc vk_path) with OApp _ d => d | _ => [] end).
  exists (replay (firstn n ops ++ [OApp vk_path (firstn 5 d)]) kfs). split.
  - eexists. split; [|reflexivity]. right. exists (firstn n ops), vk_path, d, 5, []. split; [vm_compute; reflexivity|reflexivity].
  - repeat (split; [vm_compute; reflexivity|]). vm_compute. reflexivity.
Qed.

(* C55: on a working device nothing is left in a buffer: the commands leave behind what they wrote *)
Theorem C55_contribute : forall (E : Ext) bs (w : @rnd1 E) ip op f F r O, ip <> op -> f ip = Some F ->
  exec (contribute bs w) F F = (r, O) ->
  result_of (l_contribute no_limit bs w ip op) f = r /\ after (l_contribute no_limit bs w ip op) f op = Some O.
Proof. exact @c55_1. Qed.
Print Assumptions C55_contribute.
Theorem C55_contribute2 : forall (E : Ext2) bs (d s : E) ip op f F r O, ip <> op -> f ip = Some F ->
  exec (contribute2 bs d s) F F = (r, O) ->
  result_of (l_contribute2 no_limit bs d s ip op) f = r /\ after (l_contribute2 no_limit bs d s ip op) f op = Some O.
Proof. exact @c55_2. Qed.
Print Assumptions C55_contribute2.
Theorem C55_transform : forall (E : Ext) pin pout ip op f F r O, ip <> op -> f ip = Some F ->
  exec (transform (E := E) pin pout) F F = (r, O) ->
  result_of (l_transform (E := E) no_limit pin pout ip op) f = r /\ after (l_transform (E := E) no_limit pin pout ip op) f op = Some O.
Proof. exact @c55_t. Qed.
Print Assumptions C55_transform.
Theorem C55_initialize : forall (E : Ext) pw op f r O, op <> EmptyString -> exec (initialize (E := E) pw) [] [] = (r, O) ->
  result_of (l_initialize (E := E) no_limit pw op) f = r /\ after (l_initialize (E := E) no_limit pw op) f op = Some O.
Proof. exact @c55_i. Qed.
Print Assumptions C55_initialize.
Theorem C55_p2n : forall (E : Ext2) p1 r1 p2 f,
  p1 <> p2 -> p1 <> lag_path -> p1 <> evals_path -> p2 <> lag_path -> p2 <> evals_path ->
  result_of (l_p2n (E := E) no_limit p1 r1 p2) f = fst (p2n (E := E) p1 r1 p2 f) /\
  forall q, after (l_p2n (E := E) no_limit p1 r1 p2) f q = snd (p2n (E := E) p1 r1 p2 f) q.
Proof. exact @c55_n. Qed.
Print Assumptions C55_p2n.
Theorem C55_p2np : forall (E : Ext2) (cs : r1cs E) p1 p2 nbCons f,
  p1 <> p2 -> p1 <> lag_path -> p1 <> evals_path -> p2 <> lag_path -> p2 <> evals_path ->
  result_of (l_p2np (E := E) no_limit cs p1 p2 nbCons) f = fst (p2np (E := E) cs p1 p2 nbCons f) /\
  forall q, after (l_p2np (E := E) no_limit cs p1 p2 nbCons) f q = snd (p2np (E := E) cs p1 p2 nbCons f) q.
Proof. exact @c55_np. Qed.
Print Assumptions C55_p2np.
Theorem C55_keys : forall (E : Ext2) wr (g sg : E) p f, p <> pk_path -> p <> vk_path ->
  result_of (l_keys no_limit wr g sg p) f = fst (extract_keys wr g sg p f) /\
  forall q, after (l_keys no_limit wr g sg p) f q = snd (extract_keys wr g sg p f) q.
Proof. exact @c55_k. Qed.
Print Assumptions C55_keys.
Theorem C55_split_keys : forall (E : Ext2) wr (g sg : E) p session f, ~ In p (split_names session) -> p <> vks_path session ->
  result_of (l_split_keys no_limit wr g sg p session) f = fst (extract_split_keys wr g sg p session f) /\
  forall q, after (l_split_keys no_limit wr g sg p session) f q = snd (extract_split_keys wr g sg p session f) q.
Proof. exact @c55_sk. Qed.
Print Assumptions C55_split_keys.

Example C55_case : exec (contribute 32 (tw1 true)) iF iF = (Ok ih, iO) /\
  has (after (l_contribute no_limit 32 (tw1 true) ian obn) ifs) obn iO = true /\
  ires (fst (p2n (E := Toy2) p1n r1n p2n' (tfs 0))) = 0 /\
  (p1n <> p2n' /\ p1n <> lag_path /\ p1n <> evals_path /\ p2n' <> lag_path /\ p2n' <> evals_path) /\
  ires (fst (extract_keys wrap64 (u 2) (u 6) pzn kfs)) = 0 /\
  ires (result_of (l_keys no_limit wrap64 (u 2) (u 6) pzn) kfs) = 0 /\
  ilen (after (l_keys no_limit wrap64 (u 2) (u 6) pzn) kfs) pk_path = 921%N.
Proof.
  do 3 (split; [vm_compute; reflexivity|]). split; [repeat split; discriminate|].
  do 2 (split; [vm_compute; reflexivity|]). vm_compute. reflexivity.
Qed.

(* C56: the other commands also change nothing but their outputs, on any device, killed at any time *)
Theorem C56_initialize : forall (E : Ext) dev pw op, confined [op] (l_initialize (E := E) dev pw op).
Proof. exact @c18_initialize. Qed.
Print Assumptions C56_initialize.
Theorem C56_p2n : forall (E : Ext2) dev p1 r1 p2, confined [p2; lag_path; evals_path] (l_p2n (E := E) dev p1 r1 p2).
Proof. exact @c56_p2n. Qed.
Print Assumptions C56_p2n.
Theorem C56_p2np : forall (E : Ext2) dev (cs : r1cs E) p1 p2 nbCons, confined [p2; lag_path; evals_path] (l_p2np (E := E) dev cs p1 p2 nbCons).
Proof. exact @c56_p2np. Qed.
Print Assumptions C56_p2np.
Theorem C56_keys : forall (E : Ext2) dev wr (g sg : E) p, confined [pk_path; vk_path] (l_keys dev wr g sg p).
Proof. exact @c56_keys. Qed.
Print Assumptions C56_keys.
Theorem C56_split_keys : forall (E : Ext2) dev wr (g sg : E) p session,
  confined (split_names session ++ [vks_path session; ckey_path session]) (l_split_keys dev wr g sg p session).
Proof. exact @c56_split_keys. Qed.
Print Assumptions C56_split_keys.

(* initialisation dies on a full disk; the phase-1 file is as before *)
Example C56_case : ires (result_of (l_p2n (E := Toy2) (disk 700) p1n r1n p2n') (tfs 0)) = 1 /\
  ilen (after (l_p2n (E := Toy2) (disk 700) p1n r1n p2n') (tfs 0)) lag_path = 566%N /\
  has (after (l_p2n (E := Toy2) (disk 700) p1n r1n p2n') (tfs 0)) p1n tp1 = true.
Proof. repeat (split; [vm_compute; reflexivity|]). vm_compute. reflexivity. Qed.
