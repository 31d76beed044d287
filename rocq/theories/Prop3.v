(* Prop3.v -- properties C26-C34: phase-2 initialisation.  p2n p1 r1 p2 and p2np cs p1 p2 nb are the
   commands as functions from a file system to a result and a file system (Fs.v, Init2.v); init_input,
   col, kat, lag_values etc. are in Spec3.v. *)
From Coq Require Import Sorting.Sorted.
From Verif Require Import Base Fld BitRev Poly IO Ext Spec1 Phase1 Phase1Verify Gob Circuit Spec2 Fs Spec3 Init2 Init2Pure Init2More Toy2 Toy3.
Local Open Scope fld_scope.

(* C26 *)
Theorem C26_domain : forall n : Z,
  ((n <= 2 ^ 27)%Z -> exists k, (1 <= k <= 27)%Z /\ next_pow2 n = Some (2 ^ k)%Z /\ (n <= 2 ^ k)%Z /\
    forall j, (1 <= j)%Z -> (n <= 2 ^ j)%Z -> (k <= j)%Z) /\
  ((2 ^ 27 < n)%Z -> next_pow2 n = None).
Proof. exact next_pow2_spec. Qed.
Print Assumptions C26_domain.

Example C26_case : next_pow2 5 = Some 8%Z /\ next_pow2 8 = Some 8%Z /\ next_pow2 0 = Some 2%Z /\
  next_pow2 (2 ^ 27) = Some (2 ^ 27)%Z /\ next_pow2 (2 ^ 27 + 1) = None.
Proof. vm_compute. auto. Qed.

(* C27: whatever the phase-1 file holds, an accepted circuit has a domain of at most 2^power *)
Theorem C27_circuit_fits : forall (E : Ext2) f p1 r1 p2 f', p2n (E := E) p1 r1 p2 f = (Ok tt, f') ->
  p1 <> p2 -> r1 <> p2 -> p2 <> lag_path -> p2 <> evals_path ->
  exists pw rest rb (cs : r1cs E) k h tl,
    f p1 = Some (pw :: rest) /\ f r1 = Some rb /\ parse_r1cs rb = Some cs /\
    f' p2 = Some (gob_hdr h ++ tl) /\ is_dom (length (r_cons cs)) k /\ h_domain h = Z.of_nat (2 ^ k) /\
    ((1 <= bN pw)%N -> k <= N.to_nat (bN pw)).
Proof. exact @c27_fits. Qed.
Print Assumptions C27_circuit_fits.

Example C27_case : (exists f', p2n (E := Toy2) p1n r1n p2n' (tfs 0) = (Ok tt, f')) /\
  is_dom (length (r_cons (tcs 0))) 2 /\ p1n <> p2n' /\ r1n <> p2n' /\ p2n' <> lag_path /\ p2n' <> evals_path.
Proof.
  split; [eexists; vm_compute; reflexivity|]. split.
  - split; [auto|]. split; [vm_compute; auto|]. intros [|[|j]] H1 H2; [lia| |lia]. exfalso. vm_compute in H2. lia.
  - repeat split; discriminate.
Qed.

(* power 0: one constraint is accepted with domain 2 *)
Theorem C27_power0_refuted : forall (E : Ext2) (cs : r1cs E) c0 c1 t g, exists h,
  fst (exec (process_header cs 1) (b8 0 :: c0 :: c1 :: t) g) = Ok (b8 0, h) /\ h_domain h = 2%Z.
Proof. exact @c27_zero. Qed.
Print Assumptions C27_power0_refuted.

Example C27_power0_case : length (r_cons (tcs 2)) = 1%nat /\
  fst (exec (process_header (tcs 2) 1) [b8 0; b8 0; b8 0] []) = Ok (b8 0, mkHdr 6 4 2 0 1 2 0).
Proof. vm_compute. auto. Qed.

(* C28 *)
Theorem C28_header_partition : forall (E : Ext2) (cs : r1cs E) nb F g pw h,
  fst (exec (process_header cs nb) F g) = Ok (pw, h) ->
  snd (exec (process_header cs nb) F g) = gob_hdr h /\
  h_wires h = Z.of_nat (wires cs) /\ h_wires h = (h_public h + h_witness h + h_privc h)%Z /\
  h_public h = (Z.of_nat (nb_public cs) + if (length (cm_committed (r_cmt cs)) =? 0)%nat then 0 else 1)%Z /\
  h_privc h = Z.of_nat (cm_nbpriv (r_cmt cs)) /\ h_cons h = nb.
Proof. exact @c28_stage. Qed.
Print Assumptions C28_header_partition.

Example C28_case : fst (exec (process_header (tcs 3) 3) tp1 []) = Ok (b8 2, mkHdr 6 2 3 1 3 4 0).
Proof. vm_compute. reflexivity. Qed.

(* C29: for any parameters S0, srs.lag, evals and the phase-2 file are made from the first 2^k entries of
   each section of S0, its first alpha and beta entries and beta2 *)
Theorem C29_sections : forall (E : Ext2) p S0 (cs : r1cs E) f p1 r1 p2, init_input p S0 cs f p1 r1 p2 -> no_cmt cs ->
  exists f' k t a b t2 z,
    p2n (E := E) p1 r1 p2 f = (Ok tt, f') /\ only3 p2 f f' /\ is_dom (length (r_cons cs)) k /\ k <= p /\
    lag_basis (2 ^ k) (root k) (firstn (2 ^ k) (tau1 S0)) t /\
    lag_basis (2 ^ k) (root k) (firstn (2 ^ k) (alpha1 S0)) a /\
    lag_basis (2 ^ k) (root k) (firstn (2 ^ k) (beta1 S0)) b /\
    lag_basis (2 ^ k) (root k) (firstn (2 ^ k) (tau2 S0)) t2 /\
    is_z k (tau1 S0) z /\
    f' lag_path = Some (lag_bytes t a b t2) /\
    f' evals_path = Some (evals_bytes (mkEvals (nth 0 (alpha1 S0) 0) (nth 0 (beta1 S0) 0) (beta2 S0)
      (cols cs r_L t) (cols cs r_R t) (cols cs r_R t2) (firstn (nb_public cs) (Lsum cs t a b)) [] (cmt_bytes (e := E) (r_cmt cs)))) /\
    f' p2 = Some (file2 (hdr_of cs k) (mkPar2 1 1 z (skipn (nb_public cs) (Lsum cs t a b))) []).
Proof. exact @p2n_ok. Qed.
Print Assumptions C29_sections.

Example C29_case : init_input 2 tsrs (tcs 0) (tfs 0) p1n r1n p2n' /\ no_cmt (tcs 0) /\
  let t := [u 10; u 8; u 12; u 5] in
  option_map (fun b => bytes_eqb b (lag_bytes t (map (fun x => u 5 * x) t) (map (fun x => u 7 * x) t) t))
    (snd (p2n (E := Toy2) p1n r1n p2n' (tfs 0)) lag_path) = Some true.
Proof. split; [apply tfs_input; lia|]. split; [split; reflexivity|vm_compute; reflexivity]. Qed.

(* C30: also for circuits with commitment, where p2n panics afterwards (C32) *)
Theorem C30_evaluations : forall (E : Ext2) p T A B (cs : r1cs E) f p1 r1 p2,
  init_input p (srs_of p T A B) cs f p1 r1 p2 ->
  exists r f' k t rest, p2n (E := E) p1 r1 p2 f = (r, f') /\ is_dom (length (r_cons cs)) k /\
    lag_values (2 ^ k) (root k) T t /\
    f' evals_path = Some (g1c A ++ g1c B ++ g2c B ++
      slice1 (cols cs r_L t) ++ slice1 (cols cs r_R t) ++ slice2 (cols cs r_R t) ++ rest).
Proof. exact @c30_evals. Qed.
Print Assumptions C30_evaluations.

Example C30_case : init_input 2 (srs_of 2 (u 3) (u 5) (u 7)) (tcs 4) (tfs 4) p1n r1n p2n' /\
  option_map (fun b => bytes_eqb (firstn 520 b) (g1c (u 5) ++ g1c (u 7) ++ g2c (u 7) ++
     slice1 [u 0; u 0; u 11; u 9; u 12; u 12] ++ slice1 [u 12; u 0; u 8; u 10; u 0; u 0]))
    (snd (p2n (E := Toy2) p1n r1n p2n' (tfs 4)) evals_path) = Some true.
Proof. split; [apply (tfs_input 4); lia|vm_compute; reflexivity]. Qed.

(* C31 *)
Theorem C31_split : forall (E : Ext2) p T A B (cs : r1cs E) f p1 r1 p2,
  init_input p (srs_of p T A B) cs f p1 r1 p2 -> no_cmt cs ->
  exists f' k t h q v, p2n (E := E) p1 r1 p2 f = (Ok tt, f') /\ is_dom (length (r_cons cs)) k /\
    lag_values (2 ^ k) (root k) T t /\
    f' evals_path = Some (evals_bytes v) /\ f' p2 = Some (file2 h q []) /\
    v_vkk v = map (fun w => B * col cs r_L t w + A * col cs r_R t w + col cs r_O t w) (seq 0 (nb_public cs)) /\
    p_K q = map (fun w => B * col cs r_L t w + A * col cs r_R t w + col cs r_O t w)
                (seq (nb_public cs) (wires cs - nb_public cs)) /\
    v_ckk v = [] /\ h_public h = Z.of_nat (length (v_vkk v)) /\ h_witness h = Z.of_nat (length (p_K q)) /\ h_privc h = 0%Z.
Proof. exact @c31_keys. Qed.
Print Assumptions C31_split.

Example C31_case : init_input 2 (srs_of 2 (u 3) (u 5) (u 7)) (tcs 0) (tfs 0) p1n r1n p2n' /\ no_cmt (tcs 0) /\
  option_map (fun b => bytes_eqb b (file2 (mkHdr 6 4 2 0 3 4 0)
      (mkPar2 (u 1) (u 1) [u 12; u 6; u 2] [u 15; u 11; u 9; u 7]) []))
    (snd (p2n (E := Toy2) p1n r1n p2n' (tfs 0)) p2n') = Some true.
Proof. split; [apply (tfs_input 0); lia|]. split; [split; reflexivity|vm_compute; reflexivity]. Qed.

(* C32: a private wire is committed to (the committed wires are listed in increasing order) *)
Theorem C32_private_commitment_panics : forall (E : Ext2) p S0 (cs : r1cs E) f p1 r1 p2 pubs privs,
  init_input p S0 cs f p1 r1 p2 ->
  cm_committed (r_cmt cs) = pubs ++ privs -> cm_nbpriv (r_cmt cs) = length privs -> privs <> [] ->
  StronglySorted lt privs -> Forall (fun w => nb_public cs <= w < wires cs) privs -> 1 <= nb_public cs ->
  exists f', p2n (E := E) p1 r1 p2 f = (Panic, f').
Proof. exact @p2n_private_cmt. Qed.
Print Assumptions C32_private_commitment_panics.

Example C32_case : init_input 2 tsrs (tcs 3) (tfs 3) p1n r1n p2n' /\
  cm_committed (r_cmt (tcs 3)) = [1%nat] ++ [3%nat] /\ cm_nbpriv (r_cmt (tcs 3)) = 1%nat /\
  StronglySorted lt [3%nat] /\ Forall (fun w => nb_public (tcs 3) <= w < wires (tcs 3)) [3%nat] /\
  fst (p2n (E := Toy2) p1n r1n p2n' (tfs 3)) = Panic.
Proof.
  split; [apply tfs_input; lia|]. split; [reflexivity|]. split; [reflexivity|].
  split; [repeat constructor|]. split; [repeat constructor|vm_compute; reflexivity].
Qed.

(* only public wires are committed to *)
Theorem C32_public_commitment : forall (E : Ext2) p S0 (cs : r1cs E) f p1 r1 p2,
  init_input p S0 cs f p1 r1 p2 -> cm_committed (r_cmt cs) <> [] -> cm_nbpriv (r_cmt cs) = 0%nat ->
  nb_public cs <= cm_index (r_cmt cs) < wires cs ->
  (nb_public cs < cm_index (r_cmt cs) -> exists f', p2n (E := E) p1 r1 p2 f = (Panic, f')) /\
  (cm_index (r_cmt cs) = nb_public cs -> exists f', p2n (E := E) p1 r1 p2 f = (Ok tt, f')).
Proof. exact @p2n_public_cmt. Qed.
Print Assumptions C32_public_commitment.

Example C32_public_case : init_input 2 tsrs (tcs 4) (tfs 4) p1n r1n p2n' /\
  cm_index (r_cmt (tcs 4)) = 5%nat /\ fst (p2n (E := Toy2) p1n r1n p2n' (tfs 4)) = Panic /\
  init_input 2 tsrs (tcs 5) (tfs 5) p1n r1n p2n' /\
  cm_index (r_cmt (tcs 5)) = 2%nat /\ fst (p2n (E := Toy2) p1n r1n p2n' (tfs 5)) = Ok tt.
Proof.
  split; [apply tfs_input; lia|]. split; [reflexivity|]. split; [vm_compute; reflexivity|].
  split; [apply tfs_input; lia|]. split; [reflexivity|vm_compute; reflexivity].
Qed.

(* C33 *)
Theorem C33_Z : forall (E : Ext2) p T A B (cs : r1cs E) f p1 r1 p2,
  init_input p (srs_of p T A B) cs f p1 r1 p2 -> no_cmt cs ->
  exists f' k h q, p2n (E := E) p1 r1 p2 f = (Ok tt, f') /\ is_dom (length (r_cons cs)) k /\ f' p2 = Some (file2 h q []) /\
    h_domain h = Z.of_nat (2 ^ k) /\ p_d1 q = 1 /\ p_d2 q = 1 /\ length (p_Z q) = (2 ^ k - 1)%nat /\
    forall i r, i < 2 ^ k - 1 -> mirrors k i r -> nth_error (p_Z q) r = Some (T ^ i * (T ^ (2 ^ k) - 1)).
Proof. exact @c33_z. Qed.
Print Assumptions C33_Z.

Example C33_case : init_input 2 (srs_of 2 (u 3) (u 5) (u 7)) (tcs 0) (tfs 0) p1n r1n p2n' /\ no_cmt (tcs 0) /\
  map (zv 17) [u 3 ^ 0 * (u 3 ^ 4 - u 1); u 3 ^ 2 * (u 3 ^ 4 - u 1); u 3 ^ 1 * (u 3 ^ 4 - u 1)] = [12; 6; 2]%Z.
Proof. split; [apply (tfs_input 0); lia|]. split; [split; reflexivity|vm_compute; reflexivity]. Qed.

(* C34: on every file system, whatever the outcome *)
Theorem C34_parted_agrees : forall (E : Ext2) (cs : r1cs E) p1 r1 p2 f rb,
  r1 <> p2 -> r1 <> lag_path -> r1 <> evals_path -> f r1 = Some rb -> parse_r1cs rb = Some cs ->
  p2np cs p1 p2 (Z.of_nat (length (r_cons cs))) f = p2n (E := E) p1 r1 p2 f.
Proof. exact @p2np_all. Qed.
Print Assumptions C34_parted_agrees.

(* with fewer constraints: the command for the circuit without the others *)
Theorem C34_parted_truncates_refuted : forall (E : Ext2) (cs : r1cs E) m p1 r1 p2 f rb, m <= length (r_cons cs) ->
  r1 <> p2 -> r1 <> lag_path -> r1 <> evals_path ->
  f r1 = Some rb -> parse_r1cs rb = Some (trunc m cs) ->
  p2np cs p1 p2 (Z.of_nat m) f = p2n (E := E) p1 r1 p2 f.
Proof. exact @p2np_trunc. Qed.
Print Assumptions C34_parted_truncates_refuted.

(* with more it does not succeed *)
Theorem C34_parted_too_many : forall (E : Ext2) (cs : r1cs E) nb p1 p2 f f',
  (Z.of_nat (length (r_cons cs)) < nb)%Z -> p2np cs p1 p2 nb f <> (Ok tt, f').
Proof. exact @p2np_too_many. Qed.
Print Assumptions C34_parted_too_many.

(* 3 constraints of which 2 are used: accepted, and a different key *)
Example C34_case : parse_r1cs (e := Toy2) [b8 1] = Some (trunc 2 (tcs 0)) /\
  fst (p2np (tcs 0) p1n p2n' 2 (tfs 1)) = Ok tt /\ fst (p2np (tcs 0) p1n p2n' 3 (tfs 0)) = Ok tt /\
  fst (p2np (tcs 0) p1n p2n' 4 (tfs 0)) = Panic /\
  match snd (p2np (tcs 0) p1n p2n' 2 (tfs 1)) p2n', snd (p2np (tcs 0) p1n p2n' 3 (tfs 0)) p2n' with
  | Some a, Some b => bytes_eqb a b | _, _ => true end = false.
Proof. split; [reflexivity|]. vm_compute. auto. Qed.
