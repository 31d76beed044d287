(* Prop9.v -- properties C64 to C67: who can forge proofs after which ceremony, and what an accepting p2v says
   about the keys.  public_sum and proves_tau are in Spec8.v, keys and proofs in Spec4.v, sessions in Session.v;
   put3 rho sec i j x is rho with one scalar changed to x. *)
From Coq Require Import String Permutation.
From Verif Require Import Base Fld IO Ext Spec1 Phase1 Phase1Verify Gob GobLemmas Circuit Spec2 Phase2 Phase2Claims Phase2Bad Fs Spec3 Init2 Spec4 Keys Live Spec5 Spec6
  Cli Session Spec8 Forge Sessions2 Mix2 Sound2 Toy1 Toy2 Toy3 Toy4 Toy6 Toy7 Toy8.
Local Open Scope fld_scope.

(* C60: proofs with the keys of a whole session *)
Theorem C60_proofs : forall (E : Ext2) bs (v0 v1 vn vv vk : inv E) vs1 vs2 s p p0 ps1 r1 p2 ps2 (cs : r1cs E) rb k f,
  let P1 := last ps1 p0 in let PZ := last ps2 p2 in
  mexp_strict E -> 2 <= bs -> 1 <= p <= 26 -> numeral s (Z.of_nat p) ->
  p0 <> EmptyString -> moves p0 ps1 -> length ps1 = length vs1 -> vs1 <> [] -> length vs1 <= N.to_nat 65535 ->
  f r1 = Some rb -> parse_r1cs rb = Some cs -> ~ In r1 (p0 :: ps1) -> names_ok P1 r1 p2 ->
  circuit_ok cs -> length (r_cons cs) <= 2 ^ p -> is_dom (length (r_cons cs)) k -> k <= kmax E -> no_cmt cs ->
  (N.of_nat (wires cs) < 4294967296)%N ->
  moves p2 ps2 -> ~ In p2 ps2 -> ~ In "evals"%string ps2 -> length ps2 = length vs2 -> vs2 <> [] ->
  (Z.of_nat (length vs2) < 9223372036854775808)%Z -> aligned cs k (length vs2) -> (forall v, In v vs2 -> v_d v <> 0) ->
  PZ <> "pk"%string -> PZ <> "vk"%string ->
  exists hs1 hs2 f' q w, length hs1 = length vs1 /\ length hs2 = length vs2 /\
    session no_limit bs
      (mkLine v0 "p1n" [s; p0] :: chain "p1c" vs1 p0 ps1 ++ mkLine v1 "p1v" [P1] ::
       mkLine vn "p2n" [P1; r1; p2] :: chain "p2c" vs2 p2 ps2 ++ [mkLine vv "p2v" [PZ; p2]; mkLine vk "key" [PZ]]) f =
      (Ok [] :: map (fun h => Ok [h]) hs1 ++ Ok hs1 :: Ok [] :: map (fun h => Ok [h]) hs2 ++ [Ok hs2; Ok []], f') /\
    f' "pk"%string = Some (pk_bytes k (N.of_nat (wires cs)) q) /\
    f' "vk"%string = Some (vk_bytes (ped (e := E) (v_g vk) (v_sg vk) []) (empty_info (E := E)) w) /\
    forall x, (satisfies cs x <-> exists h, quotient cs x (2 ^ k) (root k) h) /\
      forall h r s ar bs krs, quotient cs x (2 ^ k) (root k) h -> proves q cs k x h r s ar bs krs -> accepts w cs x ar bs krs.
Proof. exact @session_proofs. Qed.
Print Assumptions C60_proofs.

(* the session of Toy7.v ends in the keys kpk, kvk *)
Example C60_proofs_case : sizes (fst (session no_limit 2 wlines wfs)) = [Some 0; Some 1; Some 1; Some 2; Some 0; Some 1; Some 1; Some 2; Some 0]%nat /\
  has (snd (session no_limit 2 wlines wfs)) "pk" (pk_bytes 2 6 kpk) = true /\
  satisfies (tcs 0) kx /\ quotient (tcs 0) kx (2 ^ 2) (root (e := Toy2) 2) [u 14; u 3; u 6] /\
  proves kpk (tcs 0) 2 kx [u 14; u 3; u 6] (u 2) (u 3) (u 5) (u 9) (u 5) /\ accepts kvk (tcs 0) kx (u 5) (u 9) (u 5).
Proof.
  split; [vm_compute; reflexivity|]. split; [vm_compute; reflexivity|]. split; [exact kx_sat|]. split; [exact kquot|].
  split; [exact kproves|]. by17.
Qed.

(* C64 fails: key runs on the output of p2n.  Then delta is 1 and a proof for every input x is made from the
   points of the verifying key. *)
Theorem C64_no_phase2_refuted : forall (E : Ext2) bs (v0 v1 vn vk : inv E) vs1 s p p0 ps1 r1 p2 (cs : r1cs E) rb k f,
  let P1 := last ps1 p0 in
  mexp_strict E -> 2 <= bs -> 1 <= p <= 26 -> numeral s (Z.of_nat p) ->
  p0 <> EmptyString -> moves p0 ps1 -> length ps1 = length vs1 -> vs1 <> [] -> length vs1 <= N.to_nat 65535 ->
  f r1 = Some rb -> parse_r1cs rb = Some cs -> ~ In r1 (p0 :: ps1) -> names_ok P1 r1 p2 ->
  circuit_ok cs -> length (r_cons cs) <= 2 ^ p -> is_dom (length (r_cons cs)) k -> k <= kmax E -> no_cmt cs ->
  (N.of_nat (wires cs) < 4294967296)%N -> p2 <> "pk"%string -> p2 <> "vk"%string ->
  exists hs1 f' q w, length hs1 = length vs1 /\
    session no_limit bs
      (mkLine v0 "p1n" [s; p0] :: chain "p1c" vs1 p0 ps1 ++ [mkLine v1 "p1v" [P1]; mkLine vn "p2n" [P1; r1; p2]; mkLine vk "key" [p2]]) f =
      (Ok [] :: map (fun h => Ok [h]) hs1 ++ [Ok hs1; Ok []; Ok []], f') /\
    f' "pk"%string = Some (pk_bytes k (N.of_nat (wires cs)) q) /\
    f' "vk"%string = Some (vk_bytes (ped (e := E) (v_g vk) (v_sg vk) []) (empty_info (E := E)) w) /\
    is_keypair cs k (root k) (prodl (map (fun v => r_alpha (v_w v)) vs1)) (prodl (map (fun v => r_beta (v_w v)) vs1)) 1
      (prodl (map (fun v => r_tau (v_w v)) vs1)) q w /\
    forall x, accepts w cs x (w_alpha w) (w_beta2 w) (- public_sum w cs x).
Proof. exact @no_phase2. Qed.
Print Assumptions C64_no_phase2_refuted.
(* p2n runs on the output of p1n.  Then tau, alpha and beta are 1. *)
Theorem C64_no_phase1_refuted : forall (E : Ext2) bs (v0 vn vv vk : inv E) vs2 s p p0 r1 p2 ps2 (cs : r1cs E) rb k f,
  let PZ := last ps2 p2 in
  2 <= bs -> 1 <= p <= 26 -> numeral s (Z.of_nat p) -> p0 <> EmptyString ->
  f r1 = Some rb -> parse_r1cs rb = Some cs -> r1 <> p0 -> names_ok p0 r1 p2 ->
  circuit_ok cs -> length (r_cons cs) <= 2 ^ p -> is_dom (length (r_cons cs)) k -> k <= kmax E -> no_cmt cs ->
  (N.of_nat (wires cs) < 4294967296)%N ->
  moves p2 ps2 -> ~ In p2 ps2 -> ~ In "evals"%string ps2 -> length ps2 = length vs2 -> vs2 <> [] ->
  (Z.of_nat (length vs2) < 9223372036854775808)%Z -> aligned cs k (length vs2) -> (forall v, In v vs2 -> v_d v <> 0) ->
  PZ <> "pk"%string -> PZ <> "vk"%string ->
  exists hs2 f' q w, length hs2 = length vs2 /\
    session no_limit bs
      (mkLine v0 "p1n" [s; p0] :: mkLine vn "p2n" [p0; r1; p2] :: chain "p2c" vs2 p2 ps2 ++ [mkLine vv "p2v" [PZ; p2]; mkLine vk "key" [PZ]]) f =
      (Ok [] :: Ok [] :: map (fun h => Ok [h]) hs2 ++ [Ok hs2; Ok []], f') /\
    f' "pk"%string = Some (pk_bytes k (N.of_nat (wires cs)) q) /\
    f' "vk"%string = Some (vk_bytes (ped (e := E) (v_g vk) (v_sg vk) []) (empty_info (E := E)) w) /\
    is_keypair cs k (root k) 1 1 (prodl (map v_d vs2)) 1 q w /\
    forall x, accepts w cs x (1 + public_sum w cs x) 1 0.
Proof. exact @no_phase1. Qed.
Print Assumptions C64_no_phase1_refuted.

Example C64_case : mexp_strict Toy2 /\ numeral "2" 2 /\ moves "p1" p1s /\ names_ok "p1b" "r1cs" "p2" /\ names_ok "p1" "r1cs" "p2" /\
  circuit_ok (tcs 0) /\ is_dom (length (r_cons (tcs 0))) 2 /\ no_cmt (tcs 0) /\ aligned (tcs 0) 2 (length ivs2) /\
  sizes (fst (session no_limit 2 wlines1 wfs)) = [Some 0; Some 1; Some 1; Some 2; Some 0; Some 0]%nat /\
  sizes (fst (session no_limit 2 wlines2 wfs)) = [Some 0; Some 0; Some 1; Some 1; Some 2; Some 0]%nat /\
  ~ satisfies (tcs 0) kbad /\ accepts (mkVk (u 5) (u 7) (u 7) (u 1) (u 1) (w_K kvk) []) (tcs 0) kbad (u 5) (u 7) (u 5).
Proof.
  split; [exact toy2_strict|]. split; [exact num2|]. split; [repeat split; discriminate|]. split; [repeat split; discriminate|].
  split; [repeat split; discriminate|]. split; [apply circuit_okb_ok; vm_compute; reflexivity|]. split.
  { split; [lia|]. split; [vm_compute; lia|]. intros j J H. destruct j as [|[|j]]; [lia| |lia]. exfalso. revert H. vm_compute. lia. }
  split; [split; reflexivity|]. split; [exact w_aligned|]. split; [vm_compute; reflexivity|]. split; [vm_compute; reflexivity|].
  split; [exact kbad_sat|by17].
Qed.

(* C65: delta, beta or alpha alone makes accepted proofs for every x *)
Theorem C65_one_secret : forall (E : Ext2) (cs : r1cs E) k alpha beta delta tau q v x,
  is_keypair cs k (root k) alpha beta delta tau q v ->
  (delta <> 0 -> accepts v cs x (w_alpha v) (w_beta2 v) (sumn (nb_public cs) (fun i => - (x i / delta) * nth i (w_K v) 0))) /\
  (forall r, accepts v cs x (beta * w_alpha v + public_sum v cs x + r * w_delta v) 1 r) /\
  (forall r, accepts v cs x (alpha * q_beta q + public_sum v cs x + r * w_delta v) 1 r).
Proof. exact @known_secret. Qed.
Print Assumptions C65_one_secret.
(* so does tau, with the proving key *)
Theorem C65_tau : forall (E : Ext2) (cs : r1cs E) k alpha beta delta tau q v x,
  1 <= k <= kmax E -> (length (r_cons cs) <= 2 ^ k)%nat -> delta <> 0 -> tau ^ (2 ^ k) <> 1 ->
  is_keypair cs k (root k) alpha beta delta tau q v ->
  forall r s, (exists ar bs krs, proves_tau q cs k (root k) x tau r s ar bs krs) /\
    forall ar bs krs, proves_tau q cs k (root k) x tau r s ar bs krs -> accepts v cs x ar bs krs.
Proof. exact @known_tau2. Qed.
Print Assumptions C65_tau.

Example C65_case : is_keypair (tcs 0) 2 (root (e := Toy2) 2) (u 5) (u 7) (u 4) (u 3) kpk kvk /\ 1 <= 2 <= kmax Toy2 /\
  length (r_cons (tcs 0)) <= 2 ^ 2 /\ u 4 <> 0 /\ u 3 ^ (2 ^ 2) <> 1 /\ ~ satisfies (tcs 0) kbad /\
  public_sum kvk (tcs 0) kbad = u 12 /\ accepts kvk (tcs 0) kbad (u 5) (u 7) (u 14) /\ accepts kvk (tcs 0) kbad (u 4) (u 1) (u 2) /\
  proves_tau kpk (tcs 0) 2 (root (e := Toy2) 2) kbad (u 3) (u 2) (u 3) (u 5) (u 9) (u 8) /\ accepts kvk (tcs 0) kbad (u 5) (u 9) (u 8) /\
  ~ accepts kvk (tcs 0) kbad (u 5) (u 9) (u 5).
Proof.
  split; [exact kpair|]. split; [vm_compute; lia|]. split; [vm_compute; lia|]. split; [fld_neq|]. split; [fld_neq|]. split; [exact kbad_sat|].
  split; [by17|]. split; [by17|]. split; [by17|]. split; [exact kforged|]. split; [by17|fld_neq].
Qed.

(* C66 *)
Theorem C66_order_independent : forall (E : Ext2) bs f0 h (q : par2 E) (ws ws' : list (E * E)),
  1 <= bs -> hdr_ok h -> h_contribs h = 0%Z -> is_file2 f0 h q [] ->
  (Z.of_nat (length ws) < 9223372036854775808)%Z -> ws <> [] ->
  (forall j, (1 <= j <= length ws)%nat -> unsplit (set_contribs h (Z.of_nat j)) q j) -> Permutation ws ws' ->
  exists h' (q' : par2 E) r r' hs hs', length (p_Z q') = length (p_Z q) /\ length (p_K q') = length (p_K q) /\
    ceremony2 bs f0 ws = Ok (head2 h' q' ++ r, hs) /\ ceremony2 bs f0 ws' = Ok (head2 h' q' ++ r', hs').
Proof. exact @order2. Qed.
Print Assumptions C66_order_independent.
Theorem C66_one_honest_contributor : forall (E : Ext2) bs f0 h (q : par2 E) (ws1 ws2 : list (E * E)) s,
  1 <= bs -> hdr_ok h -> h_contribs h = 0%Z -> is_file2 f0 h q [] -> p_d1 q <> 0 ->
  (Z.of_nat (length ws1 + 1 + length ws2) < 9223372036854775808)%Z ->
  (forall j, (1 <= j <= length ws1 + 1 + length ws2)%nat -> unsplit (set_contribs h (Z.of_nat j)) q j) ->
  (forall w, In w (ws1 ++ ws2) -> fst w <> 0) ->
  forall D, D <> 0 -> exists! d, d <> 0 /\
    exists r hs, let ws := ws1 ++ [(d, s)] ++ ws2 in
      ceremony2 bs f0 ws = Ok (head2 (set_contribs h (Z.of_nat (length ws))) (upd_par2 D q) ++ r, hs).
Proof. exact @honest2_one. Qed.
Print Assumptions C66_one_honest_contributor.

(* behind secret 3, secret 7 brings delta to 4 *)
Example C66_case : is_file2 tf0 th tq [] /\ hdr_ok th /\ p_d1 tq <> 0 /\ (forall j, 1 <= j <= 2 -> unsplit (set_contribs th (Z.of_nat j)) tq j) /\
  let d := length (head2 th2 tq2) in
  let fin ws := firstn d (cer_file (ceremony2 (E := Toy2) 2 tf0 ws)) in
  bytes_eqb (fin [(u 3, u 5); (u 7, u 2)]) (head2 th2 (upd_par2 (u 4) tq)) = true /\
  bytes_eqb (fin [(u 7, u 2); (u 3, u 5)]) (head2 th2 (upd_par2 (u 4) tq)) = true /\
  filter (fun i => bytes_eqb (fin [(u 3, u 5); (u (Z.of_nat i), u 2)]) (head2 th2 (upd_par2 (u 4) tq))) (seq 1 16) = [7%nat].
Proof.
  split; [exact tf0_is|]. split; [exact th_ok|]. split; [fld_neq|]. split; [exact t_unsplit|]. vm_compute. auto.
Qed.

(* C67: for all bytes F that p2v accepts against the output of p2n and from which key extracts keys *)
Theorem C67_accepted_keys : forall (E : Ext2) p T A B (cs : r1cs E) f p1 r1 p2 k,
  init_input p (srs_of p T A B) cs f p1 r1 p2 -> no_cmt cs -> (N.of_nat (wires cs) < 4294967296)%N ->
  is_dom (length (r_cons cs)) k -> T ^ (2 ^ k) <> 1 ->
  exists fa F0 G, p2n (E := E) p1 r1 p2 f = (Ok tt, fa) /\ fa p2 = Some F0 /\ fa evals_path = Some G /\
  forall bs (rho : nat -> nat -> nat -> E) F hs g sg pz f1 f2, 1 <= bs -> fst (exec (verify2 bs rho) F F0) = Ok hs ->
    pz <> pk_path -> pz <> vk_path -> f1 pz = Some F -> f1 evals_path = Some G -> extract_keys wrap64 g sg pz f1 = (Ok tt, f2) ->
    (exists sec i j, forall x hs', fst (exec (verify2 bs (put3 rho sec i j x)) F F0) = Ok hs' -> x = rho sec i j) \/
    exists D (q : pkey E) (v : vkey E), D <> 0 /\
      f2 pk_path = Some (pk_bytes k (N.of_nat (wires cs)) q) /\
      f2 vk_path = Some (vk_bytes (ped (e := E) g sg []) (empty_info (E := E)) v) /\
      is_keypair cs k (root k) A B D T q v.
Proof. exact @accepted_keys. Qed.
Print Assumptions C67_accepted_keys.

(* kF is the file of an honest ceremony; kFx has a wrong entry and passes for one value in 17 of its scalar *)
Example C67_case : init_input 2 (srs_of 2 (u 3) (u 5) (u 7)) (tcs 0) (tfs 0) p1n r1n p2n' /\ no_cmt (tcs 0) /\
  is_dom (length (r_cons (tcs 0))) 2 /\ u 3 ^ (2 ^ 2) <> 1 /\ has kfa p2n' kF0 = true /\
  is_ok (fst (exec (verify2 2 trho2) (kF ++ [b8 7]) kF0)) = true /\
  is_ok (fst (extract_keys (E := Toy2) wrap64 (u 2) (u 6) pzn (fset kfa pzn (kF ++ [b8 7])))) = true /\
  is_ok (fst (extract_keys (E := Toy2) wrap64 (u 2) (u 6) pzn (fset kfa pzn kFx))) = true /\
  map (fun i => is_ok (fst (exec (verify2 2 (put3 trho2 0 1 0 (u (Z.of_nat i)))) kFx kF0))) (seq 0 17) = true :: repeat false 16.
Proof.
  split; [apply (tfs_input 0); lia|]. split; [split; reflexivity|]. split.
  { split; [lia|]. split; [vm_compute; lia|]. intros j J H. destruct j as [|[|j]]; [lia| |lia]. exfalso. revert H. vm_compute. lia. }
  split; [fld_neq|]. split; [vm_compute; reflexivity|]. split; [vm_compute; reflexivity|]. split; [vm_compute; reflexivity|].
  split; vm_compute; reflexivity.
Qed.
