(* Prop10.v -- properties C68 to C70: ceremonies that start from a powers-of-tau file, and files that no command
   verifies.  Sessions are in Session.v, keys and proofs in Spec4.v, public_sum in Spec8.v, rig in Spec9.v. *)
From Coq Require Import String.
From Verif Require Import Base Fld IO Ext Spec1 Phase1 Phase1Verify Phase1Facts Gob GobLemmas Circuit Spec2 Phase2 Fs Spec3 Init2 Spec4 Keys Live Spec5 Spec6
  Cli Session Spec8 Spec9 Sessions3 Toy1 Toy2 Toy3 Toy4 Toy6 Toy7 Toy8 Toy9.
Local Open Scope fld_scope.

(* C68 *)
Theorem C68_transformed_session : forall (E : Ext2) bs (v0 v1 vn vv vk vs : inv E) vs1 vs2 s t a b h (T A B : E) junk ip p0 ps1 r1 p2 ps2 ss (cs : r1cs E) rb k f,
  let P1 := last ps1 p0 in let PZ := last ps2 p2 in
  let ck := ped (e := E) (v_g vk) (v_sg vk) [] in
  mexp_strict E -> 2 <= bs -> 1 <= b <= a -> a <= 54 -> numeral s (Z.of_nat a) -> numeral t (Z.of_nat b) ->
  f ip = Some (ppot h (srs_of a T A B) junk) -> length h = 64%nat -> ip <> p0 -> p0 <> EmptyString -> ~ In p0 ps1 ->
  moves p0 ps1 -> length ps1 = length vs1 -> vs1 <> [] -> length vs1 <= N.to_nat 65535 ->
  f r1 = Some rb -> parse_r1cs rb = Some cs -> ~ In r1 (p0 :: ps1) -> names_ok P1 r1 p2 ->
  circuit_ok cs -> length (r_cons cs) <= 2 ^ b -> (Z.of_nat (length (r_cons cs)) <= 2 ^ 27)%Z -> is_dom (length (r_cons cs)) k -> k <= kmax E ->
  no_cmt cs -> (N.of_nat (wires cs) < 4294967296)%N ->
  moves p2 ps2 -> ~ In p2 ps2 -> ~ In "evals"%string ps2 -> length ps2 = length vs2 -> vs2 <> [] ->
  (Z.of_nat (length vs2) < 9223372036854775808)%Z -> aligned cs k (length vs2) -> (forall v, In v vs2 -> v_d v <> 0) ->
  ~ In PZ (split_names ss) -> PZ <> (ss ++ ".vk.save")%string -> (forall c i (w : vkey E), v_sol vs (vk_bytes c i w) <> None) ->
  exists hs1 hs2 f' q w text, length hs1 = length vs1 /\ length hs2 = length vs2 /\
    session no_limit bs
      (mkLine v0 "p1t" [ip; p0; s; t] :: chain "p1c" vs1 p0 ps1 ++ mkLine v1 "p1vt" [P1; p0] ::
       mkLine vn "p2n" [P1; r1; p2] :: chain "p2c" vs2 p2 ps2 ++
       [mkLine vv "p2v" [PZ; p2]; mkLine vk "keys" [PZ; ss]; mkLine vs "sol" [ss]]) f =
      (Ok [] :: map (fun h => Ok [h]) hs1 ++ Ok hs1 :: Ok [] :: map (fun h => Ok [h]) hs2 ++ [Ok hs2; Ok []; Ok []], f') /\
    map f' (split_names ss) = map Some (split_bytes (N.of_nat (2 ^ k)) (N.of_nat (wires cs)) q) /\
    f' (ss ++ ".vk.save")%string = Some (vk_bytes ck (empty_info (E := E)) w) /\
    f' (ss ++ ".pk.CommitmentKey.save")%string = Some (ck ++ ck) /\
    f' (ss ++ ".sol")%string = Some text /\ v_sol vs (vk_bytes ck (empty_info (E := E)) w) = Some text /\
    is_keypair cs k (root k) (prodl (map (fun v => r_alpha (v_w v)) vs1) * A) (prodl (map (fun v => r_beta (v_w v)) vs1) * B)
      (prodl (map v_d vs2)) (prodl (map (fun v => r_tau (v_w v)) vs1) * T) q w.
Proof. exact @transformed_session. Qed.
Print Assumptions C68_transformed_session.

(* the file has power 3, tau 2, alpha 3, beta 2; the contributors' factors are 10, 13 and 12; delta is 4 *)
Example C68_case : mexp_strict Toy2 /\ numeral "3" 3 /\ numeral "2" 2 /\
  xfs "pot"%string = Some (ppot (repeat (b8 7) 64) (srs_of 3 (u 2) (u 3) (u 2)) [b8 1; b8 2]) /\ moves "p1" p1s /\ ~ In "p1"%string p1s /\
  xfs "r1cs"%string = Some [b8 0] /\ parse_r1cs (e := Toy2) [b8 0] = Some (tcs 0) /\ ~ In "r1cs"%string ("p1"%string :: p1s) /\
  names_ok "p1b" "r1cs" "p2" /\ circuit_ok (tcs 0) /\ is_dom (length (r_cons (tcs 0))) 2 /\ no_cmt (tcs 0) /\ moves "p2" p2s /\
  aligned (tcs 0) 2 (length ivs2) /\ (forall v, In v ivs2 -> v_d v <> 0) /\ ~ In "p2b"%string (split_names "s") /\
  (forall c i (w : vkey Toy2), v_sol i0 (vk_bytes c i w) <> None) /\
  let r := session no_limit 2 xlines xfs in
  sizes (fst r) = [Some 0; Some 1; Some 1; Some 2; Some 0; Some 1; Some 1; Some 2; Some 0; Some 0]%nat /\
  map (fun x => has (snd r) (fst x) (snd x)) (combine (split_names "s") (split_bytes 4 6 kpk)) = repeat true 6 /\
  has (snd r) "s.vk.save" (vk_bytes (g1r (u 2) ++ g1r (u 6)) (empty_info (E := Toy2)) kvk) = true /\
  has (snd r) "s.sol" (firstn 3 (vk_bytes (g1r (u 2) ++ g1r (u 6)) (empty_info (E := Toy2)) kvk)) = true /\
  is_keypair (tcs 0) 2 (root (e := Toy2) 2) (u 13 * u 3) (u 12 * u 2) (u 4) (u 10 * u 2) kpk kvk.
Proof.
  split; [exact toy2_strict|]. split; [exact num3|]. split; [exact num2|]. split; [reflexivity|]. split; [repeat split; discriminate|].
  split; [intros [H|[H|[]]]; discriminate|]. split; [reflexivity|]. split; [reflexivity|].
  split; [intros [H|[H|[H|[]]]]; discriminate|]. split; [repeat split; discriminate|].
  split; [apply circuit_okb_ok; vm_compute; reflexivity|]. split.
  { split; [lia|]. split; [vm_compute; lia|]. intros j J H. destruct j as [|[|j]]; [lia| |lia]. exfalso. revert H. vm_compute. lia. }
  split; [split; reflexivity|]. split; [repeat split; discriminate|]. split; [exact w_aligned|].
  split; [intros v [<-|[<-|[]]]; fld_neq|]. split; [intros H; cbn in H; repeat (destruct H as [H|H]; [discriminate|]); exact H|].
  split; [exact sol_all|]. cbv zeta. split; [vm_compute; reflexivity|]. split; [vm_compute; reflexivity|]. split; [vm_compute; reflexivity|].
  split; [vm_compute; reflexivity|].
  replace (u 13 * u 3) with (u 5) by by17. replace (u 12 * u 2) with (u 7) by by17. replace (u 10 * u 2) with (u 3) by by17. exact kpair.
Qed.

(* C69 fails: after the contributions someone who took no part replaces the parameters of the published file by
   ones with a tau and alpha they choose.  p1v accepts, with the hashes the contributors were shown; everything
   after that succeeds, and knowing alpha they make proofs for every x. *)
Theorem C69_replaced_parameters_refuted : forall (E : Ext2) bs (v0 v1 vn vv vk : inv E) vs1 vs2 s p p0 ps1 r1 p2 ps2 (cs : r1cs E) rb k f,
  let P1 := last ps1 p0 in let PZ := last ps2 p2 in
  mexp_strict E -> 2 <= bs -> 1 <= p <= 26 -> numeral s (Z.of_nat p) ->
  p0 <> EmptyString -> moves p0 ps1 -> length ps1 = length vs1 -> vs1 <> [] -> length vs1 <= N.to_nat 65535 ->
  f r1 = Some rb -> parse_r1cs rb = Some cs -> ~ In r1 (p0 :: ps1) -> names_ok P1 r1 p2 ->
  circuit_ok cs -> length (r_cons cs) <= 2 ^ p -> is_dom (length (r_cons cs)) k -> k <= kmax E -> no_cmt cs ->
  (N.of_nat (wires cs) < 4294967296)%N ->
  moves p2 ps2 -> ~ In p2 ps2 -> ~ In "evals"%string ps2 -> length ps2 = length vs2 -> vs2 <> [] ->
  (Z.of_nat (length vs2) < 9223372036854775808)%Z -> aligned cs k (length vs2) -> (forall v, In v vs2 -> v_d v <> 0) ->
  PZ <> "pk"%string -> PZ <> "vk"%string ->
  exists hs1 f1 S l, length hs1 = length vs1 /\
    session no_limit bs (mkLine v0 "p1n" [s; p0] :: chain "p1c" vs1 p0 ps1) f = (Ok [] :: map (fun h => Ok [h]) hs1, f1) /\
    f1 P1 = Some (file1 p S l) /\ sized p S /\
    forall tau alpha, exists hs2 f' q w, length hs2 = length vs2 /\
      session no_limit bs
        (mkLine v1 "p1v" [P1] :: mkLine vn "p2n" [P1; r1; p2] :: chain "p2c" vs2 p2 ps2 ++ [mkLine vv "p2v" [PZ; p2]; mkLine vk "key" [PZ]])
        (fset f1 P1 (file1 p (rig p tau alpha S) l)) =
        (Ok hs1 :: Ok [] :: map (fun h => Ok [h]) hs2 ++ [Ok hs2; Ok []], f') /\
      f' "pk"%string = Some (pk_bytes k (N.of_nat (wires cs)) q) /\
      f' "vk"%string = Some (vk_bytes (ped (e := E) (v_g vk) (v_sg vk) []) (empty_info (E := E)) w) /\
      is_keypair cs k (root k) alpha (prodl (map (fun v => r_beta (v_w v)) vs1)) (prodl (map v_d vs2)) tau q w /\
      forall x r, accepts w cs x (alpha * q_beta q + public_sum w cs x + r * w_delta w) 1 r.
Proof. exact @rigged_session. Qed.
Print Assumptions C69_replaced_parameters_refuted.

(* contributed: tau 10, alpha 13, beta 7; put in: tau 3, alpha 5 *)
Example C69_case : moves "p1" p1s /\ (forall v, In v ivs2 -> v_d v <> 0) /\ aligned (tcs 0) 2 (length ivs2) /\
  (exists l, xF1 = file1 2 (srs_of 2 (u 10) (u 13) (u 7)) l /\ xrigged = file1 2 (rig 2 (u 3) (u 5) (srs_of 2 (u 10) (u 13) (u 7))) l) /\
  bytes_eqb xF1 xrigged = false /\
  let r := session no_limit 2 xlines2 (fset xf1 "p1b" xrigged) in
  tl (fst (session no_limit 2 xlines1 wfs)) = match fst r with Ok hs :: _ => map (fun h => Ok [h]) hs | _ => [] end /\
  sizes (fst r) = [Some 2; Some 0; Some 1; Some 1; Some 2; Some 0]%nat /\
  has (snd r) "pk" (pk_bytes 2 6 kpk) = true /\ has (snd r) "vk" (vk_bytes (g1r (u 2) ++ g1r (u 6)) (empty_info (E := Toy2)) kvk) = true /\
  ~ satisfies (tcs 0) kbad /\ accepts kvk (tcs 0) kbad (u 5 * q_beta kpk + public_sum kvk (tcs 0) kbad + u 2 * w_delta kvk) (u 1) (u 2).
Proof.
  split; [repeat split; discriminate|]. split; [intros v [<-|[<-|[]]]; fld_neq|]. split; [exact w_aligned|]. split.
  { destruct xfile as [l H]. exists l. split; [exact H|exact (xrigged_is l H)]. }
  split; [vm_compute; reflexivity|]. cbv zeta. split; [vm_compute; reflexivity|]. split; [vm_compute; reflexivity|].
  split; [vm_compute; reflexivity|]. split; [vm_compute; reflexivity|]. split; [exact kbad_sat|by17].
Qed.

(* C70 fails: p2v does not look at evals, from which key takes alpha, beta, A, B and VKK.  Whoever can write to that
   file after p2n chooses them. *)
Theorem C70_replaced_evals_refuted : forall (E : Ext2) bs (v0 v1 vn vv vk : inv E) vs1 vs2 s p p0 ps1 r1 p2 ps2 (cs : r1cs E) rb k f,
  let P1 := last ps1 p0 in let PZ := last ps2 p2 in
  mexp_strict E -> 2 <= bs -> 1 <= p <= 26 -> numeral s (Z.of_nat p) ->
  p0 <> EmptyString -> moves p0 ps1 -> length ps1 = length vs1 -> vs1 <> [] -> length vs1 <= N.to_nat 65535 ->
  f r1 = Some rb -> parse_r1cs rb = Some cs -> ~ In r1 (p0 :: ps1) -> names_ok P1 r1 p2 ->
  circuit_ok cs -> length (r_cons cs) <= 2 ^ p -> is_dom (length (r_cons cs)) k -> k <= kmax E -> no_cmt cs ->
  (N.of_nat (wires cs) < 4294967296)%N ->
  moves p2 ps2 -> ~ In p2 ps2 -> ~ In "evals"%string ps2 -> length ps2 = length vs2 -> vs2 <> [] ->
  (Z.of_nat (length vs2) < 9223372036854775808)%Z -> aligned cs k (length vs2) -> (forall v, In v vs2 -> v_d v <> 0) ->
  PZ <> "pk"%string -> PZ <> "vk"%string ->
  forall e : evals E, smalls e -> same_wires (wires cs) e ->
  exists hs1 hs2 f2 f3 f' q w, length hs1 = length vs1 /\ length hs2 = length vs2 /\
    session no_limit bs
      (mkLine v0 "p1n" [s; p0] :: chain "p1c" vs1 p0 ps1 ++ mkLine v1 "p1v" [P1] ::
       mkLine vn "p2n" [P1; r1; p2] :: chain "p2c" vs2 p2 ps2) f =
      (Ok [] :: map (fun h => Ok [h]) hs1 ++ Ok hs1 :: Ok [] :: map (fun h => Ok [h]) hs2, f2) /\
    session no_limit bs [mkLine vv "p2v" [PZ; p2]] (fset f2 "evals"%string (evals_bytes e)) = ([Ok hs2], f3) /\
    session no_limit bs [mkLine vk "key" [PZ]] f3 = ([Ok []], f') /\
    f' "pk"%string = Some (pk_bytes k (N.of_nat (wires cs)) q) /\
    f' "vk"%string = Some (vk_bytes (ped (e := E) (v_g vk) (v_sg vk) (v_ckk e)) (empty_info (E := E)) w) /\
    q_alpha q = v_alpha e /\ q_beta q = v_beta1 e /\ q_A q = v_A e /\ q_B q = v_B e /\ q_B2 q = v_B2 e /\
    w_alpha w = v_alpha e /\ w_beta2 w = v_beta2 e /\ w_K w = v_vkk e /\
    forall x, accepts w cs x (v_alpha e * v_beta2 e + public_sum w cs x) 1 0.
Proof. exact @tampered_evals. Qed.
Print Assumptions C70_replaced_evals_refuted.

Example C70_case : smalls xevals /\ same_wires (wires (tcs 0)) xevals /\
  sizes (fst (session no_limit 2 xlines3 wfs)) = [Some 0; Some 1; Some 1; Some 2; Some 0; Some 1; Some 1]%nat /\
  let r := session no_limit 2 [mkLine i0 "p2v" ["p2b"; "p2"]%string; mkLine i0 "key" ["p2b"]%string] xf2 in
  sizes (fst r) = [Some 2; Some 0]%nat /\
  has (snd r) "vk" (vk_bytes (g1r (u 2) ++ g1r (u 6)) (empty_info (E := Toy2)) (mkVk (u 2) (u 3) (u 3) (u 4) (u 4) [u 1; u 1] [])) = true /\
  ~ satisfies (tcs 0) kbad /\ accepts (mkVk (u 2) (u 3) (u 3) (u 4) (u 4) [u 1; u 1] []) (tcs 0) kbad (u 3) (u 1) (u 0).
Proof.
  split; [repeat split|]. split; [repeat split|]. split; [vm_compute; reflexivity|]. cbv zeta. split; [vm_compute; reflexivity|].
  split; [vm_compute; reflexivity|]. split; [exact kbad_sat|by17].
Qed.
