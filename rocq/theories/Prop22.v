(* Prop22.v -- property C83: ceremonies in which every check succeeds although someone who took no part replaced the
   phase-1 parameters.  keys_from, nudge and against are in Spec17.v, keys and proofs in Spec4.v, public_sum in
   Spec8.v. *)
From Coq Require Import String.
From Verif Require Import Base Fld IO Ext Poly Spec1 Phase1 Gob GobLemmas Circuit Spec2 Fs Spec3 Init2 Spec4 Keys Live Spec5 Spec6 Cli Session Spec8 Spec17 Any Leak Toy1 Toy2 Toy3 Toy4 Toy6 Toy7 Toy8 Toy9 Toy17 Toy18.
Local Open Scope fld_scope.

(* Any parameters with the right beta in G2 pass, and end in the keys that belong to them. *)
Theorem C83_any_parameters : forall (E : Ext2) bs (v0 v1 vn vv vk : inv E) vs1 vs2 s p p0 ps1 r1 p2 ps2 (cs : r1cs E) rb k f,
  let P1 := last ps1 p0 in let PZ := last ps2 p2 in
  mexp_strict E -> 2 <= bs -> 1 <= p <= 26 -> numeral s (Z.of_nat p) ->
  p0 <> EmptyString -> moves p0 ps1 -> length ps1 = length vs1 -> vs1 <> [] -> length vs1 <= N.to_nat 65535 ->
  f r1 = Some rb -> parse_r1cs rb = Some cs -> ~ In r1 (p0 :: ps1) -> names_ok P1 r1 p2 ->
  circuit_ok cs -> length (r_cons cs) <= 2 ^ p -> is_dom (length (r_cons cs)) k -> k <= kmax E -> no_cmt cs ->
  (N.of_nat (wires cs) < 4294967296)%N ->
  moves p2 ps2 -> ~ In p2 ps2 -> ~ In "evals"%string ps2 -> length ps2 = length vs2 -> vs2 <> [] ->
  (Z.of_nat (length vs2) < 9223372036854775808)%Z -> aligned cs k (length vs2) -> (forall v, In v vs2 -> v_d v <> 0) ->
  PZ <> "pk"%string -> PZ <> "vk"%string ->
  exists hs1 f1 S l, length hs1 = length vs1 /\
    session no_limit bs (mkLine v0 "p1n" [s; p0] :: chain "p1c" vs1 p0 ps1) f = (Ok [] :: map (fun h => Ok [h]) hs1, f1) /\
    f1 P1 = Some (file1 p S l) /\
    S = srs_of p (prodl (map (fun v => r_tau (v_w v)) vs1)) (prodl (map (fun v => r_alpha (v_w v)) vs1)) (prodl (map (fun v => r_beta (v_w v)) vs1)) /\
    forall S', sized p S' -> beta2 S' = beta2 S -> exists hs2 f' q w, length hs2 = length vs2 /\
      session no_limit bs
        (mkLine v1 "p1v" [P1] :: mkLine vn "p2n" [P1; r1; p2] :: chain "p2c" vs2 p2 ps2 ++ [mkLine vv "p2v" [PZ; p2]; mkLine vk "key" [PZ]])
        (fset f1 P1 (file1 p S' l)) =
        (Ok hs1 :: Ok [] :: map (fun h => Ok [h]) hs2 ++ [Ok hs2; Ok []], f') /\
      f' "pk"%string = Some (pk_bytes k (N.of_nat (wires cs)) q) /\
      f' "vk"%string = Some (vk_bytes (ped (e := E) (v_g vk) (v_sg vk) []) (empty_info (E := E)) w) /\
      keys_from cs k (root k) S' (prodl (map v_d vs2)) q w.
Proof. exact @any_session. Qed.
Print Assumptions C83_any_parameters.

(* C83 fails: whoever adds known multiples of the generator to the alpha section learns a linear combination of
   their choice of the right sides of the constraints from every honest proof (in the exponent; its test is the
   verification equation). *)
Theorem C83_leak_refuted : forall (E : Ext2) bs (v0 v1 vn vv vk : inv E) vs1 vs2 s p p0 ps1 r1 p2 ps2 (cs : r1cs E) rb k f,
  let P1 := last ps1 p0 in let PZ := last ps2 p2 in
  mexp_strict E -> 2 <= bs -> 1 <= p <= 26 -> numeral s (Z.of_nat p) ->
  p0 <> EmptyString -> moves p0 ps1 -> length ps1 = length vs1 -> vs1 <> [] -> length vs1 <= N.to_nat 65535 ->
  f r1 = Some rb -> parse_r1cs rb = Some cs -> ~ In r1 (p0 :: ps1) -> names_ok P1 r1 p2 ->
  circuit_ok cs -> length (r_cons cs) <= 2 ^ p -> is_dom (length (r_cons cs)) k -> k <= kmax E -> no_cmt cs ->
  (N.of_nat (wires cs) < 4294967296)%N ->
  moves p2 ps2 -> ~ In p2 ps2 -> ~ In "evals"%string ps2 -> length ps2 = length vs2 -> vs2 <> [] ->
  (Z.of_nat (length vs2) < 9223372036854775808)%Z -> aligned cs k (length vs2) -> (forall v, In v vs2 -> v_d v <> 0) ->
  PZ <> "pk"%string -> PZ <> "vk"%string ->
  exists hs1 f1 S l, length hs1 = length vs1 /\
    session no_limit bs (mkLine v0 "p1n" [s; p0] :: chain "p1c" vs1 p0 ps1) f = (Ok [] :: map (fun h => Ok [h]) hs1, f1) /\
    f1 P1 = Some (file1 p S l) /\ sized p S /\
    forall d, length d = (2 ^ k)%nat -> fsum d = 0 -> exists hs2 f' q w, length hs2 = length vs2 /\
      session no_limit bs
        (mkLine v1 "p1v" [P1] :: mkLine vn "p2n" [P1; r1; p2] :: chain "p2c" vs2 p2 ps2 ++ [mkLine vv "p2v" [PZ; p2]; mkLine vk "key" [PZ]])
        (fset f1 P1 (file1 p (nudge (2 ^ k) (root k) d S) l)) =
        (Ok hs1 :: Ok [] :: map (fun h => Ok [h]) hs2 ++ [Ok hs2; Ok []], f') /\
      f' "pk"%string = Some (pk_bytes k (N.of_nat (wires cs)) q) /\
      f' "vk"%string = Some (vk_bytes (ped (e := E) (v_g vk) (v_sg vk) []) (empty_info (E := E)) w) /\
      forall x h r t ar br krs, quotient cs x (2 ^ k) (root k) h -> proves q cs k x h r t ar br krs ->
        ar * br = w_alpha w * w_beta2 w + public_sum w cs x * 1 + krs * w_delta2 w - sumn (length (r_cons cs)) (fun j => nth j d 0 * lin cs x (expr cs r_R j)).
Proof. exact @leak_session. Qed.
Print Assumptions C83_leak_refuted.

(* in particular they choose two constraints (beyond the last one, the value is 0), and honest proofs are accepted
   if and only if the right sides have the same value *)
Theorem C83_selective_refuted : forall (E : Ext2) bs (v0 v1 vn vv vk : inv E) vs1 vs2 s p p0 ps1 r1 p2 ps2 (cs : r1cs E) rb k f,
  let P1 := last ps1 p0 in let PZ := last ps2 p2 in
  mexp_strict E -> 2 <= bs -> 1 <= p <= 26 -> numeral s (Z.of_nat p) ->
  p0 <> EmptyString -> moves p0 ps1 -> length ps1 = length vs1 -> vs1 <> [] -> length vs1 <= N.to_nat 65535 ->
  f r1 = Some rb -> parse_r1cs rb = Some cs -> ~ In r1 (p0 :: ps1) -> names_ok P1 r1 p2 ->
  circuit_ok cs -> length (r_cons cs) <= 2 ^ p -> is_dom (length (r_cons cs)) k -> k <= kmax E -> no_cmt cs ->
  (N.of_nat (wires cs) < 4294967296)%N ->
  moves p2 ps2 -> ~ In p2 ps2 -> ~ In "evals"%string ps2 -> length ps2 = length vs2 -> vs2 <> [] ->
  (Z.of_nat (length vs2) < 9223372036854775808)%Z -> aligned cs k (length vs2) -> (forall v, In v vs2 -> v_d v <> 0) ->
  PZ <> "pk"%string -> PZ <> "vk"%string ->
  exists hs1 f1 S l, length hs1 = length vs1 /\
    session no_limit bs (mkLine v0 "p1n" [s; p0] :: chain "p1c" vs1 p0 ps1) f = (Ok [] :: map (fun h => Ok [h]) hs1, f1) /\
    f1 P1 = Some (file1 p S l) /\ sized p S /\
    forall i j, (i < 2 ^ k)%nat -> (j < 2 ^ k)%nat -> exists hs2 f' q w, length hs2 = length vs2 /\
      session no_limit bs
        (mkLine v1 "p1v" [P1] :: mkLine vn "p2n" [P1; r1; p2] :: chain "p2c" vs2 p2 ps2 ++ [mkLine vv "p2v" [PZ; p2]; mkLine vk "key" [PZ]])
        (fset f1 P1 (file1 p (nudge (2 ^ k) (root (e := E) k) (against (2 ^ k) i j) S) l)) =
        (Ok hs1 :: Ok [] :: map (fun h => Ok [h]) hs2 ++ [Ok hs2; Ok []], f') /\
      f' "pk"%string = Some (pk_bytes k (N.of_nat (wires cs)) q) /\
      f' "vk"%string = Some (vk_bytes (ped (e := E) (v_g vk) (v_sg vk) []) (empty_info (E := E)) w) /\
      forall x h r t ar br krs, quotient cs x (2 ^ k) (root k) h -> proves q cs k x h r t ar br krs ->
        (accepts w cs x ar br krs <-> lin cs x (expr cs r_R i) = lin cs x (expr cs r_R j)).
Proof. exact @compare_session. Qed.
Print Assumptions C83_selective_refuted.

(* out = 2 x^2 + 3 x with a free y: of two honest proofs for out = 14 the one made with y = x is accepted *)
Example C83_case : moves "p1" p1s /\ (forall v, In v ivs2 -> v_d v <> 0) /\ aligned (tcs 0) 2 (length ivs2) /\ is_dom (length (r_cons (tcs 0))) 2 /\
  sized 2 yS' /\ beta2 yS' = beta2 yS /\ fsum (against (E := Toy2) (2 ^ 2) 0 1) = 0 /\
  (exists l, xF1 = file1 2 yS l /\ ynudged = file1 2 yS' l) /\ bytes_eqb xF1 ynudged = false /\
  (let r := session no_limit 2 xlines2 (fset xf1 "p1b" ynudged) in
   tl (fst (session no_limit 2 xlines1 wfs)) = match fst r with Ok hs :: _ => map (fun h => Ok [h]) hs | _ => [] end /\
   sizes (fst r) = [Some 2; Some 0; Some 1; Some 1; Some 2; Some 0]%nat /\
   has (snd r) "pk" (pk_bytes 2 6 ypk) = true /\ has (snd r) "vk" (vk_bytes (g1r (u 2) ++ g1r (u 6)) (empty_info (E := Toy2)) yvk) = true) /\
  (forall i, (i < nb_public (tcs 0))%nat -> kx i = kz i) /\
  quotient (tcs 0) kx (2 ^ 2) (root (e := Toy2) 2) [u 14; u 3; u 6] /\ quotient (tcs 0) kz (2 ^ 2) (root (e := Toy2) 2) [u 2; u 16; u 13] /\
  proves ypk (tcs 0) 2 kx [u 14; u 3; u 6] (u 2) (u 3) (u 14) (u 15) (u 1) /\ ~ accepts yvk (tcs 0) kx (u 14) (u 15) (u 1) /\
  proves ypk (tcs 0) 2 kz [u 2; u 16; u 13] (u 2) (u 3) (u 15) (u 5) (u 1) /\ accepts yvk (tcs 0) kz (u 15) (u 5) (u 1).
Proof.
  split; [repeat split; discriminate|]. split; [intros v [<-|[<-|[]]]; fld_neq|]. split; [exact w_aligned|]. split.
  { split; [lia|]. split; [vm_compute; lia|]. intros j J H. destruct j as [|[|j]]; [lia| |lia]. exfalso. revert H. vm_compute. lia. }
  split; [repeat split|]. split; [reflexivity|]. split; [by17|]. split.
  { destruct xfile as [l H]. exists l. split; [exact H|exact (ynudged_is l H)]. }
  split; [vm_compute; reflexivity|]. split.
  { cbv zeta. split; [vm_compute; reflexivity|]. split; [vm_compute; reflexivity|]. split; vm_compute; reflexivity. }
  split; [intros [|[|i]] Hi; [reflexivity|reflexivity|change (S (S i) < 2)%nat in Hi; lia]|].
  split; [exact kquot|]. split; [exact kzquot|]. split; [exact yproves_x|]. split; [fld_neq|]. split; [exact yproves_z|by17].
Qed.
