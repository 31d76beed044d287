(* Prop24.v -- property C85: the ceremony of README.md, in which the coordinator checks every contribution.  checked and
   shown are in Spec19.v, keys in Spec4.v, sessions in Session.v. *)
From Coq Require Import String.
From Verif Require Import Base Fld IO Ext Spec1 Phase1 Gob GobLemmas Circuit Spec2 Fs Spec3 Init2 Spec4 Keys Live Spec5 Spec6 Cli Session Spec19 Readme Toy1 Toy2 Toy6 Toy3 Toy4 Toy7.
Local Open Scope fld_scope.

Theorem C85_ceremony : forall (E : Ext2) bs (v0 vn vk : inv E) vs1 us1 vs2 us2 s p p0 ps1 r1 p2 ps2 (cs : r1cs E) rb k f,
  let P1 := last ps1 p0 in let PZ := last ps2 p2 in
  mexp_strict E -> 2 <= bs -> 1 <= p <= 26 -> numeral s (Z.of_nat p) ->
  p0 <> EmptyString -> moves p0 ps1 -> length ps1 = length vs1 -> length us1 = length vs1 -> length vs1 <= N.to_nat 65535 ->
  f r1 = Some rb -> parse_r1cs rb = Some cs -> ~ In r1 (p0 :: ps1) -> names_ok P1 r1 p2 ->
  circuit_ok cs -> length (r_cons cs) <= 2 ^ p -> is_dom (length (r_cons cs)) k -> k <= kmax E -> no_cmt cs ->
  (N.of_nat (wires cs) < 4294967296)%N ->
  moves p2 ps2 -> ~ In p2 ps2 -> ~ In "evals"%string ps2 -> length ps2 = length vs2 -> length us2 = length vs2 ->
  (Z.of_nat (length vs2) < 9223372036854775808)%Z -> aligned cs k (length vs2) -> (forall v, In v vs2 -> v_d v <> 0) ->
  PZ <> "pk"%string -> PZ <> "vk"%string ->
  exists hs1 hs2 f' q w, length hs1 = length vs1 /\ length hs2 = length vs2 /\
    session no_limit bs
      (mkLine v0 "p1n" [s; p0] :: checked "p1c" "p1v" [] vs1 us1 p0 ps1 ++
       mkLine vn "p2n" [P1; r1; p2] :: checked "p2c" "p2v" [p2] vs2 us2 p2 ps2 ++ [mkLine vk "key" [PZ]]) f =
      (Ok [] :: shown [] hs1 ++ Ok [] :: shown [] hs2 ++ [Ok []], f') /\
    f' "pk"%string = Some (pk_bytes k (N.of_nat (wires cs)) q) /\
    f' "vk"%string = Some (vk_bytes (ped (e := E) (v_g vk) (v_sg vk) []) (empty_info (E := E)) w) /\
    is_keypair cs k (root k) (prodl (map (fun v => r_alpha (v_w v)) vs1)) (prodl (map (fun v => r_beta (v_w v)) vs1))
      (prodl (map v_d vs2)) (prodl (map (fun v => r_tau (v_w v)) vs1)) q w.
Proof. exact @readme. Qed.
Print Assumptions C85_ceremony.

(* README.md:54 ends the ceremony with keys and one argument; that line is refused *)
Theorem C85_last_line_refuted : forall (E : Ext2) bs dev (v : inv E) a w, exists e, tool dev bs v "keys" [a] w = (Err e, w).
Proof. exact @keys_line. Qed.
Print Assumptions C85_last_line_refuted.

Example C85_case : mexp_strict Toy2 /\ numeral "2" 2 /\ moves "p1" p1s /\ wfs "r1cs"%string = Some [b8 0] /\
  parse_r1cs (e := Toy2) [b8 0] = Some (tcs 0) /\ ~ In "r1cs"%string ("p1"%string :: p1s) /\ names_ok "p1b" "r1cs" "p2" /\
  circuit_ok (tcs 0) /\ is_dom (length (r_cons (tcs 0))) 2 /\ no_cmt (tcs 0) /\ moves "p2" p2s /\ aligned (tcs 0) 2 (length ivs2) /\
  (forall v, In v ivs2 -> v_d v <> 0) /\
  let r := session no_limit 2 (mkLine i0 "p1n" ["2"; "p1"]%string :: checked "p1c" "p1v" [] ivs1 [i0; i0] "p1" p1s ++
       mkLine i0 "p2n" ["p1b"; "r1cs"; "p2"]%string :: checked "p2c" "p2v" ["p2"%string] ivs2 [i0; i0] "p2" p2s ++
       [mkLine i0 "keys" ["p2b"]%string; mkLine i0 "key" ["p2b"]%string]) wfs in
  sizes (fst r) = [Some 0; Some 1; Some 1; Some 1; Some 2; Some 0; Some 1; Some 1; Some 1; Some 2; None; Some 0]%nat /\
  has (snd r) "pk" (pk_bytes 2 6 kpk) = true /\
  has (snd r) "vk" (vk_bytes (g1r (u 2) ++ g1r (u 6)) (empty_info (E := Toy2)) kvk) = true.
Proof.
  split; [exact toy2_strict|]. split; [exact num2|]. split; [repeat split; discriminate|]. split; [reflexivity|]. split; [reflexivity|].
  split; [intros [H|[H|[H|[]]]]; discriminate|]. split; [repeat split; discriminate|].
  split; [apply circuit_okb_ok; vm_compute; reflexivity|]. split.
  { split; [lia|]. split; [vm_compute; lia|]. intros j J H. destruct j as [|[|j]]; [lia| |lia]. exfalso. revert H. vm_compute. lia. }
  split; [split; reflexivity|]. split; [repeat split; discriminate|]. split; [exact w_aligned|].
  split; [intros v [<-|[<-|[]]]; fld_neq|]. vm_compute. auto.
Qed.
