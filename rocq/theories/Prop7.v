(* Prop7.v -- properties C57 to C60: the command line.  tool dev bs v name args is one run of the program
   (Cli.v); session runs several one after the other (Session.v); result_of, after and confined are in
   Spec5.v, numerals and the table of output files in Spec6.v. *)
From Coq Require Import String.
From Verif Require Import Base Fld IO Ext Spec1 Phase1 Phase1Verify Gob Circuit Spec2 Phase2 Fs Spec3 Init2 Spec4 Keys Live LiveCmd Spec5 Spec6
  Cli CliClaims Session SessionClaims Toy2 Toy3 Toy4 Toy6 Toy7.
Local Open Scope fld_scope.

(* C57 *)
Theorem C57_refused : forall (E : Ext2) dev bs (v : inv E) n a, bad_line n a ->
  forall w, exists e, tool dev bs v n a w = (Err e, w).
Proof. exact @bad_line_safe. Qed.
Print Assumptions C57_refused.
Theorem C57_numbers : forall s z, atoi s = Some z <-> numeral s z.
Proof. exact atoi_iff. Qed.
Print Assumptions C57_numbers.

Example C57_case : bad_line "p1x" ["a"]%string /\ bad_line "p1c" ["a"; "b"; "c"]%string /\ bad_line "p1n" ["2.0"; "o"]%string /\
  bad_line "p1n" ["+027"; "o"]%string /\ bad_line "p1t" ["i"; "o"; "-13"; "2"]%string /\
  atoi "9223372036854775808" = None /\ atoi "-9223372036854775808" = Some (-9223372036854775808)%Z /\ atoi "" = None /\ atoi "+-1" = None /\
  sizes [result_of (tool no_limit 2 i0 "p1n" ["2"; "o"]%string) wfs] = [Some 0%nat].
Proof.
  split; [apply bad_name; vm_compute; intuition discriminate|].
  split; [apply (bad_count "p1c" 2); [vm_compute; tauto|discriminate]|].
  split; [apply bad_power; intros [z N]; apply atoi_iff in N; discriminate|].
  split; [exact (big_power _ _ _ num27 ltac:(reflexivity))|].
  split; [exact (higher_power _ _ _ _ _ _ num_neg num2 ltac:(reflexivity))|].
  vm_compute. auto 8.
Qed.

(* C58 *)
Theorem C58_outputs : forall (E : Ext2) dev bs (v : inv E) n a, confined (outputs n a) (tool dev bs v n a).
Proof. exact @tool_confined. Qed.
Print Assumptions C58_outputs.
Theorem C58_checks_write_nothing : forall (E : Ext2) dev bs (v : inv E) n a w,
  In n ["p1v"; "p1vt"; "p2v"]%string -> snd (tool dev bs v n a w) = w.
Proof. exact @checks_quiet. Qed.
Print Assumptions C58_checks_write_nothing.
Theorem C58_p1v : forall (E : Ext2) dev bs (v : inv E) ip f F, f ip = Some F ->
  result_of (tool dev bs v "p1v" [ip]) f = fst (exec (verify bs (v_rho v) None) F F).
Proof. exact @p1v_result. Qed.
Print Assumptions C58_p1v.
Theorem C58_p1vt : forall (E : Ext2) dev bs (v : inv E) ip tp f F G, tp <> EmptyString -> f ip = Some F -> f tp = Some G ->
  result_of (tool dev bs v "p1vt" [ip; tp]) f = fst (exec (verify bs (v_rho v) (Some true)) F G).
Proof. exact @p1vt_result. Qed.
Print Assumptions C58_p1vt.
(* the empty name means no transformed file: the contributions are checked against the generators *)
Theorem C58_p1vt_empty : forall (E : Ext2) dev bs (v : inv E) ip,
  tool dev bs v "p1vt" [ip; EmptyString] = tool dev bs v "p1v" [ip].
Proof. exact @p1vt_empty. Qed.
Print Assumptions C58_p1vt_empty.
Theorem C58_p2v : forall (E : Ext2) dev bs (v : inv E) ip op f F G, f ip = Some F -> f op = Some G ->
  result_of (tool dev bs v "p2v" [ip; op]) f = fst (exec (verify2 bs (v_rho v)) F G).
Proof. exact @p2v_result. Qed.
Print Assumptions C58_p2v.
Theorem C58_sol : forall (E : Ext2) bs (v : inv E) s f b text, f (s ++ ".vk.save")%string = Some b -> v_sol v b = Some text ->
  result_of (tool no_limit bs v "sol" [s]) f = Ok [] /\ after (tool no_limit bs v "sol" [s]) f (s ++ ".sol")%string = Some text.
Proof. exact @sol_ok. Qed.
Print Assumptions C58_sol.
(* without a readable session.vk.save the program panics and writes nothing *)
Theorem C58_sol_no_key : forall (E : Ext2) dev bs (v : inv E) s f,
  (f (s ++ ".vk.save")%string = None \/ exists b, f (s ++ ".vk.save")%string = Some b /\ v_sol v b = None) ->
  tool dev bs v "sol" [s] (start f) = (Panic, start f).
Proof. exact @sol_none. Qed.
Print Assumptions C58_sol_no_key.

Example C58_case : let f := fset (snd (session no_limit 2 (firstn 3 wlines) wfs)) "s.vk.save"%string [b8 1; b8 2; b8 3; b8 4] in
  sizes [result_of (tool (disk 0) 2 i0 "p1v" ["p1b"]%string) f; result_of (tool (disk 0) 2 i0 "p1vt" ["p1b"; ""]%string) f;
         result_of (tool (disk 0) 2 i0 "p1vt" ["p1b"; "p1a"]%string) f; result_of (tool no_limit 2 i0 "sol" ["s"]%string) f] =
    [Some 2; Some 2; None; Some 0]%nat /\
  outputs "p2n" ["p1b"; "r1cs"; "p2"]%string = ["p2"; "srs.lag"; "evals"]%string /\
  has (after (tool no_limit 2 i0 "sol" ["s"]%string) f) "s.sol" [b8 1; b8 2; b8 3] = true.
Proof. vm_compute. auto. Qed.

(* C59 *)
Theorem C59_phase1_session : forall (E : Ext2) bs (v0 v1 : inv E) vs s p p0 ps f,
  mexp_strict E -> 2 <= bs -> 1 <= p <= 26 -> numeral s (Z.of_nat p) ->
  p0 <> EmptyString -> moves p0 ps -> length ps = length vs -> vs <> [] -> length vs <= N.to_nat 65535 ->
  exists hs f', length hs = length vs /\
    session no_limit bs (mkLine v0 "p1n" [s; p0] :: chain "p1c" vs p0 ps ++ [mkLine v1 "p1v" [last ps p0]]) f =
      (Ok [] :: map (fun h => Ok [h]) hs ++ [Ok hs], f') /\
    forall q, ~ In q (p0 :: ps) -> f' q = f q.
Proof. exact @phase1_session. Qed.
Print Assumptions C59_phase1_session.

(* p1n 2 p1; p1c p1 p1a; p1c p1a p1b; p1v p1b *)
Example C59_case : mexp_strict Toy2 /\ numeral "2" 2 /\ moves "p1" p1s /\ length p1s = 2%nat /\ ~ In "r1cs"%string ("p1"%string :: p1s) /\
  let r := session no_limit 2 (firstn 4 wlines) wfs in
  sizes (fst r) = [Some 0; Some 1; Some 1; Some 2]%nat /\ has (snd r) "r1cs" [b8 0] = true /\
  nth_error (fst r) 3 = Some (Ok (concat (map (fun x => match x with Ok l => l | _ => [] end) (firstn 3 (fst r))))).
Proof.
  split; [exact toy2_strict|]. split; [exact num2|]. split; [repeat split; discriminate|]. split; [reflexivity|].
  split; [intros [H|[H|[H|[]]]]; discriminate|]. vm_compute. auto.
Qed.

(* C60 *)
Theorem C60_whole_session : forall (E : Ext2) bs (v0 v1 vn vv vk : inv E) vs1 vs2 s p p0 ps1 r1 p2 ps2 (cs : r1cs E) rb k f,
  let P1 := last ps1 p0 in let PZ := last ps2 p2 in
  mexp_strict E -> 2 <= bs -> 1 <= p <= 26 -> numeral s (Z.of_nat p) ->
  p0 <> EmptyString -> moves p0 ps1 -> length ps1 = length vs1 -> vs1 <> [] -> length vs1 <= N.to_nat 65535 ->
  f r1 = Some rb -> parse_r1cs rb = Some cs -> ~ In r1 (p0 :: ps1) -> names_ok P1 r1 p2 ->
  circuit_ok cs -> length (r_cons cs) <= 2 ^ p -> is_dom (length (r_cons cs)) k -> k <= kmax E -> no_cmt cs ->
  (N.of_nat (wires cs) < 4294967296)%N ->
  moves p2 ps2 -> ~ In p2 ps2 -> ~ In "evals"%string ps2 -> length ps2 = length vs2 -> vs2 <> [] ->
  (Z.of_nat (length vs2) < 9223372036854775808)%Z -> aligned cs k (length vs2) -> (forall v, In v vs2 -> v_d v <> 0) ->
  PZ <> "pk"%string -> PZ <> "vk"%string ->
  exists hs1 hs2 f' q w, length hs1 = length vs1 /\ length hs2 = length vs2 /\
    session no_limit bs
      (mkLine v0 "p1n" [s; p0] :: chain "p1c" vs1 p0 ps1 ++ mkLine v1 "p1v" [P1] ::
       mkLine vn "p2n" [P1; r1; p2] :: chain "p2c" vs2 p2 ps2 ++ [mkLine vv "p2v" [PZ; p2]; mkLine vk "key" [PZ]]) f =
      (Ok [] :: map (fun h => Ok [h]) hs1 ++ Ok hs1 :: Ok [] :: map (fun h => Ok [h]) hs2 ++ [Ok hs2; Ok []], f') /\
    f' "pk"%string = Some (pk_bytes k (N.of_nat (wires cs)) q) /\
    f' "vk"%string = Some (vk_bytes (ped (e := E) (v_g vk) (v_sg vk) []) (empty_info (E := E)) w) /\
    is_keypair cs k (root k) (prodl (map (fun v => r_alpha (v_w v)) vs1)) (prodl (map (fun v => r_beta (v_w v)) vs1))
      (prodl (map v_d vs2)) (prodl (map (fun v => r_tau (v_w v)) vs1)) q w /\
    forall x, ~ In x (p0 :: ps1 ++ p2 :: ps2 ++ ["srs.lag"; "evals"; "pk"; "vk"]%string) -> f' x = f x.
Proof. exact @whole_session. Qed.
Print Assumptions C60_whole_session.

(* the session of Toy7.v: phase 1 with tau 3, alpha 5, beta 7 in two contributions, phase 2 with delta 4 in two *)
Example C60_case : mexp_strict Toy2 /\ numeral "2" 2 /\ moves "p1" p1s /\ wfs "r1cs"%string = Some [b8 0] /\
  parse_r1cs (e := Toy2) [b8 0] = Some (tcs 0) /\ ~ In "r1cs"%string ("p1"%string :: p1s) /\ names_ok "p1b" "r1cs" "p2" /\
  circuit_ok (tcs 0) /\ is_dom (length (r_cons (tcs 0))) 2 /\ no_cmt (tcs 0) /\ moves "p2" p2s /\ aligned (tcs 0) 2 (length ivs2) /\
  (forall v, In v ivs2 -> v_d v <> 0) /\
  let r := session no_limit 2 wlines wfs in
  sizes (fst r) = [Some 0; Some 1; Some 1; Some 2; Some 0; Some 1; Some 1; Some 2; Some 0]%nat /\
  has (snd r) "pk" (pk_bytes 2 6 kpk) = true /\
  has (snd r) "vk" (vk_bytes (g1r (u 2) ++ g1r (u 6)) (empty_info (E := Toy2)) kvk) = true.
Proof.
  split; [exact toy2_strict|]. split; [exact num2|]. split; [repeat split; discriminate|]. split; [reflexivity|]. split; [reflexivity|].
  split; [intros [H|[H|[H|[]]]]; discriminate|]. split; [repeat split; discriminate|].
  split; [apply circuit_okb_ok; vm_compute; reflexivity|]. split.
  { split; [lia|]. split; [vm_compute; lia|]. intros j J H. destruct j as [|[|j]]; [lia| |lia]. exfalso. revert H. vm_compute. lia. }
  split; [split; reflexivity|]. split; [repeat split; discriminate|]. split; [exact w_aligned|].
  split; [intros v [<-|[<-|[]]]; fld_neq|]. vm_compute. auto.
Qed.
