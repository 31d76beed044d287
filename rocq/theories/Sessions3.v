(* Sessions3.v -- sessions that start from a file of another ceremony (p1t) and end in the split keys (keys)
   and the Solidity verifier (sol). *)
From Coq Require Import Ring Field String.
From Verif Require Import Base Fld Conc Parallel Poly IO Ext Spec1 Phase1 Gob GobLemmas Circuit Spec2 Phase2 Fs Init2 Init2Io Init2More Spec3 Spec4 Keys Phase1Io Phase1Verify
  Phase1Trans Phase1Facts Phase1Claims Phase2Claims KeysLemmas KeysClaims KeysProps Live LiveLemmas LiveCmd LiveClaims Spec5 LiveProps OnlyA Spec6 Cli CliClaims Session
  SessionClaims Spec8 Spec9 Forge Sessions2.
Local Open Scope fld_scope.
Local Open Scope lcmd_scope.

Section TransformSession.
Context {E : Ext2}.
Add Field Ese3 : (f_th E).
Variable bs : nat.

Lemma p1t_does (v : inv E) s t a b ip op f F O : numeral s (Z.of_nat a) -> numeral t (Z.of_nat b) -> b <= a <= 54 ->
  ip <> op -> f ip = Some F -> exec (transform (E := E) (b8 (N.of_nat a)) (b8 (N.of_nat b))) F F = (Ok tt, O) ->
  exists f', does bs (mkLine v "p1t" [ip; op; s; t]) f (Ok []) f' /\ f' op = Some O /\ forall q, q <> op -> f' q = f q.
Proof.
  intros N1 N2 P NE H X. destruct (c55_t (E := E) (b8 (N.of_nat a)) (b8 (N.of_nat b)) ip op f F _ _ NE H X) as [A B].
  pose proof (c18_transform (E := E) no_limit (b8 (N.of_nat a)) (b8 (N.of_nat b)) ip op f) as C.
  assert (T : tool no_limit bs v "p1t" [ip; op; s; t] = quiet (l_transform (E := E) no_limit (b8 (N.of_nat a)) (b8 (N.of_nat b)) ip op)).
  { change (int_arg s (fun i => int_arg t (fun o =>
      if (i <? o)%Z then lfail EHigherPower else quiet (l_transform (E := E) no_limit (to_byte i) (to_byte o) ip op))) =
      quiet (l_transform (E := E) no_limit (b8 (N.of_nat a)) (b8 (N.of_nat b)) ip op)).
    unfold int_arg. rewrite (proj2 (atoi_iff s (Z.of_nat a)) N1), (proj2 (atoi_iff t (Z.of_nat b)) N2).
    rewrite (proj2 (Z.ltb_ge (Z.of_nat a) (Z.of_nat b))) by lia.
    unfold to_byte. rewrite !Z.mod_small by lia. now rewrite <- !nat_N_Z, !N2Z.id. }
  eexists. split; [exact (quiet_does bs v _ _ _ f tt T A)|]. split; [exact B|].
  intros q Q. refine (proj1 (C q _)). intros [<-|[]]. now apply Q.
Qed.

(* C68, first part: p1t, p1c ... *)
Lemma transform_start (v0 : inv E) vs1 s t a b h (T A B : E) junk ip p0 ps1 r1 p2 (cs : r1cs E) rb k f :
  let P1 := last ps1 p0 in
  2 <= bs -> 1 <= b <= a -> a <= 54 -> numeral s (Z.of_nat a) -> numeral t (Z.of_nat b) ->
  f ip = Some (ppot h (srs_of a T A B) junk) -> length h = 64%nat -> ip <> p0 ->
  moves p0 ps1 -> length ps1 = length vs1 -> length vs1 <= N.to_nat 65535 ->
  f r1 = Some rb -> parse_r1cs rb = Some cs -> ~ In r1 (p0 :: ps1) -> names_ok P1 r1 p2 ->
  circuit_ok cs -> length (r_cons cs) <= 2 ^ b -> (Z.of_nat (length (r_cons cs)) <= 2 ^ 27)%Z -> is_dom (length (r_cons cs)) k -> k <= kmax E ->
  exists hs1 f1, length hs1 = length vs1 /\
    session no_limit bs (mkLine v0 "p1t" [ip; p0; s; t] :: chain "p1c" vs1 p0 ps1) f = (Ok [] :: map (fun h => Ok [h]) hs1, f1) /\
    (forall q, ~ In q (p0 :: ps1) -> f1 q = f q) /\
    init_input b (srs_of b (prodl (map (fun v => r_tau (v_w v)) vs1) * T) (prodl (map (fun v => r_alpha (v_w v)) vs1) * A)
      (prodl (map (fun v => r_beta (v_w v)) vs1) * B)) cs f1 P1 r1 p2 /\
    (mexp_strict E -> vs1 <> [] -> p0 <> EmptyString -> ~ In p0 ps1 ->
     forall v1 : inv E, does bs (mkLine v1 "p1vt" [P1; p0]) f1 (Ok hs1) f1).
Proof.
  intros P1 BS [P1b P2b] P3 N1 N2 HI Lh NI M1 L1 LE1 HR PR NR NO CO LC LZ KD KM.
  pose proof (srs_of_sized a T A B) as SZ.
  destruct (p1t_does v0 s t a b ip p0 f _ _ N1 N2 ltac:(lia) NI HI (c15 a b h _ junk _ ltac:(lia) SZ Lh)) as [f0 [D0 [H0 O0]]].
  rewrite (cut_srs_of a b T A B P2b) in H0. set (s0 := srs_of b T A B) in *.
  pose proof (srs_of_sized b T A B : sized b s0) as CZ. set (g := file1 b s0 []) in *.
  pose proof (good_origin bs b s0 P1b CZ (firsts_ok_of bs b T A B)) as G.
  assert (F : is_file1 g b s0 []) by (apply file1_is0; auto; intros ? []).
  destruct (steps_honest bs b (origin_of s0) BS ltac:(lia) eq_refl (map v_w vs1) s0 [] [] g F G ltac:(cbn [length]; rewrite map_length; lia)
    ltac:(intros _; reflexivity)) as [hs' [H Hh]]. cbn [app map] in H, Hh.
  destruct (fold1_steps bs vs1 _ _ _ _ H) as [hs1 [EQ S1]]. cbn [app] in EQ. rewrite EQ in Hh. clear EQ.
  destruct (chain_session bs "p1c" (fun v => contribute bs (v_w v)) (p1c_does bs) vs1 ps1 p0 f0 _ _ _ L1 M1 H0 S1) as [f1 [C1 [HF O1]]].
  pose proof (honest_len (map v_w vs1) s0 []) as HL. cbn [length Nat.add] in HL. rewrite map_length in HL.
  assert (LH : length hs1 = length vs1) by (rewrite <- Hh, map_length; exact HL).
  exists hs1, f1. split; [exact LH|]. split; [eapply session_cons; [exact D0|exact C1]|]. split.
  { intros q Q. rewrite O1 by (intros I; apply Q; now right). apply O0. intros ->. apply Q. now left. }
  split.
  - unfold s0 in HF at 1. rewrite honest_srs_of, !map_map in HF. split; [exact NO|]. split; [lia|]. split; [apply srs_of_sized|]. split.
    + eexists _, _, _. fold P1 in HF. rewrite HF. unfold file1, hdr1, be16, phase1_file. reflexivity.
    + split; [exists rb; split; [|exact PR]|].
      { rewrite O1 by (intros I; apply NR; now right). rewrite O0 by (intros ->; apply NR; now left). exact HR. }
      split; [exact CO|]. split; [exact LC|]. destruct KD as [K1 [K2 K3]]. split; [exact LZ|]. split; [lia|].
      eapply Nat.le_trans; [exact K2|]. apply Nat.pow_le_mono_r; lia.
  - intros MS NV NE NP v1. pose proof (check_does bs v1 "p1vt" [P1; p0] f1 ltac:(right; now left)) as Q.
    assert (HG : f1 p0 = Some g) by (rewrite O1 by exact NP; exact H0).
    rewrite (p1vt_result no_limit bs v1 P1 p0 f1 _ g NE HF HG) in Q.
    pose proof (honest_good bs b (origin_of s0) eq_refl (map v_w vs1) s0 [] G) as G'. pose proof G' as [SZ' [_ [H32 _]]].
    rewrite (verify_file bs (v_rho v1) (Some true) _ g b (fst (honest s0 [] (map v_w vs1))) (snd (honest s0 [] (map v_w vs1))) (origin_of s0)) in Q;
      try (exact MS); try lia; auto.
    + cbn [fst] in Q. rewrite <- Hh. rewrite (good_outcome bs b (origin_of s0)) in Q; [exact Q| |exact G'].
      intros X. rewrite X in HL. destruct vs1; [congruence|discriminate].
    + apply file1_is0; auto.
    + unfold g, file1, hdr1. cbn [length recs_bytes flat_map]. apply origin_src_file; auto; lia.
Qed.

(* keys, then sol *)
Lemma sol_not_saved ss part : String.append part ".save" <> ".sol"%string -> save_path ss part <> sol_path ss.
Proof. intros N Q. apply N. exact (append_inj ss _ _ Q). Qed.
Lemma split_sol (vk vs : inv E) PZ ss f3 F G h q w s1 s2 k (cs : r1cs E) text :
  ~ In PZ (split_names ss) -> PZ <> vks_path ss -> f3 PZ = Some F -> f3 evals_path = Some G ->
  ev (read_pk (E := E)) (opened F, opened G) (Ok (h, q)) s1 none ->
  ev (read_vk (E := E) wrap64) (opened F, opened G) (Ok w) s2 none ->
  u64 (h_wires h) = N.of_nat (wires cs) -> u64 (h_domain h) = N.of_nat (2 ^ k) -> w_ck w = [] ->
  v_sol vs (vk_bytes (ped (e := E) (v_g vk) (v_sg vk) []) (empty_info (E := E)) w) = Some text ->
  exists f', session no_limit bs [mkLine vk "keys" [PZ; ss]; mkLine vs "sol" [ss]] f3 = ([Ok []; Ok []], f') /\
    map f' (split_names ss) = map Some (split_bytes (N.of_nat (2 ^ k)) (N.of_nat (wires cs)) q) /\
    f' (vks_path ss) = Some (vk_bytes (ped (e := E) (v_g vk) (v_sg vk) []) (empty_info (E := E)) w) /\
    f' (ckey_path ss) = Some (ped (e := E) (v_g vk) (v_sg vk) [] ++ ped (e := E) (v_g vk) (v_sg vk) []) /\
    f' (sol_path ss) = Some text /\
    forall x, ~ In x (split_names ss) -> x <> vks_path ss -> x <> ckey_path ss -> x <> sol_path ss -> f' x = f3 x.
Proof.
  intros N1 N2 HF HG RP RV UW UD CK TX.
  destruct (extract_split_run wrap64 (v_g vk) (v_sg vk) PZ ss f3 F G h q w s1 s2 N1 N2 HF HG RP RV) as [fb [B1 [B2 [B3 [B4 B5]]]]].
  rewrite CK in B3, B4. rewrite UW, UD in B2.
  destruct (c55_sk wrap64 (v_g vk) (v_sg vk) PZ ss f3 N1 N2) as [R Q]. rewrite B1 in R, Q. cbn [fst snd] in R, Q.
  pose proof (quiet_does bs vk "keys" [PZ; ss] (l_split_keys no_limit wrap64 (v_g vk) (v_sg vk) PZ ss) f3 tt eq_refl R) as D.
  set (f4 := after (l_split_keys no_limit wrap64 (v_g vk) (v_sg vk) PZ ss) f3) in *.
  destruct (sol_ok bs vs ss f4 _ text (eq_trans (Q _) B3) TX) as [S1 S2].
  pose proof (tool_confined no_limit bs vs "sol" [ss] f4) as C. change (outputs "sol" [ss]) with [sol_path ss] in C.
  set (f5 := after (tool no_limit bs vs "sol" [ss]) f4) in *.
  assert (O : forall x, x <> sol_path ss -> f5 x = fb x).
  { intros x X. rewrite <- Q. refine (proj1 (C x _)). intros [<-|[]]. now apply X. }
  exists f5. split; [|split; [|split; [|split; [|split]]]].
  - eapply session_cons; [exact D|]. eapply session_cons; [|reflexivity]. split; [exact S1|reflexivity].
  - cbn [split_names List.map map]. rewrite !O by (apply sol_not_saved; discriminate). unfold split_bytes. cbn [map].
    pose proof (B2 0%nat _ eq_refl) as Q0. pose proof (B2 1%nat _ eq_refl) as Q1. pose proof (B2 2%nat _ eq_refl) as Q2.
    pose proof (B2 3%nat _ eq_refl) as Q3. pose proof (B2 4%nat _ eq_refl) as Q4. pose proof (B2 5%nat _ eq_refl) as Q5.
    cbn [nth_error split_bytes] in *. rewrite Q0, Q1, Q2, Q3, Q4, Q5. reflexivity.
  - rewrite O by (apply sol_not_saved; discriminate). exact B3.
  - rewrite O by (apply sol_not_saved; discriminate). exact B4.
  - exact S2.
  - intros x X1 X2 X3 X4. rewrite O by exact X4. now apply B5.
Qed.

(* C68 *)
Lemma transformed_session (v0 v1 vn vv vk vs : inv E) vs1 vs2 s t a b h (T A B : E) junk ip p0 ps1 r1 p2 ps2 ss (cs : r1cs E) rb k f :
  let P1 := last ps1 p0 in let PZ := last ps2 p2 in
  let ck := ped (e := E) (v_g vk) (v_sg vk) [] in
  mexp_strict E -> 2 <= bs -> 1 <= b <= a -> a <= 54 -> numeral s (Z.of_nat a) -> numeral t (Z.of_nat b) ->
  f ip = Some (ppot h (srs_of a T A B) junk) -> length h = 64%nat -> ip <> p0 -> p0 <> EmptyString -> ~ In p0 ps1 ->
  moves p0 ps1 -> length ps1 = length vs1 -> vs1 <> [] -> length vs1 <= N.to_nat 65535 ->
  f r1 = Some rb -> parse_r1cs rb = Some cs -> ~ In r1 (p0 :: ps1) -> names_ok P1 r1 p2 ->
  circuit_ok cs -> length (r_cons cs) <= 2 ^ b -> (Z.of_nat (length (r_cons cs)) <= 2 ^ 27)%Z -> is_dom (length (r_cons cs)) k -> k <= kmax E ->
  no_cmt cs -> (N.of_nat (wires cs) < 4294967296)%N ->
  moves p2 ps2 -> ~ In p2 ps2 -> ~ In evals_path ps2 -> length ps2 = length vs2 -> vs2 <> [] ->
  (Z.of_nat (length vs2) < 9223372036854775808)%Z -> aligned cs k (length vs2) -> (forall v, In v vs2 -> v_d v <> 0) ->
  ~ In PZ (split_names ss) -> PZ <> vks_path ss -> (forall c i (w : vkey E), v_sol vs (vk_bytes c i w) <> None) ->
  exists hs1 hs2 f' q w text, length hs1 = length vs1 /\ length hs2 = length vs2 /\
    session no_limit bs
      (mkLine v0 "p1t" [ip; p0; s; t] :: chain "p1c" vs1 p0 ps1 ++ mkLine v1 "p1vt" [P1; p0] ::
       mkLine vn "p2n" [P1; r1; p2] :: chain "p2c" vs2 p2 ps2 ++
       [mkLine vv "p2v" [PZ; p2]; mkLine vk "keys" [PZ; ss]; mkLine vs "sol" [ss]]) f =
      (Ok [] :: map (fun h => Ok [h]) hs1 ++ Ok hs1 :: Ok [] :: map (fun h => Ok [h]) hs2 ++ [Ok hs2; Ok []; Ok []], f') /\
    map f' (split_names ss) = map Some (split_bytes (N.of_nat (2 ^ k)) (N.of_nat (wires cs)) q) /\
    f' (vks_path ss) = Some (vk_bytes ck (empty_info (E := E)) w) /\ f' (ckey_path ss) = Some (ck ++ ck) /\
    f' (sol_path ss) = Some text /\ v_sol vs (vk_bytes ck (empty_info (E := E)) w) = Some text /\
    is_keypair cs k (root k) (prodl (map (fun v => r_alpha (v_w v)) vs1) * A) (prodl (map (fun v => r_beta (v_w v)) vs1) * B)
      (prodl (map v_d vs2)) (prodl (map (fun v => r_tau (v_w v)) vs1) * T) q w.
Proof.
  intros P1 PZ ck MS BS P2b P3 N1 N2 HI Lh NI NE IP M1 L1 NV1 LE1 HR PR NR NO CO LC LZ KD KM NC HW M2 I2 IE L2 NV2 LE2 AL NZ NS NV SO.
  destruct (transform_start v0 vs1 s t a b h T A B junk ip p0 ps1 r1 p2 cs rb k f BS P2b P3 N1 N2 HI Lh NI M1 L1 LE1 HR PR NR NO CO LC LZ KD KM)
    as [hs1 [f1 [LH1 [S1 [O1 [II V1]]]]]]. fold P1 in II, V1.
  destruct (phase2_core bs vn vs2 b _ _ _ P1 r1 p2 ps2 cs k f1 BS II KD NC HW M2 I2 IE L2 LE2 AL NZ) as
    [hs2 [f3 [LH2 [S2 [V2 [F [G [hd [q [w [s1 [s2 [HF [HG [RP [ND [RV [UW [UD [CK [KP _]]]]]]]]]]]]]]]]]]]]]. fold PZ in V2, HF.
  destruct (v_sol vs (vk_bytes ck (empty_info (E := E)) w)) as [text|] eqn:TX; [|now destruct (SO _ _ _ TX)].
  destruct (split_sol vk vs PZ ss f3 F G hd q w s1 s2 k cs text NS NV HF HG RP RV UW UD CK TX) as [f' [S3 [W1 [W2 [W3 [W4 _]]]]]].
  exists hs1, hs2, f', q, w, text. split; [exact LH1|]. split; [exact LH2|]. split; [|now repeat (split; [assumption|])].
  rewrite app_comm_cons, (app_comm_cons (map _ hs1)). eapply session_app; [exact S1|].
  eapply session_cons; [exact (V1 MS NV1 NE IP v1)|].
  rewrite (app_comm_cons (chain _ _ _ _)), (app_comm_cons (map _ hs2)). eapply session_app; [exact S2|].
  eapply session_cons; [exact (V2 NV2 vv)|exact S3].
Qed.

(* C69: the parameters of the published file replaced *)
Lemma rig_of p (T' A' T A B : E) : rig p T' A' (srs_of p T A B) = srs_of p T' A' B.
Proof.
  unfold rig, srs_of. cbn [beta1 beta2].
  assert (N : nth 0 (map (fun i => B * T ^ i) (seq 0 (2 ^ p))) 0 = B).
  { destruct (2 ^ p)%nat eqn:P; [pose proof (pow2_pos p); lia|]. cbn [seq map nth fpow]. ring. }
  rewrite N. f_equal; apply map_ext; intros i; ring.
Qed.
Lemma rigged_session (v0 v1 vn vv vk : inv E) vs1 vs2 s p p0 ps1 r1 p2 ps2 (cs : r1cs E) rb k f :
  let P1 := last ps1 p0 in let PZ := last ps2 p2 in
  mexp_strict E -> 2 <= bs -> 1 <= p <= 26 -> numeral s (Z.of_nat p) ->
  p0 <> EmptyString -> moves p0 ps1 -> length ps1 = length vs1 -> vs1 <> [] -> length vs1 <= N.to_nat 65535 ->
  f r1 = Some rb -> parse_r1cs rb = Some cs -> ~ In r1 (p0 :: ps1) -> names_ok P1 r1 p2 ->
  circuit_ok cs -> length (r_cons cs) <= 2 ^ p -> is_dom (length (r_cons cs)) k -> k <= kmax E -> no_cmt cs ->
  (N.of_nat (wires cs) < 4294967296)%N ->
  moves p2 ps2 -> ~ In p2 ps2 -> ~ In evals_path ps2 -> length ps2 = length vs2 -> vs2 <> [] ->
  (Z.of_nat (length vs2) < 9223372036854775808)%Z -> aligned cs k (length vs2) -> (forall v, In v vs2 -> v_d v <> 0) ->
  PZ <> pk_path -> PZ <> vk_path ->
  exists hs1 f1 S l, length hs1 = length vs1 /\
    session no_limit bs (mkLine v0 "p1n" [s; p0] :: chain "p1c" vs1 p0 ps1) f = (Ok [] :: map (fun h => Ok [h]) hs1, f1) /\
    f1 P1 = Some (file1 p S l) /\ sized p S /\
    forall tau alpha, exists hs2 f' q w, length hs2 = length vs2 /\
      session no_limit bs
        (mkLine v1 "p1v" [P1] :: mkLine vn "p2n" [P1; r1; p2] :: chain "p2c" vs2 p2 ps2 ++ [mkLine vv "p2v" [PZ; p2]; mkLine vk "key" [PZ]])
        (fset f1 P1 (file1 p (rig p tau alpha S) l)) =
        (Ok hs1 :: Ok [] :: map (fun h => Ok [h]) hs2 ++ [Ok hs2; Ok []], f') /\
      f' pk_path = Some (pk_bytes k (N.of_nat (wires cs)) q) /\
      f' vk_path = Some (vk_bytes (ped (e := E) (v_g vk) (v_sg vk) []) (empty_info (E := E)) w) /\
      is_keypair cs k (root k) alpha (prodl (map (fun v => r_beta (v_w v)) vs1)) (prodl (map v_d vs2)) tau q w /\
      forall x r, accepts w cs x (alpha * q_beta q + public_sum w cs x + r * w_delta w) 1 r.
Proof.
  intros P1 PZ MS B P Nu NE M1 L1 NV1 LE1 HR PR NR NO CO LC KD KM NC HW M2 I2 IE L2 NV2 LE2 AL NZ NP NK.
  destruct (phase1_lines bs v0 vs1 s p p0 ps1 f B P Nu NE M1 L1 LE1) as [F1 [hs1 [f1 [C1 [S1 [H1 O1]]]]]]. fold P1 in H1.
  destruct (ceremony_result bs p (map v_w vs1) B ltac:(lia) ltac:(rewrite map_length; lia)) as [l [C [CL G]]].
  rewrite C1 in C. injection C as EF EH. rewrite map_length in CL. rewrite !map_map in EF, G.
  set (T := prodl (map (fun v => r_tau (v_w v)) vs1)) in *. set (A := prodl (map (fun v => r_alpha (v_w v)) vs1)) in *.
  set (Bt := prodl (map (fun v => r_beta (v_w v)) vs1)) in *.
  exists hs1, f1, (srs_of p T A Bt), l. split; [rewrite EH, map_length; exact CL|]. split; [exact S1|]. split; [now rewrite H1, EF|].
  split; [apply srs_of_sized|]. intros tau alpha. rewrite rig_of.
  set (F' := file1 p (srs_of p tau alpha Bt) l). set (fx := fset f1 P1 F').
  assert (HX : fx P1 = Some F') by apply fset_same.
  assert (NR1 : r1 <> P1) by (intros ->; apply NR, last_in).
  assert (II : init_input p (srs_of p tau alpha Bt) cs fx P1 r1 p2).
  { split; [exact NO|]. split; [lia|]. split; [apply srs_of_sized|]. split.
    + eexists _, _, (recs_bytes l). rewrite HX. unfold F', file1, hdr1, be16, phase1_file. reflexivity.
    + split; [exists rb; split; [|exact PR]|].
      { unfold fx. rewrite fset_other by (now apply not_eq_sym). now rewrite O1. }
      split; [exact CO|]. split; [exact LC|]. destruct KD as [K1 [K2 K3]]. split; [|split; [lia|]].
      * assert (length (r_cons cs) <= 2 ^ 26)%nat by (eapply Nat.le_trans; [exact LC|]; apply Nat.pow_le_mono_r; lia).
        transitivity (Z.of_nat (2 ^ 26)); [lia|]. rewrite Nat2Z.inj_pow. apply Z.pow_le_mono_r; lia.
      * eapply Nat.le_trans; [exact K2|]. apply Nat.pow_le_mono_r; lia. }
  assert (V : does bs (mkLine v1 "p1v" [P1]) fx (Ok hs1) fx).
  { pose proof (check_does bs v1 "p1v" [P1] fx ltac:(now left)) as Q. rewrite (p1v_result no_limit bs v1 P1 fx F' HX) in Q.
    pose proof G as [SZ [_ [H32 _]]].
    rewrite (verify_file bs (v_rho v1) None F' F' p (srs_of p tau alpha Bt) l origin_gen) in Q; auto using origin_src_none; try lia.
    - cbn [fst] in Q. change (beta2 (srs_of p tau alpha Bt)) with (beta2 (srs_of p T A Bt)) in Q.
      rewrite (good_outcome bs p origin_gen (srs_of p T A Bt) l) in Q; [now rewrite EH| |exact G]. intros ->. destruct vs1; [congruence|discriminate].
    - apply file1_is0; auto. apply srs_of_sized. }
  destruct (phase2_lines bs vn vs2 p _ _ _ P1 r1 p2 ps2 cs k fx B II KD NC HW M2 I2 IE L2 LE2 AL NZ) as [hs2 [f3 [LH2 [S2 [V2 X]]]]].
  fold PZ in V2, X. destruct (X NP NK vk) as [f4 [q [w [D [W1 [W2 KP]]]]]].
  exists hs2, f4, q, w. split; [exact LH2|]. split.
  - eapply session_cons; [exact V|]. rewrite (app_comm_cons (chain _ _ _ _)), (app_comm_cons (map _ hs2)).
    eapply session_app; [exact S2|]. eapply session_cons; [exact (V2 NV2 vv)|]. eapply session_cons; [exact D|reflexivity].
  - split; [exact W1|]. split; [exact W2|]. split; [exact KP|]. intros x. exact (proj2 (proj2 (known_secret cs k _ _ _ _ q w x KP))).
Qed.
(* C50: evals replaced after p2v has accepted *)
Lemma tampered_evals (v0 v1 vn vv vk : inv E) vs1 vs2 s p p0 ps1 r1 p2 ps2 (cs : r1cs E) rb k f :
  let P1 := last ps1 p0 in let PZ := last ps2 p2 in
  mexp_strict E -> 2 <= bs -> 1 <= p <= 26 -> numeral s (Z.of_nat p) ->
  p0 <> EmptyString -> moves p0 ps1 -> length ps1 = length vs1 -> vs1 <> [] -> length vs1 <= N.to_nat 65535 ->
  f r1 = Some rb -> parse_r1cs rb = Some cs -> ~ In r1 (p0 :: ps1) -> names_ok P1 r1 p2 ->
  circuit_ok cs -> length (r_cons cs) <= 2 ^ p -> is_dom (length (r_cons cs)) k -> k <= kmax E -> no_cmt cs ->
  (N.of_nat (wires cs) < 4294967296)%N ->
  moves p2 ps2 -> ~ In p2 ps2 -> ~ In evals_path ps2 -> length ps2 = length vs2 -> vs2 <> [] ->
  (Z.of_nat (length vs2) < 9223372036854775808)%Z -> aligned cs k (length vs2) -> (forall v, In v vs2 -> v_d v <> 0) ->
  PZ <> pk_path -> PZ <> vk_path ->
  forall e : evals E, smalls e -> same_wires (wires cs) e ->
  exists hs1 hs2 f2 f3 f' q w, length hs1 = length vs1 /\ length hs2 = length vs2 /\
    session no_limit bs
      (mkLine v0 "p1n" [s; p0] :: chain "p1c" vs1 p0 ps1 ++ mkLine v1 "p1v" [P1] ::
       mkLine vn "p2n" [P1; r1; p2] :: chain "p2c" vs2 p2 ps2) f =
      (Ok [] :: map (fun h => Ok [h]) hs1 ++ Ok hs1 :: Ok [] :: map (fun h => Ok [h]) hs2, f2) /\
    session no_limit bs [mkLine vv "p2v" [PZ; p2]] (fset f2 evals_path (evals_bytes e)) = ([Ok hs2], f3) /\
    session no_limit bs [mkLine vk "key" [PZ]] f3 = ([Ok []], f') /\
    f' pk_path = Some (pk_bytes k (N.of_nat (wires cs)) q) /\
    f' vk_path = Some (vk_bytes (ped (e := E) (v_g vk) (v_sg vk) (v_ckk e)) (empty_info (E := E)) w) /\
    q_alpha q = v_alpha e /\ q_beta q = v_beta1 e /\ q_A q = v_A e /\ q_B q = v_B e /\ q_B2 q = v_B2 e /\
    w_alpha w = v_alpha e /\ w_beta2 w = v_beta2 e /\ w_K w = v_vkk e /\
    forall x, accepts w cs x (v_alpha e * v_beta2 e + public_sum w cs x) 1 0.
Proof.
  intros P1 PZ MS B P Nu NE M1 L1 NV1 LE1 HR PR NR NO CO LC KD KM NC HW M2 I2 IE L2 NV2 LE2 AL NZ NP NK e SM SW.
  destruct (phase1_start bs v0 vs1 s p p0 ps1 r1 p2 cs rb k f B P Nu NE M1 L1 LE1 HR PR NR NO CO LC KD KM) as [hs1 [f1 [LH1 [S1 [O1 [II V1]]]]]].
  fold P1 in II, V1.
  destruct (phase2_core bs vn vs2 p _ _ _ P1 r1 p2 ps2 cs k f1 B II KD NC HW M2 I2 IE L2 LE2 AL NZ) as
    [hs2 [f2 [LH2 [S2 [V2 [F [G [hd [q0 [w0 [s1 [s2 [HF [HG [RP [ND [RV [UW [UD [CK [_ [HWZ [q2 HP]]]]]]]]]]]]]]]]]]]]]]]. fold PZ in V2, HF.
  destruct (read_pk_ok F hd q2 e HP SM) as [t1 R1].
  destruct (read_vk_ok wrap64 F hd q2 e (wires cs) HP SM SW HWZ ltac:(apply pos64; lia)) as [t2 R2].
  set (f3 := fset f2 evals_path (evals_bytes e)).
  assert (NPE : PZ <> evals_path).
  { pose proof (last_in ps2 p2) as I. fold PZ in I. intros Q. rewrite Q in I. destruct I as [I|I]; [|now apply IE].
    destruct NO as [_ [_ [_ [_ [_ [_ [_ NO8]]]]]]]. now apply NO8. }
  assert (NPE2 : p2 <> evals_path) by (destruct NO as [_ [_ [_ [_ [_ [_ [_ NO8]]]]]]]; exact NO8).
  assert (H3 : f3 PZ = Some F) by (unfold f3; rewrite fset_other by (now apply not_eq_sym); exact HF).
  assert (H3e : f3 evals_path = Some (evals_bytes e)) by apply fset_same.
  destruct (extract_keys_run wrap64 (v_g vk) (v_sg vk) PZ f3 F (evals_bytes e) _ _ k _ t1 t2 NP NK H3 H3e R1 ND R2) as [fb [B1 [B2 [B3 B4]]]].
  destruct (c55_k wrap64 (v_g vk) (v_sg vk) PZ f3 NP NK) as [R4 Q4]. rewrite B1 in R4, Q4. cbn [fst snd] in R4, Q4.
  pose proof (quiet_does bs vk "key" [PZ] (l_keys no_limit wrap64 (v_g vk) (v_sg vk) PZ) f3 tt eq_refl R4) as D4.
  exists hs1, hs2, f2, f3, (after (l_keys no_limit wrap64 (v_g vk) (v_sg vk) PZ) f3), (pk_of q2 e), (vk_of q2 e).
  split; [exact LH1|]. split; [exact LH2|]. split; [|split; [|split; [|split; [|split]]]].
  - rewrite app_comm_cons, (app_comm_cons (map _ hs1)). eapply session_app; [exact S1|].
    eapply session_cons; [exact (V1 MS NV1 v1)|]. exact S2.
  - eapply session_cons; [|reflexivity].
    assert (V3 : does bs (mkLine vv "p2v" [PZ; p2]) f3 (Ok hs2) f3); [|exact V3].
    pose proof (check_does bs vv "p2v" [PZ; p2] f3 ltac:(right; right; now left)) as D.
    pose proof (V2 NV2 vv) as [D' _]. cbn [l_inv l_name l_args] in D'.
    destruct (f2 p2) as [G2|] eqn:HG2.
    + assert (HG3 : f3 p2 = Some G2) by (unfold f3; rewrite fset_other by (now apply not_eq_sym); exact HG2).
      rewrite (p2v_result no_limit bs vv PZ p2 f3 F G2 H3 HG3) in D. rewrite (p2v_result no_limit bs vv PZ p2 f2 F G2 HF HG2) in D'.
      now rewrite D' in D.
    + exfalso. change (fst (l_verify2 no_limit bs vv PZ p2 (start f2)) = Ok hs2) in D'. unfold l_verify2, lbind, lopen in D'.
      cbn [start w_fs] in D'. rewrite HF, HG2 in D'. discriminate.
  - eapply session_cons; [exact D4|reflexivity].
  - now rewrite Q4, B2, UW.
  - now rewrite Q4, B3.
  - repeat (split; [reflexivity|]). intros x. exact (known_rest (vk_of q2 e) cs x).
Qed.
End TransformSession.
