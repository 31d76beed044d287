(* Sessions2.v -- sessions that leave out the contributions to one of the phases; proofs with the keys of a
   whole session. *)
From Coq Require Import Ring Field String.
From Verif Require Import Base Fld Conc Parallel Poly IO Ext Spec1 Phase1 Gob GobLemmas Circuit Spec2 Phase2 Fs Init2 Init2Io Init2More Spec3 Spec4 Keys Phase1Io Phase1Verify
  Phase1Facts Phase1Claims Phase2Claims KeysLemmas KeysClaims KeysProps Live LiveLemmas LiveCmd LiveClaims Spec5 LiveProps OnlyA Spec6 Cli CliClaims Session
  SessionClaims Spec8 Forge.
Local Open Scope fld_scope.
Local Open Scope lcmd_scope.

Section Phase2Session.
Context {E : Ext2}.
Add Field Ese2 : (f_th E).
Variable bs : nat.

Lemma phase1_start (v0 : inv E) vs1 s p p0 ps1 r1 p2 (cs : r1cs E) rb k f :
  let P1 := last ps1 p0 in
  2 <= bs -> 1 <= p <= 26 -> numeral s (Z.of_nat p) ->
  p0 <> EmptyString -> moves p0 ps1 -> length ps1 = length vs1 -> length vs1 <= N.to_nat 65535 ->
  f r1 = Some rb -> parse_r1cs rb = Some cs -> ~ In r1 (p0 :: ps1) -> names_ok P1 r1 p2 ->
  circuit_ok cs -> length (r_cons cs) <= 2 ^ p -> is_dom (length (r_cons cs)) k -> k <= kmax E ->
  exists hs1 f1, length hs1 = length vs1 /\
    session no_limit bs (mkLine v0 "p1n" [s; p0] :: chain "p1c" vs1 p0 ps1) f = (Ok [] :: map (fun h => Ok [h]) hs1, f1) /\
    (forall q, ~ In q (p0 :: ps1) -> f1 q = f q) /\
    init_input p (srs_of p (prodl (map (fun v => r_tau (v_w v)) vs1)) (prodl (map (fun v => r_alpha (v_w v)) vs1))
      (prodl (map (fun v => r_beta (v_w v)) vs1))) cs f1 P1 r1 p2 /\
    (mexp_strict E -> vs1 <> [] -> forall v1 : inv E, does bs (mkLine v1 "p1v" [P1]) f1 (Ok hs1) f1).
Proof.
  intros P1 B P Nu NE M1 L1 LE1 HR PR NR NO CO LC KD KM.
  destruct (phase1_lines bs v0 vs1 s p p0 ps1 f B P Nu NE M1 L1 LE1) as [F1 [hs1 [f1 [C1 [S1 [H1 O1]]]]]].
  destruct (c04 bs p (map v_w vs1) B ltac:(lia) ltac:(rewrite map_length; lia)) as [l [C CL]].
  assert (C' := C). rewrite C1 in C'. injection C' as EF EH.
  exists hs1, f1. split; [rewrite EH, map_length, CL, map_length; reflexivity|]. split; [exact S1|]. split; [exact O1|]. split.
  - rewrite !map_map in EF. split; [exact NO|]. split; [lia|]. split; [apply srs_of_sized|]. split.
    + eexists _, _, (recs_bytes l). fold P1 in H1. rewrite H1, EF. unfold file1, hdr1, be16, phase1_file. reflexivity.
    + split; [exists rb; split; [now rewrite O1|exact PR]|]. split; [exact CO|]. split; [exact LC|].
      destruct KD as [K1 [K2 K3]]. split; [|split; [lia|]].
      * assert (length (r_cons cs) <= 2 ^ 26)%nat by (eapply Nat.le_trans; [exact LC|]; apply Nat.pow_le_mono_r; lia).
        transitivity (Z.of_nat (2 ^ 26)); [lia|]. rewrite Nat2Z.inj_pow. apply Z.pow_le_mono_r; lia.
      * eapply Nat.le_trans; [exact K2|]. apply Nat.pow_le_mono_r; lia.
  - intros MS NV1 v1. destruct (c05 bs p (map v_w vs1) MS B ltac:(lia) ltac:(destruct vs1; [congruence|discriminate]) ltac:(rewrite map_length; lia)) as [F' [hs' [D [L V]]]].
    assert (F' = F1 /\ hs' = hs1) as [-> ->] by (rewrite C1 in D; injection D; auto).
    pose proof (check_does bs v1 "p1v" [P1] f1 ltac:(now left)) as Q.
    rewrite (p1v_result no_limit bs v1 P1 f1 F1 H1) in Q. rewrite (V bs (v_rho v1) F1 ltac:(lia)) in Q. exact Q.
Qed.

(* p2n, the contributions, then p2v (if there are any); what the extraction will read *)
Lemma phase2_core (vn : inv E) vs2 p T A Bt P1 r1 p2 ps2 (cs : r1cs E) k f1 :
  let PZ := last ps2 p2 in
  2 <= bs -> init_input p (srs_of p T A Bt) cs f1 P1 r1 p2 -> is_dom (length (r_cons cs)) k -> no_cmt cs ->
  (N.of_nat (wires cs) < 4294967296)%N ->
  moves p2 ps2 -> ~ In p2 ps2 -> ~ In evals_path ps2 -> length ps2 = length vs2 ->
  (Z.of_nat (length vs2) < 9223372036854775808)%Z -> aligned cs k (length vs2) -> (forall v, In v vs2 -> v_d v <> 0) ->
  exists hs2 f3, length hs2 = length vs2 /\
    session no_limit bs (mkLine vn "p2n" [P1; r1; p2] :: chain "p2c" vs2 p2 ps2) f1 = (Ok [] :: map (fun h => Ok [h]) hs2, f3) /\
    (vs2 <> [] -> forall vv : inv E, does bs (mkLine vv "p2v" [PZ; p2]) f3 (Ok hs2) f3) /\
    exists F G h q w s1 s2, f3 PZ = Some F /\ f3 evals_path = Some G /\
      ev (read_pk (E := E)) (opened F, opened G) (Ok (h, q)) s1 none /\ new_domain (E := E) (h_domain h) = Some k /\
      ev (read_vk (E := E) wrap64) (opened F, opened G) (Ok w) s2 none /\
      u64 (h_wires h) = N.of_nat (wires cs) /\ u64 (h_domain h) = N.of_nat (2 ^ k) /\ w_ck w = [] /\
      is_keypair cs k (root k) A Bt (prodl (map v_d vs2)) T q w /\
      h_wires h = Z.of_nat (wires cs) /\ exists q2 : par2 E, ph2 F h q2.
Proof.
  intros PZ B II KD NC HW M2 I2 IE L2 LE2 AL NZ.
  set (ws := map (fun v : inv E => (v_d v, v_s v)) vs2).
  assert (LW : length ws = length vs2) by (unfold ws; now rewrite map_length).
  destruct (after_ceremony p T A Bt cs f1 P1 r1 p2 bs ws II NC HW ltac:(lia) ltac:(rewrite LW; exact LE2)) as
    [fa [k' [t [z [h [q0 [v [N1 [N2 [N3 [N4 [N5 [N6 [N7 [N8 [N9 [N10 [N11 [N12 [N13 [N14 N15]]]]]]]]]]]]]]]]]]]]].
  assert (k' = k) by (destruct KD as [K1 [K2 K3]], N5 as [J1 [J2 J3]]; specialize (K3 k' J1 J2); specialize (J3 k K1 K2); lia).
  subst k'. assert (LZ : length (p_Z q0) = (2 ^ k - 1)%nat) by (rewrite N10; exact (proj1 N8)).
  assert (LK : length (p_K q0) = (nb_secret cs + nb_internal cs)%nat) by (rewrite N10; cbn [p_K]; now rewrite map_length, seq_length).
  assert (U : forall j, (1 <= j <= length ws)%nat -> unsplit (set_contribs h (Z.of_nat j)) q0 j).
  { rewrite LW, N9. now apply aligned_unsplit. }
  destruct (N15 U) as [F [hs2 [l [C2 [C3 C4]]]]].
  pose proof II as [NO _]. pose proof NO as [NO1 [NO2 [NO3 [NO4 [NO5 [NO6 [NO7 NO8]]]]]]].
  destruct (c55_n (E := E) P1 r1 p2 f1 NO1 NO3 NO4 NO7 NO8) as [R2 Q2]. rewrite N1 in R2, Q2. cbn [fst snd] in R2, Q2.
  pose proof (quiet_does bs vn "p2n" [P1; r1; p2] (l_p2n (E := E) no_limit P1 r1 p2) f1 tt eq_refl R2) as D2.
  set (f2 := after (l_p2n (E := E) no_limit P1 r1 p2) f1) in *.
  destruct (fold2_steps bs vs2 _ _ _ _ C2) as [hs2' [EQ S2]]. cbn [app] in EQ. subst hs2'.
  destruct (chain_session bs "p2c" (fun v => contribute2 bs (v_d v) (v_s v)) (p2c_does bs) vs2 ps2 p2 f2 _ _ _ L2 M2 (eq_trans (Q2 p2) N3) S2)
    as [f3 [S3 [H3 O3]]]. fold PZ in H3.
  assert (LH : length hs2 = length vs2).
  { clear - S2. revert S2. generalize (file2 h q0 []). revert hs2. induction vs2 as [|v vs IH]; intros hs F0 S; inversion S; subst; [reflexivity|].
    cbn [length]. f_equal. eapply IH. eassumption. }
  exists hs2, f3. split; [exact LH|]. split; [eapply session_cons; [exact D2|exact S3]|]. split.
  - intros NV2 vv. assert (SZ : sized2 h q0).
    { rewrite N9. split; unfold hdr_of; cbn [h_domain h_witness]; [rewrite LZ; pose proof (pow2_pos k); lia|now rewrite LK]. }
    assert (HO : hdr_ok h).
    { rewrite N9. apply hdr_of_ok; [exact HW|apply II|]. destruct (init_dom _ _ _ _ _ _ _ II) as [k' [KD' [K27 _]]].
      destruct KD as [K1 [K2 K3]], KD' as [J1 [J2 J3]]. specialize (K3 k' J1 J2). lia. }
    assert (F0 : is_file2 (file2 h q0 []) h q0 []).
    { rewrite <- (app_nil_r (file2 _ _ _)). apply file2_is; [exact SZ|rewrite N9; reflexivity|intros c []|]. intros i Hi. cbn in Hi. lia. }
    destruct (c37 bs (file2 h q0 []) h q0 ws ltac:(lia) HO ltac:(rewrite N9; reflexivity) F0 ltac:(rewrite LW; exact LE2)
      ltac:(unfold ws; destruct vs2; [congruence|discriminate]) U) as [F' [hs' [C2' [LH2 [_ V2]]]]].
    { intros w I. unfold ws in I. apply in_map_iff in I as [x [<- I]]. exact (NZ x I). }
    assert (F' = F /\ hs' = hs2) as [-> ->] by (rewrite C2 in C2'; injection C2'; auto).
    assert (H3b : f3 p2 = Some (file2 h q0 [])) by (rewrite O3 by exact I2; now rewrite Q2).
    pose proof (check_does bs vv "p2v" [PZ; p2] f3 ltac:(right; right; now left)) as D3.
    rewrite (p2v_result no_limit bs vv PZ p2 f3 F _ H3 H3b) in D3. rewrite (V2 bs (v_rho vv) ltac:(lia)) in D3. exact D3.
  - assert (H3c : f3 evals_path = Some (evals_bytes v)) by (rewrite O3 by exact IE; now rewrite Q2).
    destruct (read_pk_ok F _ _ v C4 N13) as [s1 R1].
    assert (HWZ : h_wires (set_contribs h (Z.of_nat (length ws))) = Z.of_nat (wires cs)) by (rewrite N9; reflexivity).
    assert (HDZ : h_domain (set_contribs h (Z.of_nat (length ws))) = Z.of_nat (2 ^ k)) by (rewrite N9; reflexivity).
    destruct (read_vk_ok wrap64 F _ _ v (wires cs) C4 N13 N14 HWZ) as [s2 R2v]; [apply pos64; lia|].
    destruct (init_dom _ _ _ _ _ _ _ II) as [k' [KD' [K27 _]]].
    assert (K27' : (k <= 27)%nat) by (destruct KD as [K1 [K2 K3]], KD' as [J1 [J2 J3]]; specialize (K3 k' J1 J2); lia).
    assert (P2 : (Z.of_nat (2 ^ k) <= 2 ^ 27)%Z) by (rewrite Nat2Z.inj_pow; apply Z.pow_le_mono_r; lia).
    change (2 ^ 27)%Z with 134217728%Z in P2.
    eexists F, _, _, _, _, s1, s2. split; [exact H3|]. split; [exact H3c|]. split; [exact R1|]. split; [exact N12|]. split; [exact R2v|].
    rewrite HWZ, HDZ, !u64_nat by lia. split; [reflexivity|]. split; [reflexivity|]. split; [unfold vk_of; cbn [w_ck]; now rewrite N11|].
    split; [|split; [reflexivity|eexists; exact C4]].
    rewrite N10, N11. replace (prodl (map v_d vs2)) with (prodf ws) by (unfold prodf, ws; now rewrite map_map). now apply keypair_of.
Qed.
(* p2n, the contributions, then p2v (if there are any) and key *)
Lemma phase2_lines (vn : inv E) vs2 p T A Bt P1 r1 p2 ps2 (cs : r1cs E) k f1 :
  let PZ := last ps2 p2 in
  2 <= bs -> init_input p (srs_of p T A Bt) cs f1 P1 r1 p2 -> is_dom (length (r_cons cs)) k -> no_cmt cs ->
  (N.of_nat (wires cs) < 4294967296)%N ->
  moves p2 ps2 -> ~ In p2 ps2 -> ~ In evals_path ps2 -> length ps2 = length vs2 ->
  (Z.of_nat (length vs2) < 9223372036854775808)%Z -> aligned cs k (length vs2) -> (forall v, In v vs2 -> v_d v <> 0) ->
  exists hs2 f3, length hs2 = length vs2 /\
    session no_limit bs (mkLine vn "p2n" [P1; r1; p2] :: chain "p2c" vs2 p2 ps2) f1 = (Ok [] :: map (fun h => Ok [h]) hs2, f3) /\
    (vs2 <> [] -> forall vv : inv E, does bs (mkLine vv "p2v" [PZ; p2]) f3 (Ok hs2) f3) /\
    (PZ <> pk_path -> PZ <> vk_path -> forall vk : inv E, exists f4 q w, does bs (mkLine vk "key" [PZ]) f3 (Ok []) f4 /\
      f4 pk_path = Some (pk_bytes k (N.of_nat (wires cs)) q) /\
      f4 vk_path = Some (vk_bytes (ped (e := E) (v_g vk) (v_sg vk) []) (empty_info (E := E)) w) /\
      is_keypair cs k (root k) A Bt (prodl (map v_d vs2)) T q w).
Proof.
  intros PZ B II KD NC HW M2 I2 IE L2 LE2 AL NZ.
  destruct (phase2_core vn vs2 p T A Bt P1 r1 p2 ps2 cs k f1 B II KD NC HW M2 I2 IE L2 LE2 AL NZ) as
    [hs2 [f3 [LH [S [V [F [G [h [q [w [s1 [s2 [HF [HG [RP [ND [RV [UW [UD [CK [KP _]]]]]]]]]]]]]]]]]]]]].
  fold PZ in V, HF. exists hs2, f3. split; [exact LH|]. split; [exact S|]. split; [exact V|]. intros NP NK vk.
  destruct (extract_keys_run wrap64 (v_g vk) (v_sg vk) PZ f3 F G _ _ k _ s1 s2 NP NK HF HG RP ND RV) as [fb [B1 [B2 [B3 B4]]]].
  destruct (c55_k wrap64 (v_g vk) (v_sg vk) PZ f3 NP NK) as [R4 Q4]. rewrite B1 in R4, Q4. cbn [fst snd] in R4, Q4.
  pose proof (quiet_does bs vk "key" [PZ] (l_keys no_limit wrap64 (v_g vk) (v_sg vk) PZ) f3 tt eq_refl R4) as D4.
  exists (after (l_keys no_limit wrap64 (v_g vk) (v_sg vk) PZ) f3), q, w. split; [exact D4|].
  split; [now rewrite Q4, B2, UW|]. split; [now rewrite Q4, B3, CK|exact KP].
Qed.

(* C64: no p2c *)
Lemma no_phase2 (v0 v1 vn vk : inv E) vs1 s p p0 ps1 r1 p2 (cs : r1cs E) rb k f :
  let P1 := last ps1 p0 in
  mexp_strict E -> 2 <= bs -> 1 <= p <= 26 -> numeral s (Z.of_nat p) ->
  p0 <> EmptyString -> moves p0 ps1 -> length ps1 = length vs1 -> vs1 <> [] -> length vs1 <= N.to_nat 65535 ->
  f r1 = Some rb -> parse_r1cs rb = Some cs -> ~ In r1 (p0 :: ps1) -> names_ok P1 r1 p2 ->
  circuit_ok cs -> length (r_cons cs) <= 2 ^ p -> is_dom (length (r_cons cs)) k -> k <= kmax E -> no_cmt cs ->
  (N.of_nat (wires cs) < 4294967296)%N -> p2 <> pk_path -> p2 <> vk_path ->
  exists hs1 f' q w, length hs1 = length vs1 /\
    session no_limit bs
      (mkLine v0 "p1n" [s; p0] :: chain "p1c" vs1 p0 ps1 ++ [mkLine v1 "p1v" [P1]; mkLine vn "p2n" [P1; r1; p2]; mkLine vk "key" [p2]]) f =
      (Ok [] :: map (fun h => Ok [h]) hs1 ++ [Ok hs1; Ok []; Ok []], f') /\
    f' pk_path = Some (pk_bytes k (N.of_nat (wires cs)) q) /\
    f' vk_path = Some (vk_bytes (ped (e := E) (v_g vk) (v_sg vk) []) (empty_info (E := E)) w) /\
    is_keypair cs k (root k) (prodl (map (fun v => r_alpha (v_w v)) vs1)) (prodl (map (fun v => r_beta (v_w v)) vs1)) 1
      (prodl (map (fun v => r_tau (v_w v)) vs1)) q w /\
    forall x, accepts w cs x (w_alpha w) (w_beta2 w) (- public_sum w cs x).
Proof.
  intros P1 MS B P Nu NE M1 L1 NV1 LE1 HR PR NR NO CO LC KD KM NC HW NP NK.
  destruct (phase1_start v0 vs1 s p p0 ps1 r1 p2 cs rb k f B P Nu NE M1 L1 LE1 HR PR NR NO CO LC KD KM) as [hs1 [f1 [LH [S1 [O1 [II V1]]]]]].
  destruct (phase2_lines vn [] p _ _ _ P1 r1 p2 [] cs k f1 B II KD NC HW ltac:(exact I) ltac:(intros []) ltac:(intros []) eq_refl ltac:(cbn; lia))
    as [hs2 [f3 [L2 [S2 [_ X]]]]]; [intros j i [J1 J2]; cbn in J2; lia|intros v []|].
  destruct hs2; [|discriminate]. cbn [last] in X. destruct (X NP NK vk) as [f4 [q [w [D [W1 [W2 KP]]]]]].
  exists hs1, f4, q, w. split; [exact LH|]. split.
  - rewrite app_comm_cons, (app_comm_cons (map _ hs1)). eapply session_app; [exact S1|].
    eapply session_cons; [exact (V1 MS NV1 v1)|].
    change [mkLine vn "p2n" [P1; r1; p2]; mkLine vk "key" [p2]] with ((mkLine vn "p2n" [P1; r1; p2] :: chain "p2c" [] p2 []) ++ [mkLine vk "key" [p2]]).
    change [Ok []; Ok []] with ((Ok [] :: map (fun h : bytes => Ok [h]) []) ++ [Ok (@nil bytes)]).
    eapply session_app; [exact S2|]. eapply session_cons; [exact D|reflexivity].
  - split; [exact W1|]. split; [exact W2|]. change (prodl (map v_d (@nil (inv E)))) with (1 : E) in KP. split; [exact KP|].
    intros x. apply delta_one. destruct KP as [t KP]. apply KP.
Qed.
(* no p1c *)
Lemma no_phase1 (v0 vn vv vk : inv E) vs2 s p p0 r1 p2 ps2 (cs : r1cs E) rb k f :
  let PZ := last ps2 p2 in
  2 <= bs -> 1 <= p <= 26 -> numeral s (Z.of_nat p) -> p0 <> EmptyString ->
  f r1 = Some rb -> parse_r1cs rb = Some cs -> r1 <> p0 -> names_ok p0 r1 p2 ->
  circuit_ok cs -> length (r_cons cs) <= 2 ^ p -> is_dom (length (r_cons cs)) k -> k <= kmax E -> no_cmt cs ->
  (N.of_nat (wires cs) < 4294967296)%N ->
  moves p2 ps2 -> ~ In p2 ps2 -> ~ In evals_path ps2 -> length ps2 = length vs2 -> vs2 <> [] ->
  (Z.of_nat (length vs2) < 9223372036854775808)%Z -> aligned cs k (length vs2) -> (forall v, In v vs2 -> v_d v <> 0) ->
  PZ <> pk_path -> PZ <> vk_path ->
  exists hs2 f' q w, length hs2 = length vs2 /\
    session no_limit bs
      (mkLine v0 "p1n" [s; p0] :: mkLine vn "p2n" [p0; r1; p2] :: chain "p2c" vs2 p2 ps2 ++ [mkLine vv "p2v" [PZ; p2]; mkLine vk "key" [PZ]]) f =
      (Ok [] :: Ok [] :: map (fun h => Ok [h]) hs2 ++ [Ok hs2; Ok []], f') /\
    f' pk_path = Some (pk_bytes k (N.of_nat (wires cs)) q) /\
    f' vk_path = Some (vk_bytes (ped (e := E) (v_g vk) (v_sg vk) []) (empty_info (E := E)) w) /\
    is_keypair cs k (root k) 1 1 (prodl (map v_d vs2)) 1 q w /\
    forall x, accepts w cs x (1 + public_sum w cs x) 1 0.
Proof.
  intros PZ B P Nu NE HR PR NR NO CO LC KD KM NC HW M2 I2 IE L2 NV2 LE2 AL NZ NP NK.
  destruct (phase1_start v0 [] s p p0 [] r1 p2 cs rb k f B P Nu NE ltac:(exact I) eq_refl ltac:(cbn; lia) HR PR
    ltac:(intros [H|[]]; congruence) NO CO LC KD KM) as [hs1 [f1 [LH [S1 [O1 [II V1]]]]]]. cbn [last] in II.
  destruct (phase2_lines vn vs2 p _ _ _ p0 r1 p2 ps2 cs k f1 B II KD NC HW M2 I2 IE L2 LE2 AL NZ) as [hs2 [f3 [LH2 [S2 [V2 X]]]]].
  destruct hs1; [|discriminate]. destruct (X NP NK vk) as [f4 [q [w [D [W1 [W2 KP]]]]]].
  change (prodl (map (fun v : inv E => r_tau (v_w v)) [])) with (1 : E) in KP.
  change (prodl (map (fun v : inv E => r_alpha (v_w v)) [])) with (1 : E) in KP.
  change (prodl (map (fun v : inv E => r_beta (v_w v)) [])) with (1 : E) in KP.
  exists hs2, f4, q, w. split; [exact LH2|]. split.
  - change (chain "p1c" [] p0 []) with (@nil (line E)) in S1. cbn [map] in S1.
    rewrite (app_comm_cons (chain _ _ _ _)), (app_comm_cons (map _ hs2)).
    change (mkLine v0 "p1n" [s; p0] :: ?l) with ([mkLine v0 "p1n" [s; p0]] ++ l).
    change (Ok (@nil bytes) :: ?l) with ([Ok (@nil bytes)] ++ l) at 1.
    eapply session_app; [exact S1|]. eapply session_app; [exact S2|]. eapply session_cons; [exact (V2 NV2 vv)|].
    eapply session_cons; [exact D|reflexivity].
  - split; [exact W1|]. split; [exact W2|]. split; [exact KP|]. intros x.
    replace (1 + public_sum w cs x) with (w_alpha w * w_beta2 w + public_sum w cs x); [apply known_rest|].
    destruct KP as [t [_ [_ [_ [_ [_ [_ [_ [_ [_ [_ [_ [_ [-> [_ [-> _]]]]]]]]]]]]]]]]. ring.
Qed.

(* with the keys of a whole session *)
Lemma session_proofs (v0 v1 vn vv vk : inv E) vs1 vs2 s p p0 ps1 r1 p2 ps2 (cs : r1cs E) rb k f :
  let P1 := last ps1 p0 in let PZ := last ps2 p2 in
  mexp_strict E -> 2 <= bs -> 1 <= p <= 26 -> numeral s (Z.of_nat p) ->
  p0 <> EmptyString -> moves p0 ps1 -> length ps1 = length vs1 -> vs1 <> [] -> length vs1 <= N.to_nat 65535 ->
  f r1 = Some rb -> parse_r1cs rb = Some cs -> ~ In r1 (p0 :: ps1) -> names_ok P1 r1 p2 ->
  circuit_ok cs -> length (r_cons cs) <= 2 ^ p -> is_dom (length (r_cons cs)) k -> k <= kmax E -> no_cmt cs ->
  (N.of_nat (wires cs) < 4294967296)%N ->
  moves p2 ps2 -> ~ In p2 ps2 -> ~ In evals_path ps2 -> length ps2 = length vs2 -> vs2 <> [] ->
  (Z.of_nat (length vs2) < 9223372036854775808)%Z -> aligned cs k (length vs2) -> (forall v, In v vs2 -> v_d v <> 0) ->
  PZ <> pk_path -> PZ <> vk_path ->
  exists hs1 hs2 f' q w, length hs1 = length vs1 /\ length hs2 = length vs2 /\
    session no_limit bs
      (mkLine v0 "p1n" [s; p0] :: chain "p1c" vs1 p0 ps1 ++ mkLine v1 "p1v" [P1] ::
       mkLine vn "p2n" [P1; r1; p2] :: chain "p2c" vs2 p2 ps2 ++ [mkLine vv "p2v" [PZ; p2]; mkLine vk "key" [PZ]]) f =
      (Ok [] :: map (fun h => Ok [h]) hs1 ++ Ok hs1 :: Ok [] :: map (fun h => Ok [h]) hs2 ++ [Ok hs2; Ok []], f') /\
    f' pk_path = Some (pk_bytes k (N.of_nat (wires cs)) q) /\
    f' vk_path = Some (vk_bytes (ped (e := E) (v_g vk) (v_sg vk) []) (empty_info (E := E)) w) /\
    forall x, (satisfies cs x <-> exists h, quotient cs x (2 ^ k) (root k) h) /\
      forall h r s ar bs krs, quotient cs x (2 ^ k) (root k) h -> proves q cs k x h r s ar bs krs -> accepts w cs x ar bs krs.
Proof.
  intros P1 PZ MS B P Nu NE M1 L1 NV1 LE1 HR PR NR NO CO LC KD KM NC HW M2 I2 IE L2 NV2 LE2 AL NZ NP NK.
  destruct (whole_session bs v0 v1 vn vv vk vs1 vs2 s p p0 ps1 r1 p2 ps2 cs rb k f MS B P Nu NE M1 L1 NV1 LE1 HR PR NR NO CO LC KD KM NC HW M2 I2 IE
    L2 NV2 LE2 AL NZ NP NK) as [hs1 [hs2 [f' [q [w [A1 [A2 [A3 [A4 [A5 [A6 _]]]]]]]]]]].
  exists hs1, hs2, f', q, w. do 5 (split; [assumption|]). intros x.
  refine (c47_spec k cs _ _ _ _ q w x (conj (proj1 KD) KM) (proj1 (proj2 KD)) _ A6).
  clear - NZ. induction vs2 as [|v vs IH].
  - apply (F_1_neq_0 (f_th E)).
  - cbn [map]. change (prodl (v_d v :: map v_d vs)) with (v_d v * prodl (map v_d vs)). intros H. apply fmul_0_iff in H as [H|H].
    + exact (NZ v (or_introl eq_refl) H).
    + apply IH; [|exact H]. intros x I. apply NZ. now right.
Qed.
End Phase2Session.
