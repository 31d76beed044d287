(* Any.v -- sessions that go on from a phase-1 file with replaced parameters of any kind. *)
From Coq Require Import Ring Field String.
From Verif Require Import Base Fld Conc Parallel Poly BitRev IO Ext Spec1 Phase1 Gob GobLemmas Circuit Spec2 Phase2 Fs Init2 Init2Pure Init2Io Init2Claims Init2More Spec3 Spec4 Keys Phase1Io Phase1Verify
  Phase1Facts Phase1Inv Phase1Claims Phase2Io Phase2Lemmas Phase2More Phase2Claims KeysLemmas KeysClaims KeysProps Live LiveLemmas LiveCmd LiveClaims Spec5 LiveProps OnlyA Spec6 Cli CliClaims Session
  SessionClaims Spec8 Spec9 Forge Sessions2 Spec17.
Local Open Scope fld_scope.
Local Open Scope lcmd_scope.

Section Any.
Context {E : Ext2}.
Add Field Eany : (f_th E).

Lemma after_any p (S0 : srs E) (cs : r1cs E) f p1 r1 p2 bs ws k :
  init_input p S0 cs f p1 r1 p2 -> no_cmt cs -> (N.of_nat (wires cs) < 4294967296)%N -> is_dom (length (r_cons cs)) k ->
  1 <= bs -> (Z.of_nat (length ws) < 9223372036854775808)%Z ->
  exists fa (q0 : par2 E) (v : evals E), let D := prodf ws in let h := hdr_of cs k in
    p2n (E := E) p1 r1 p2 f = (Ok tt, fa) /\ only3 p2 f fa /\ fa p2 = Some (file2 h q0 []) /\ fa evals_path = Some (evals_bytes v) /\
    1 <= k <= kmax E /\ k <= 27 /\ hdr_ok h /\ sized2 h q0 /\ length (p_Z q0) = (2 ^ k - 1)%nat /\ length (p_K q0) = (nb_secret cs + nb_internal cs)%nat /\
    keys_from cs k (root k) S0 D (pk_of (upd_par2 D q0) v) (vk_of (upd_par2 D q0) v) /\ v_ckk v = [] /\
    new_domain (E := E) (h_domain h) = Some k /\ smalls v /\ same_wires (wires cs) v /\
    ((forall j, (1 <= j <= length ws)%nat -> unsplit (set_contribs h (Z.of_nat j)) q0 j) ->
     exists F hs l, ceremony2 (E := E) bs (file2 h q0 []) ws = Ok (F, hs) /\ F = file2 (set_contribs h (Z.of_nat (length ws))) (upd_par2 D q0) l /\
       ph2 F (set_contribs h (Z.of_nat (length ws))) (upd_par2 D q0)).
Proof.
  intros HI Hnc HW KD HB HL.
  destruct (p2n_ok _ _ _ _ _ _ _ HI Hnc) as [fa [k1 [t [a [b [t2 [z [H1 [H2 [H3 [H4 [Bt [Ba [Bb [Bt2 [Hz [H7 [H8 H9]]]]]]]]]]]]]]]]]].
  assert (k1 = k) by (destruct H3 as [A1 [A2 A3]], KD as [B1 [B2 B3]]; specialize (A3 k B1 B2); specialize (B3 k1 A1 A2); lia). subst k1.
  destruct (init_dom _ _ _ _ _ _ _ HI) as [k' [KD' [K27 [KM [_ _]]]]].
  assert (k = k') by (destruct H3 as [A1 [A2 A3]], KD' as [B1 [B2 B3]]; specialize (A3 k' B1 B2); specialize (B3 k A1 A2); lia).
  subst k'. pose proof HI as [_ [_ [_ [_ [_ [_ [_ [L27 _]]]]]]]].
  pose proof (hdr_of_ok cs k HW L27 K27) as HO.
  set (q0 := mkPar2 1 1 z (skipn (nb_public cs) (Lsum cs t a b))) in *.
  assert (SKP : skipn (nb_public cs) (Lsum cs t a b) = map (Lat cs t a b) (seq (nb_public cs) (nb_secret cs + nb_internal cs))).
  { unfold Lsum. rewrite skipn_map. f_equal. unfold wires. rewrite <- Nat.add_assoc, seq_app, skipn_app, skipn_all2, seq_length, Nat.sub_diag by (rewrite seq_length; lia). reflexivity. }
  assert (LK : length (p_K q0) = (nb_secret cs + nb_internal cs)%nat) by (unfold q0; cbn [p_K]; now rewrite SKP, map_length, seq_length).
  assert (SZ : sized2 (hdr_of cs k) q0).
  { split; unfold hdr_of; cbn [h_domain h_witness].
    - unfold q0. cbn [p_Z]. rewrite (proj1 Hz). pose proof (pow2_pos k). lia.
    - now rewrite LK. }
  eexists fa, q0, _. cbv zeta.
  split; [exact H1|]. split; [exact H2|]. split; [exact H9|]. split; [exact H8|].
  split; [split; [apply H3|exact KM]|]. split; [exact K27|]. split; [exact HO|]. split; [exact SZ|]. split; [exact (proj1 Hz)|]. split; [exact LK|]. split.
  { exists t, a, b, t2, z. repeat (split; [assumption|]). unfold pk_of, vk_of, upd_par2, q0. rewrite SKP.
    cbn [p_d1 p_d2 p_Z p_K v_alpha v_beta1 v_beta2 v_A v_B v_B2 v_vkk v_ckk]. assert (D1 : prodf ws * 1 = prodf ws) by ring. rewrite D1.
    split.
    - f_equal. rewrite map_map. f_equal. unfold wires. f_equal. lia.
    - f_equal. unfold Lsum. rewrite firstn_map_seq; [reflexivity|unfold wires; lia]. }
  split; [reflexivity|]. split; [now apply new_domain_pow|].
  split.
  { unfold smalls, cols. cbn [v_A v_B v_B2 v_vkk v_ckk]. unfold Lsum. rewrite !firstn_length, !map_length, !seq_length. cbn [length]. lia. }
  split.
  { unfold same_wires, cols. cbn [v_A v_B v_B2]. now rewrite !map_length, !seq_length. }
  intros U. destruct ws as [|w0 ws].
  - exists (file2 (hdr_of cs k) q0 []), [], []. split; [reflexivity|].
    assert (X : set_contribs (hdr_of cs k) (Z.of_nat (length (@nil (E * E)))) = hdr_of cs k) by reflexivity.
    change (prodf (@nil (E * E))) with (1 : E). rewrite X, upd1. split; [reflexivity|]. now apply file2_ph2.
  - assert (F0 : is_file2 (file2 (hdr_of cs k) q0 []) (hdr_of cs k) q0 []).
    { rewrite <- (app_nil_r (file2 _ _ _)). apply file2_is; [exact SZ|reflexivity|intros c []|]. intros i Hi. cbn in Hi. lia. }
    destruct (ceremony2_result bs _ (hdr_of cs k) q0 (w0 :: ws) HB HO eq_refl F0 HL ltac:(discriminate) U) as [R1 [R2 R3]].
    rewrite honest2_par in R1. eexists _, _, _. split; [exact R1|]. split; [reflexivity|].
    apply file2_ph2; [exact R3|]. now apply sized2_upd.
Qed.

Variable bs : nat.
Lemma any_lines (vn : inv E) vs2 p (S0 : srs E) P1 r1 p2 ps2 (cs : r1cs E) k f1 :
  let PZ := last ps2 p2 in
  2 <= bs -> init_input p S0 cs f1 P1 r1 p2 -> is_dom (length (r_cons cs)) k -> no_cmt cs ->
  (N.of_nat (wires cs) < 4294967296)%N ->
  moves p2 ps2 -> ~ In p2 ps2 -> ~ In evals_path ps2 -> length ps2 = length vs2 -> vs2 <> [] ->
  (Z.of_nat (length vs2) < 9223372036854775808)%Z -> aligned cs k (length vs2) -> (forall v, In v vs2 -> v_d v <> 0) ->
  PZ <> pk_path -> PZ <> vk_path -> forall vv vk : inv E,
  exists hs2 f3 f4 q w, length hs2 = length vs2 /\
    session no_limit bs (mkLine vn "p2n" [P1; r1; p2] :: chain "p2c" vs2 p2 ps2) f1 = (Ok [] :: map (fun h => Ok [h]) hs2, f3) /\
    does bs (mkLine vv "p2v" [PZ; p2]) f3 (Ok hs2) f3 /\ does bs (mkLine vk "key" [PZ]) f3 (Ok []) f4 /\
    f4 pk_path = Some (pk_bytes k (N.of_nat (wires cs)) q) /\
    f4 vk_path = Some (vk_bytes (ped (e := E) (v_g vk) (v_sg vk) []) (empty_info (E := E)) w) /\
    keys_from cs k (root k) S0 (prodl (map v_d vs2)) q w.
Proof.
  intros PZ B II KD NC HW M2 I2 IE L2 NV2 LE2 AL NZ NP NK vv vk.
  set (ws := map (fun v : inv E => (v_d v, v_s v)) vs2).
  assert (LW : length ws = length vs2) by (unfold ws; now rewrite map_length).
  destruct (after_any p S0 cs f1 P1 r1 p2 bs ws k II NC HW KD ltac:(lia) ltac:(rewrite LW; exact LE2)) as
    [fa [q0 [v [N1 [N2 [N3 [N4 [N6 [K27 [HO [SZ [LZ [LK [KF [CK [N12 [N13 [N14 N15]]]]]]]]]]]]]]]]]].
  set (h := hdr_of cs k) in *.
  assert (U : forall j, (1 <= j <= length ws)%nat -> unsplit (set_contribs h (Z.of_nat j)) q0 j).
  { rewrite LW. now apply aligned_unsplit. }
  destruct (N15 U) as [F [hs2 [l [C2 [C3 C4]]]]].
  pose proof II as [NO _]. pose proof NO as [NO1 [NO2 [NO3 [NO4 [NO5 [NO6 [NO7 NO8]]]]]]].
  destruct (c55_n (E := E) P1 r1 p2 f1 NO1 NO3 NO4 NO7 NO8) as [R2 Q2]. rewrite N1 in R2, Q2. cbn [fst snd] in R2, Q2.
  pose proof (quiet_does bs vn "p2n" [P1; r1; p2] (l_p2n (E := E) no_limit P1 r1 p2) f1 tt eq_refl R2) as D2.
  set (f2 := after (l_p2n (E := E) no_limit P1 r1 p2) f1) in *.
  destruct (fold2_steps bs vs2 _ _ _ _ C2) as [hs2' [EQ S2]]. cbn [app] in EQ. subst hs2'.
  destruct (chain_session bs "p2c" (fun v => contribute2 bs (v_d v) (v_s v)) (p2c_does bs) vs2 ps2 p2 f2 _ _ _ L2 M2 (eq_trans (Q2 p2) N3) S2)
    as [f3 [S3 [H3 O3]]]. fold PZ in H3.
  assert (LH : length hs2 = length vs2).
  { clear - S2. revert S2. generalize (file2 h q0 []). revert hs2. induction vs2 as [|v0 vs IH]; intros hs F0 S; inversion S; subst; [reflexivity|].
    cbn [length]. f_equal. eapply IH. eassumption. }
  assert (H3c : f3 evals_path = Some (evals_bytes v)) by (rewrite O3 by exact IE; now rewrite Q2).
  destruct (read_pk_ok F _ _ v C4 N13) as [s1 R1].
  assert (HWZ : h_wires (set_contribs h (Z.of_nat (length ws))) = Z.of_nat (wires cs)) by reflexivity.
  destruct (read_vk_ok wrap64 F _ _ v (wires cs) C4 N13 N14 HWZ) as [s2 R2v]; [apply pos64; lia|].
  destruct (extract_keys_run wrap64 (v_g vk) (v_sg vk) PZ f3 F _ _ _ k _ s1 s2 NP NK H3 H3c R1 N12 R2v) as [fb [B1 [B2 [B3 B4]]]].
  destruct (c55_k wrap64 (v_g vk) (v_sg vk) PZ f3 NP NK) as [R4 Q4]. rewrite B1 in R4, Q4. cbn [fst snd] in R4, Q4.
  pose proof (quiet_does bs vk "key" [PZ] (l_keys no_limit wrap64 (v_g vk) (v_sg vk) PZ) f3 tt eq_refl R4) as D4.
  eexists hs2, f3, _, _, _. split; [exact LH|]. split; [eapply session_cons; [exact D2|exact S3]|]. split.
  - assert (F0 : is_file2 (file2 h q0 []) h q0 []).
    { rewrite <- (app_nil_r (file2 _ _ _)). apply file2_is; [exact SZ|reflexivity|intros c []|]. intros i Hi. cbn in Hi. lia. }
    destruct (c37 bs (file2 h q0 []) h q0 ws ltac:(lia) HO ltac:(reflexivity) F0 ltac:(rewrite LW; exact LE2)
      ltac:(unfold ws; destruct vs2; [congruence|discriminate]) U) as [F' [hs' [C2' [LH2 [_ V2]]]]].
    { intros w I. unfold ws in I. apply in_map_iff in I as [x [<- I]]. exact (NZ x I). }
    assert (F' = F /\ hs' = hs2) as [-> ->] by (rewrite C2 in C2'; injection C2'; auto).
    assert (H3b : f3 p2 = Some (file2 h q0 [])) by (rewrite O3 by exact I2; now rewrite Q2).
    pose proof (check_does bs vv "p2v" [PZ; p2] f3 ltac:(right; right; now left)) as D3.
    rewrite (p2v_result no_limit bs vv PZ p2 f3 F _ H3 H3b) in D3. rewrite (V2 bs (v_rho vv) ltac:(lia)) in D3. exact D3.
  - split; [exact D4|]. split; [rewrite Q4, B2, HWZ, u64_nat by lia; reflexivity|]. split.
    + rewrite Q4, B3. unfold vk_of at 1. cbn [w_ck]. rewrite CK. reflexivity.
    + replace (prodl (map v_d vs2)) with (prodf ws) by (unfold prodf, ws; now rewrite map_map). exact KF.
Qed.

(* the same records, other parameters *)
Lemma any_session (v0 v1 vn vv vk : inv E) vs1 vs2 s p p0 ps1 r1 p2 ps2 (cs : r1cs E) rb k f :
  let P1 := last ps1 p0 in let PZ := last ps2 p2 in
  mexp_strict E -> 2 <= bs -> 1 <= p <= 26 -> numeral s (Z.of_nat p) ->
  p0 <> EmptyString -> moves p0 ps1 -> length ps1 = length vs1 -> vs1 <> [] -> length vs1 <= N.to_nat 65535 ->
  f r1 = Some rb -> parse_r1cs rb = Some cs -> ~ In r1 (p0 :: ps1) -> names_ok P1 r1 p2 ->
  circuit_ok cs -> length (r_cons cs) <= 2 ^ p -> is_dom (length (r_cons cs)) k -> k <= kmax E -> no_cmt cs ->
  (N.of_nat (wires cs) < 4294967296)%N ->
  moves p2 ps2 -> ~ In p2 ps2 -> ~ In evals_path ps2 -> length ps2 = length vs2 -> vs2 <> [] ->
  (Z.of_nat (length vs2) < 9223372036854775808)%Z -> aligned cs k (length vs2) -> (forall v, In v vs2 -> v_d v <> 0) ->
  PZ <> pk_path -> PZ <> vk_path ->
  exists hs1 f1 S l, length hs1 = length vs1 /\
    session no_limit bs (mkLine v0 "p1n" [s; p0] :: chain "p1c" vs1 p0 ps1) f = (Ok [] :: map (fun h => Ok [h]) hs1, f1) /\
    f1 P1 = Some (file1 p S l) /\
    S = srs_of p (prodl (map (fun v => r_tau (v_w v)) vs1)) (prodl (map (fun v => r_alpha (v_w v)) vs1)) (prodl (map (fun v => r_beta (v_w v)) vs1)) /\
    forall S', sized p S' -> beta2 S' = beta2 S -> exists hs2 f' q w, length hs2 = length vs2 /\
      session no_limit bs
        (mkLine v1 "p1v" [P1] :: mkLine vn "p2n" [P1; r1; p2] :: chain "p2c" vs2 p2 ps2 ++ [mkLine vv "p2v" [PZ; p2]; mkLine vk "key" [PZ]])
        (fset f1 P1 (file1 p S' l)) =
        (Ok hs1 :: Ok [] :: map (fun h => Ok [h]) hs2 ++ [Ok hs2; Ok []], f') /\
      f' pk_path = Some (pk_bytes k (N.of_nat (wires cs)) q) /\
      f' vk_path = Some (vk_bytes (ped (e := E) (v_g vk) (v_sg vk) []) (empty_info (E := E)) w) /\
      keys_from cs k (root k) S' (prodl (map v_d vs2)) q w.
Proof.
  intros P1 PZ MS B P Nu NE M1 L1 NV1 LE1 HR PR NR NO CO LC KD KM NC HW M2 I2 IE L2 NV2 LE2 AL NZ NP NK.
  destruct (phase1_lines bs v0 vs1 s p p0 ps1 f B P Nu NE M1 L1 LE1) as [F1 [hs1 [f1 [C1 [S1 [H1 O1]]]]]]. fold P1 in H1.
  destruct (ceremony_result bs p (map v_w vs1) B ltac:(lia) ltac:(rewrite map_length; lia)) as [l [C [CL G]]].
  rewrite C1 in C. injection C as EF EH. rewrite map_length in CL. rewrite !map_map in EF, G.
  set (T := prodl (map (fun v => r_tau (v_w v)) vs1)) in *. set (A := prodl (map (fun v => r_alpha (v_w v)) vs1)) in *.
  set (Bt := prodl (map (fun v => r_beta (v_w v)) vs1)) in *.
  exists hs1, f1, (srs_of p T A Bt), l. split; [rewrite EH, map_length; exact CL|]. split; [exact S1|]. split; [now rewrite H1, EF|].
  split; [reflexivity|]. intros S' SZ' B2'.
  set (F' := file1 p S' l). set (fx := fset f1 P1 F').
  assert (HX : fx P1 = Some F') by apply fset_same.
  assert (NR1 : r1 <> P1) by (intros ->; apply NR, last_in).
  assert (II : init_input p S' cs fx P1 r1 p2).
  { split; [exact NO|]. split; [lia|]. split; [exact SZ'|]. split.
    + eexists _, _, (recs_bytes l). rewrite HX. unfold F', file1, hdr1, be16, phase1_file. reflexivity.
    + split; [exists rb; split; [|exact PR]|].
      { unfold fx. rewrite fset_other by (now apply not_eq_sym). now rewrite O1. }
      split; [exact CO|]. split; [exact LC|]. destruct KD as [K1 [K2 K3]]. split; [|split; [lia|]].
      * assert (length (r_cons cs) <= 2 ^ 26)%nat by (eapply Nat.le_trans; [exact LC|]; apply Nat.pow_le_mono_r; lia).
        transitivity (Z.of_nat (2 ^ 26)); [lia|]. rewrite Nat2Z.inj_pow. apply Z.pow_le_mono_r; lia.
      * eapply Nat.le_trans; [exact K2|]. apply Nat.pow_le_mono_r; lia. }
  assert (V : does bs (mkLine v1 "p1v" [P1]) fx (Ok hs1) fx).
  { pose proof (check_does bs v1 "p1v" [P1] fx ltac:(now left)) as Q. rewrite (p1v_result no_limit bs v1 P1 fx F' HX) in Q.
    pose proof G as [SZ [_ [H32 _]]].
    rewrite (verify_file bs (v_rho v1) None F' F' p S' l origin_gen) in Q; auto using origin_src_none; try lia.
    - cbn [fst] in Q. rewrite B2' in Q.
      rewrite (good_outcome bs p origin_gen (srs_of p T A Bt) l) in Q; [now rewrite EH| |exact G]. intros ->. destruct vs1; [congruence|discriminate].
    - apply file1_is0; auto. }
  destruct (any_lines vn vs2 p S' P1 r1 p2 ps2 cs k fx B II KD NC HW M2 I2 IE L2 NV2 LE2 AL NZ NP NK vv vk) as [hs2 [f3 [f4 [q [w [LH2 [S2 [V2 [D [W1 [W2 KF]]]]]]]]]]].
  exists hs2, f4, q, w. split; [exact LH2|]. split.
  - eapply session_cons; [exact V|]. rewrite (app_comm_cons (chain _ _ _ _)), (app_comm_cons (map _ hs2)).
    eapply session_app; [exact S2|]. eapply session_cons; [exact V2|]. eapply session_cons; [exact D|reflexivity].
  - split; [exact W1|]. split; [exact W2|exact KF].
Qed.
End Any.
