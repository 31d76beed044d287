(* CutKeys.v -- what a cut origin does to the keys. *)
From Coq Require Import Ring Field String.
From Verif Require Import Base Fld IO Ext Spec1 Phase1 Phase1Io Phase1Verify Phase1Facts Gob GobLemmas Circuit Spec2 Phase2 Phase2Lemmas Phase2Claims Phase2More Fs Spec3 Init2 Init2Pure Init2Io Init2Claims Init2More Spec4 Keys KeysClaims Groth KeysProps Spec27 Spec30 Spec31 V2Iff CutOrigin Spec34.
Local Open Scope fld_scope.

Section K.
Context {E : Ext2}.
Add Field EF : (f_th E).
Lemma tilt_len (d : list E) q : length d = length (p_K q) -> length (p_K (tilt d q)) = length (p_K q).
Proof. intros H. unfold tilt. cbn [p_K]. rewrite map_length, combine_length. lia. Qed.
Lemma tilt_nth : forall (K d : list E) i, length d = length K -> nth i (map (fun a => fst a + snd a) (combine K d)) 0 = nth i K 0 + nth i d 0.
Proof.
  induction K as [|x K IH]; intros [|y d] i H; try discriminate.
  - cbn. destruct i; ring.
  - destruct i; cbn [combine map nth fst snd]; [reflexivity|]. apply IH. cbn in H. lia.
Qed.
Lemma tilt_par (d : list E) q h : length d = length (p_K q) -> sized2 h q -> sized2 h (tilt d q).
Proof. intros H [S1 S2]. split; [exact S1|]. rewrite tilt_len by exact H. exact S2. Qed.
Lemma tilt_unsplit (d : list E) q h n : length d = length (p_K q) -> unsplit h q n -> unsplit h (tilt d q) n.
Proof.
  intros L U i Hi. specialize (U i Hi). unfold hash_off, head2 in *. rewrite app_length, par2_bytes_length in *.
  rewrite tilt_len by exact L. exact U.
Qed.
Lemma honest_hashed ws (q : par2 E) : hashed2 (snd (honest2 q [] ws)).
Proof. apply honest2_hashed. intros x []. Qed.

(* proofs with the other PKK *)
Lemma tilted_proofs (cs : r1cs E) k q0 v x h r s ar bs krs d : length d = length (p_K q0) -> (length (p_K q0) = wires cs - nb_public cs)%nat ->
  proves (pk_of (tilt d q0) v) cs k x h r s ar bs krs ->
  proves (pk_of q0 v) cs k x h r s ar bs (krs - sumn (wires cs - nb_public cs) (fun i => x (nb_public cs + i)%nat * nth i d 0)).
Proof.
  intros L LW [hz [H1 [H2 [H3 H4]]]]. exists hz. split; [exact H1|]. split; [exact H2|]. split; [exact H3|]. cbv zeta in *.
  rewrite H4. cbn [pk_of tilt q_K q_beta q_B q_delta p_K p_d1].
  replace (sumn (wires cs - nb_public cs) (fun i => x (nb_public cs + i)%nat * nth i (map (fun a => fst a + snd a) (combine (p_K q0) d)) 0))
    with (sumn (wires cs - nb_public cs) (fun i => x (nb_public cs + i)%nat * nth i (p_K q0) 0) + sumn (wires cs - nb_public cs) (fun i => x (nb_public cs + i)%nat * nth i d 0)).
  - ring.
  - rewrite <- sumn_add. apply sumn_ext. intros i _. rewrite tilt_nth by exact L. ring.
Qed.

Lemma miss (a k y d : E) : d <> 0 -> (a + (k - y) * d = a + k * d <-> y = 0).
Proof.
  intros D. split; intros Q; [|rewrite Q; ring].
  assert (Z : y * d = 0) by (rewrite (ltac:(ring) : y * d = (a + k * d) - (a + (k - y) * d)), Q; ring).
  transitivity (y * d * finv d); [field; exact D|]. rewrite Z. ring.
Qed.
Lemma cut_keys p T A B (cs : r1cs E) f p1 r1 p2 bs (ws : list (E * E)) :
  init_input p (srs_of p T A B) cs f p1 r1 p2 -> no_cmt cs -> (N.of_nat (wires cs) < 4294967296)%N -> nb_public cs < wires cs ->
  1 <= bs -> (Z.of_nat (length ws) < 9223372036854775808)%Z -> ws <> [] -> (forall w, In w ws -> fst w <> 0) ->
  exists fa k h (q0 : par2 E) fo b, p2n (E := E) p1 r1 p2 f = (Ok tt, fa) /\ fa p2 = Some (fo ++ [b]) /\ fo ++ [b] = file2 h q0 [] /\
    ((forall j, (1 <= j <= length ws)%nat -> unsplit (set_contribs h (Z.of_nat j)) q0 j) ->
     exists h' (q1 : par2 E) l hs, ceremony2 (E := E) bs (fo ++ [b]) ws = Ok (file2 h' q1 l, hs) /\ (length (p_K q1) = wires cs - nb_public cs)%nat /\
     forall d, length d = length (p_K q1) -> let F := file2 h' (tilt d q1) l in
     (forall bs' (rho : nat -> nat -> nat -> E), 1 <= bs' -> exec (verify2 bs' rho) F fo = (Ok hs, [])) /\
     forall g sg pz, pz <> pk_path -> pz <> vk_path -> pz <> evals_path ->
     exists fb (q : pkey E) (v : vkey E), extract_keys wrap64 g sg pz (fset fa pz F) = (Ok tt, fb) /\
       fb pk_path = Some (pk_bytes k (N.of_nat (wires cs)) q) /\
       fb vk_path = Some (vk_bytes (ped (e := E) g sg []) (empty_info (E := E)) v) /\
       forall x hq r s ar br krs, quotient cs x (2 ^ k) (root k) hq -> proves q cs k x hq r s ar br krs ->
         (accepts v cs x ar br krs <-> sumn (wires cs - nb_public cs) (fun i => x (nb_public cs + i)%nat * nth i d 0) = 0)).
Proof.
  intros HI Hnc HW HP HB HL WN WZ.
  destruct (after_ceremony p T A B cs f p1 r1 p2 bs ws HI Hnc HW HB HL) as
    [fa [k [t [z [h [q0 [v [H1 [H2 [H3 [H4 [H5 [H6 [H7 [H8 [H9 [H10 [H11 [H12 [H13 [H14 H15]]]]]]]]]]]]]]]]]]]]].
  assert (NE : file2 h q0 [] <> []).
  { intros Q. apply (f_equal (@length _)) in Q. unfold file2, head2, par2_bytes in Q. rewrite !app_length, g1c_len in Q. cbn [length] in Q. lia. }
  destruct (exists_last NE) as [fo [b FO]].
  exists fa, k, h, q0, fo, b. split; [exact H1|]. split; [now rewrite <- FO|]. split; [now symmetry|]. intros U. rewrite <- FO.
  destruct (H15 U) as [F0 [hs0 [l0 [_ [_ PH]]]]]. destruct PH as [HO' [SZ' _]].
  pose proof (hdr_ok_set _ 0%Z HO' ltac:(unfold int64, two63; lia)) as HO.
  assert (HC : h_contribs h = 0%Z) by now rewrite H9.
  assert (H0 : set_contribs (set_contribs h (Z.of_nat (length ws))) 0 = h) by (rewrite H9; reflexivity). rewrite H0 in HO.
  assert (SZ : sized2 h q0). { unfold sized2 in *. unfold upd_par2 in SZ'. cbn [p_Z p_K set_contribs h_domain h_witness] in SZ'. rewrite !map_length in SZ'. exact SZ'. }
  assert (I0 : is_file2 (file2 h q0 []) h q0 []).
  { rewrite <- (app_nil_r (file2 h q0 [])). apply file2_is; [exact SZ|exact HC|intros c []|]. intros i Hi. cbn in Hi. lia. }
  destruct (ceremony2_result bs _ h q0 ws HB HO HC I0 HL WN U) as [R1 [R2 R3]].
  set (h' := set_contribs h (Z.of_nat (length ws))) in *. rewrite honest2_par in R1, R2. set (D := prodf ws) in *. set (l := snd (honest2 q0 [] ws)) in *.
  destruct (honest2_chain (p_d1 q0) ws q0 [] eq_refl eq_refl) as [CH LA]. cbv zeta in CH, LA. rewrite honest2_par in LA. fold D l in CH, LA.
  assert (Ll : length l = length ws) by apply (honest2_len ws q0 []).
  assert (LN : l <> []) by (intros Q; rewrite Q in Ll; destruct ws; [contradiction|discriminate]).
  assert (D0 : D <> 0) by (apply prodf_nz; exact WZ).
  assert (LK : length (p_K (upd_par2 D q0)) = (wires cs - nb_public cs)%nat).
  { cbn [upd_par2 p_K]. rewrite map_length, H10. cbn [p_K]. rewrite map_length, seq_length. unfold wires. lia. }
  exists h', (upd_par2 D q0), l, (map d_hash l). split; [exact R1|]. split; [exact LK|]. intros d Ld F.
  assert (P1 : p_d1 q0 = 1 /\ p_d2 q0 = 1) by (rewrite H10; split; reflexivity). destruct P1 as [P1 P2].
  assert (UN : unsplit h' (upd_par2 D q0) (length l)).
  { rewrite Ll. apply unsplit_upd. apply U. destruct ws; [contradiction|cbn; lia]. }
  split.
  - intros bs' rho B'. eapply (cut_last bs' rho h' 0 (tilt d (upd_par2 D q0)) q0 F l fo b); auto.
    + unfold int64, two63. lia.
    + unfold F. rewrite <- (app_nil_r (file2 h' _ l)). apply file2_is; [apply tilt_par; assumption|unfold h'; cbn [set_contribs h_contribs]; now rewrite Ll|apply honest_hashed|now apply tilt_unsplit].
    + intros Q. apply (f_equal (@length _)) in Q. rewrite tilt_len in Q by exact Ld. rewrite LK in Q. cbn in Q. lia.
    + cbn [tilt p_d1 p_d2 upd_par2]. rewrite P1, P2. ring.
    + now apply linked2_iff.
    + change (p_d1 (tilt d (upd_par2 D q0))) with (p_d1 (upd_par2 D q0)). rewrite <- LA.
      destruct (exists_last LN) as [l1 [c ->]]. rewrite map_app. cbn [map]. now rewrite !last_last.
    + intros i Hi. cbn [tilt p_Z p_d2 upd_par2]. rewrite P2. cbn [tilt p_Z upd_par2] in Hi. rewrite map_length in Hi.
      rewrite (nth_indep _ 0 (0 / D)) by now rewrite map_length. rewrite (map_nth (fun x => x / D)). field. exact D0.
    + rewrite <- FO. f_equal. exact H0.
  - intros g sg pz N1 N2 N3.
    assert (PH : ph2 F h' (tilt d (upd_par2 D q0))) by (apply file2_ph2; [exact R3|apply tilt_par; assumption]).
    destruct (read_pk_ok F _ _ v PH H13) as [s1 S1].
    assert (HWZ : h_wires h' = Z.of_nat (wires cs)) by (unfold h'; rewrite H9; reflexivity).
    destruct (read_vk_ok wrap64 F _ _ v (wires cs) PH H13 H14 HWZ) as [s2 S2]; [apply pos64; lia|].
    destruct (extract_keys_run wrap64 g sg pz (fset fa pz F) F (evals_bytes v) _ _ k _ s1 s2 N1 N2 (fset_same _ _ _)
      (eq_trans (fset_other _ _ _ _ N3) H4) S1 H12 S2) as [fb [B1 [B2 [B3 B4]]]].
    eexists fb, _, _. split; [exact B1|]. split; [rewrite B2, HWZ, u64_nat by lia; reflexivity|]. split.
    { rewrite B3. unfold vk_of. cbn [w_ck]. rewrite H11. cbn [v_ckk]. reflexivity. }
    intros x hq r s ar br krs HQ PR.
    apply (tilted_proofs cs k (upd_par2 D q0) v) in PR; [|exact Ld|exact LK].
    assert (KP : is_keypair cs k (root k) A B D T (pk_of (upd_par2 D q0) v) (vk_of (upd_par2 D q0) v)) by (rewrite H10, H11; now apply keypair_of).
    destruct (c47_spec k cs A B D T _ _ x H6 (proj1 (proj2 H5)) D0 KP) as [_ Q2].
    pose proof (Q2 hq r s ar br _ HQ PR) as AC. unfold accepts in *.
    change (w_alpha (vk_of (tilt d (upd_par2 D q0)) v)) with (w_alpha (vk_of (upd_par2 D q0) v)).
    change (w_beta2 (vk_of (tilt d (upd_par2 D q0)) v)) with (w_beta2 (vk_of (upd_par2 D q0) v)).
    change (w_K (vk_of (tilt d (upd_par2 D q0)) v)) with (w_K (vk_of (upd_par2 D q0) v)).
    change (w_delta2 (vk_of (tilt d (upd_par2 D q0)) v)) with (w_delta2 (vk_of (upd_par2 D q0) v)).
    assert (WD : w_delta2 (vk_of (upd_par2 D q0) v) = D) by (cbn [vk_of w_delta2 upd_par2 p_d2]; rewrite P2; ring). rewrite WD in *.
    set (Y := sumn (wires cs - nb_public cs) _) in *. rewrite AC.
    assert (WD' : krs * p_d2 (tilt d (upd_par2 D q0)) = krs * D) by (f_equal; exact WD).
    assert (G := miss (w_alpha (vk_of (upd_par2 D q0) v) * w_beta2 (vk_of (upd_par2 D q0) v)
      + sumn (nb_public cs) (fun i => x i * nth i (w_K (vk_of (upd_par2 D q0) v)) 0) * 1) krs Y D D0).
    rewrite <- G, <- WD'. split; intros Q; exact Q.
Qed.
End K.
