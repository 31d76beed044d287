(* VkRight.v -- the verifying key does not depend on the points of the origin. *)
From Coq Require Import Ring Field String.
From Verif Require Import Base Fld Conc Parallel Poly BitRev IO Ext Spec1 Phase1 Phase1Io Phase1Verify Phase1Trans Phase1Facts Phase1Inv Phase1Claims Gob GobLemmas Circuit Spec2 Phase2 Phase2Io Phase2Lemmas Phase2Claims Phase2More Phase2Bad Spec3 Fs Init2 Init2More Spec4 Keys KeysLemmas KeysClaims KeysProps Sound2 Generic Spec18 Spec25 Spec26 Origin2 Attest Binds Safe2 Safe Spec27 Torn Spec29 Shown Spec30 Spec31 V2Iff Spec35.
Local Open Scope fld_scope.

Section V.
Context {E : Ext2}.
Add Field EF : (f_th E).
Ltac rd L := rewrite <- ?app_assoc; eapply evb; [eapply L; [first [apply defBuf_big|apply defBuf_gob]| |cbn [getr setr fst snd]; reflexivity]; eassumption|];
  cbn [getr setr fst snd]; cbn beta.

Lemma prefix_of F h (t : bytes) : hdr_ok h -> fst (exec (prefix2 (E := E) true) F (gob_hdr h ++ g1c (1 : E) ++ g2c (1 : E) ++ t)) = Ok (h, 1, 1).
Proof.
  intros HO. set (G := gob_hdr h ++ _).
  assert (RA : forall s, getr true s = at_ G defBuf 0 G ->
    ev (read_hdr2 (E := E) true) s (Ok h) (setr true (at_ G defBuf (0 + length (gob_hdr h)) (g1c (1 : E) ++ g2c (1 : E) ++ t)) s) none).
  { intros s Q. eapply ev_read_hdr; [apply defBuf_gob|exact HO|exact Q]. }
  assert (EV : exists st, ev (prefix2 (E := E) true) (opened F, opened G) (Ok (h, 1, 1)) st none).
  { unfold prefix2. eexists. eapply ev_newrd0; [reflexivity|]. eapply evb.
    { apply RA. apply getr_setr. }
    pose proof (is1_c (1 : E)) as I1. pose proof (is2_c (1 : E)) as I2.
    rd @ev_decode1. rd @ev_decode2. apply ev_ret. }
  destruct EV as [st EV]. apply ev_exec in EV. now rewrite EV.
Qed.
Lemma vk_right p T A Bt (cs : r1cs E) f p1 r1 p2 k :
  init_input p (srs_of p T A Bt) cs f p1 r1 p2 -> no_cmt cs -> (N.of_nat (wires cs) < 4294967296)%N -> is_dom (length (r_cons cs)) k ->
  exists fa h pts G, p2n (E := E) p1 r1 p2 f = (Ok tt, fa) /\ fa p2 = Some (gob_hdr h ++ g1c (1 : E) ++ g2c (1 : E) ++ pts) /\ fa evals_path = Some G /\
  forall bs (rho : nat -> nat -> nat -> E) F t hs, fst (exec (verify2 bs rho) F (gob_hdr h ++ g1c (1 : E) ++ g2c (1 : E) ++ t)) = Ok hs ->
    exists l : list (contrib2 E), shown2 F l /\ hs = map d_hash l /\ linked2 1 [] l /\
    forall g sg pz f1 f2, pz <> pk_path -> pz <> vk_path -> f1 pz = Some F -> f1 evals_path = Some G -> extract_keys wrap64 g sg pz f1 = (Ok tt, f2) ->
    exists (q : pkey E) (v : vkey E), let D := last (map d_delta l) 0 in
      f2 pk_path = Some (pk_bytes k (N.of_nat (wires cs)) q) /\
      f2 vk_path = Some (vk_bytes (ped (e := E) g sg []) (empty_info (E := E)) v) /\
      keypair_but_KZ cs k (root k) A Bt D T q v /\
      (D <> 0 -> (exists q', is_keypair cs k (root k) A Bt D T q' v) /\
       (no_challenge l \/ exists xs, updates 1 [] l xs /\ D = prodl xs /\
        forall bs' (d s : E) X h O i, d <> 0 -> s <> 0 -> exec (contribute2 bs' d s) X [] = (Ok h, O) -> nth_error hs i = Some h ->
          nth_error xs i = Some d \/ exists r o c, O = o ++ rec2_bytes r /\ nth_error l i = Some c /\ sha_clash c r)).
Proof.
  intros HI Hnc HW KD.
  destruct (after_ceremony p T A Bt cs f p1 r1 p2 1 [] HI Hnc HW (le_n 1) ltac:(cbn; lia)) as
    [fa [k' [t0 [z [h [q0 [v [H1 [_ [H3 [H4 [H5 [H6 [H7 [H8 [H9 [H10 [H11 [H12 [H13 [H14 H15]]]]]]]]]]]]]]]]]]]]].
  assert (k' = k) by (destruct KD as [K1 [K2 K3]], H5 as [J1 [J2 J3]]; specialize (K3 k' J1 J2); specialize (J3 k K1 K2); lia). subst k'.
  exists fa, h, (enc1 (p_Z q0) ++ enc1 (p_K q0)), (evals_bytes v). split; [exact H1|]. split.
  { rewrite H3, H10. unfold file2, head2, par2_bytes. cbn [p_d1 p_d2 p_Z p_K]. f_equal. cbn [recs2_bytes flat_map]. now rewrite !app_nil_r, ?app_assoc. }
  split; [exact H4|].
  assert (HO : hdr_ok h).
  { rewrite H9. destruct (init_dom _ _ _ _ _ _ _ HI) as [k' [KD' [K27 _]]].
    assert (k' = k) by (destruct KD as [K1 [K2 K3]], KD' as [J1 [J2 J3]]; specialize (K3 k' J1 J2); specialize (J3 k K1 K2); lia). subst k'.
    pose proof HI as [_ [_ [_ [_ [_ [_ [_ [L27 _]]]]]]]]. now apply hdr_of_ok. }
  intros bs rho F t hs V.
  destruct (verify2_shown bs rho F _ hs V) as [cur [org [d1 [d2 [g1 [g2 [l [Y1 [Y2 [_ [HE [SR [Sh [_ [CE [LD Hhs]]]]]]]]]]]]]]]].
  rewrite (prefix_of F h t HO) in Y2. injection Y2 as <- <- <-.
  exists l. split; [exact Sh|]. split; [exact Hhs|]. split; [now apply linked2_iff|].
  intros g sg pz f1 f2 N1 N2 HF HG X.
  destruct (extract_keys_inv wrap64 g sg pz f1 f2 N1 N2 X) as [F' [G' [hh [qq [k2 [vv [s1 [s2 [EF0 [EG [RP [ND RV]]]]]]]]]]]].
  assert (F' = F) by congruence. assert (G' = evals_bytes v) by congruence. subst F' G'.
  pose proof (opens_pk _ _ _ _ _ RP) as OF. set (q := mkPar2 (q_delta qq) (q_delta2 qq) (q_Z qq) (q_K qq)) in *.
  rewrite (opens_prefix false F _ hh q OF) in Y1. injection Y1 as <- <- <-.
  change (q_delta2 qq) with (p_d2 q) in SR. change (q_delta qq) with (p_d1 q) in SR, LD.
  destruct (read_pk_opens F hh q v OF H13) as [s3 RP'].
  destruct (hdr_eqb_dom _ _ HE) as [HD _].
  assert (HWZ : h_wires hh = Z.of_nat (wires cs)).
  { unfold hdr_eqb in HE. rewrite !andb_true_iff, !Z.eqb_eq in HE. destruct HE as [[[[[HE _] _] _] _] _]. rewrite HE, H9. reflexivity. }
  destruct (read_vk_opens wrap64 F hh q v (wires cs) OF H13 H14 HWZ) as [s4 RV']; [apply pos64; lia|].
  destruct (extract_keys_run wrap64 g sg pz f1 F (evals_bytes v) _ _ k _ s3 s4 N1 N2 HF HG RP' ltac:(now rewrite HD) RV') as [fb [B1 [B2 [B3 _]]]].
  rewrite X in B1. injection B1 as <-. exists (pk_of q v), (vk_of q v). cbv zeta. rewrite LD.
  assert (D2 : p_d2 q = p_d1 q) by (transitivity (1 * p_d2 q); [ring|]; rewrite SR; ring).
  assert (KP : is_keypair cs k (root k) A Bt (p_d1 q) T (pk_of (upd_par2 (p_d1 q) q0) v) (vk_of (upd_par2 (p_d1 q) q0) v)) by (rewrite H10, H11; now apply keypair_of).
  assert (VE : vk_of (upd_par2 (p_d1 q) q0) v = vk_of q v).
  { unfold vk_of. cbn [upd_par2 p_d1 p_d2]. rewrite H10. cbn [p_d1 p_d2]. rewrite D2. f_equal; ring. }
  rewrite VE in KP. split; [rewrite B2, HWZ, u64_nat by lia; reflexivity|]. split.
  { rewrite B3. unfold vk_of. cbn [w_ck]. rewrite H11. cbn [v_ckk]. reflexivity. }
  split.
  { destruct KP as [t1 [L1 [K1 [K2 [K3 [K4 [K5 [K6 [K7 [K8 [_ [_ [_ [W1 [W2 [W3 [W4 [W5 [W6 W7]]]]]]]]]]]]]]]]]]].
    exists t1. split; [exact L1|]. cbn [pk_of q_alpha q_beta q_delta q_beta2 q_delta2 q_A q_B q_B2] in *.
    repeat (split; [first [assumption|reflexivity]|]). assumption. }
  intros D0. split; [eexists; exact KP|].
  assert (Ll0 : l <> []) by (intros ->; cbn in LD; now apply D0).
  assert (LD' : last (map d_delta l) 1 = p_d1 q).
  { transitivity (last (map d_delta l) (0 : E)); [|exact LD]. destruct l as [|c l']; [congruence|]. cbn [map]. now rewrite !last_cons. }
  destruct (chain_updates l 1 [] CE) as [N|[xs [U PX]]]; [intros Z; apply D0; rewrite <- Z; now symmetry|left; exact N|].
  right. exists xs. split; [exact U|]. split; [transitivity (last (map d_delta l) 1); [now symmetry|]; rewrite PX; ring|].
  intros bs' d s X' h' O i D1 S0 HX Hi. rewrite Hhs in Hi. eapply attested_at; eauto.
Qed.
End V.
