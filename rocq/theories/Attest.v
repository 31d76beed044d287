(* Attest.v -- a phase-2 contribution whose hash p2v shows is part of the keys, whatever the other files were. *)
From Coq Require Import Ring Field String.
From Verif Require Import Base Fld Poly BitRev IO Ext Spec1 Phase1 Phase1Io Phase1Verify Phase1Trans Phase1Facts Phase1Inv Phase1Claims Gob GobLemmas Circuit Spec2 Phase2 Phase2Io Phase2Lemmas Phase2Claims Phase2More Phase2Bad Spec3 Fs Init2 Init2Pure Init2Io Init2Claims Init2More Spec4 Keys KeysLemmas KeysClaims KeysProps Sound2 Spec18.
Local Open Scope fld_scope.
Local Open Scope io_scope.

Section Attest.
Context {E : Ext2}.
Add Field Eatt : (f_th E).
Ltac rd L := rewrite <- ?app_assoc; eapply evb; [eapply L; [first [apply defBuf_big|apply defBuf_gob]| |cbn [getr setr fst snd]; reflexivity]; eassumption|];
  cbn [getr setr fst snd]; cbn beta.

(* what p2c appends, whatever it was given *)
Lemma contribute2_appends bs (d s : E) X g h O : exec (contribute2 bs d s) X g = (Ok h, O) ->
  exists d1 ph o, let r := new_rec2 d s (d1 * d) ph in O = o ++ rec2_bytes r /\ h = d_hash r.
Proof.
  intros H. apply exec_ev in H as [s' [D [H HO]]]. unfold contribute2 in H.
  apply newrd_inv, newwr_inv, with_flush_inv in H.
  apply bind_ok_inv in H as [hd [s1 [e1 [k1 [_ [H O1]]]]]].
  apply bind_ok_inv in H as [[] [s2 [e2 [k2 [_ [H O2]]]]]].
  apply bind_ok_inv in H as [d1 [s3 [e3 [k3 [_ [H O3]]]]]].
  apply bind_ok_inv in H as [[] [s4 [e4 [k4 [_ [H O4]]]]]].
  apply bind_ok_inv in H as [d2 [s5 [e5 [k5 [_ [H O5]]]]]].
  apply bind_ok_inv in H as [[] [s6 [e6 [k6 [_ [H O6]]]]]].
  apply bind_ok_inv in H as [[] [s7 [e7 [k7 [_ [H O7]]]]]].
  apply bind_ok_inv in H as [[] [s8 [e8 [k8 [_ [H O8]]]]]].
  apply bind_ok_inv in H as [c [s9 [e9 [k9 [_ [H O9]]]]]].
  set (ph := if (wrap64 _ =? 0)%Z then _ else _) in H.
  exists d1, ph.
  apply bind_ok_inv in H as [x [s10 [e10 [k10 [W [H O10]]]]]].
  match type of W with ev (try (write_contrib2 0 ?r)) _ _ _ _ =>
    destruct (ev_det _ _ _ _ _ _ _ _ W (ev_try_ok _ _ _ _ _ (ev_write_contrib2 0 r s9))) as [_ [_ W']] end.
  assert (K10 : k10 0%nat = []) by (destruct H as [w0 [R0 W0]]; cbn in R0; injection R0 as _ _ <-; now rewrite <- W0).
  exists (e1 0%nat ++ e2 0%nat ++ e3 0%nat ++ e4 0%nat ++ e5 0%nat ++ e6 0%nat ++ e7 0%nat ++ e8 0%nat ++ e9 0%nat). cbv zeta.
  apply ret_inv in H as [Hh _].
  cbn [d_delta d_key d_hash] in Hh, W'. rewrite gen_key_spec, compute_hash2_spec in Hh, W'. split.
  - rewrite <- HO, O1, O2, O3, O4, O5, O6, O7, O8, O9, O10, K10, app_nil_r, W'. unfold on. cbn [Nat.eqb].
    rewrite <- !app_assoc. reflexivity.
  - now rewrite <- Hh.
Qed.

Lemma opens_prefix (c : bool) F G h q : opens2 c (if c then G else F) h q -> fst (exec (prefix2 (E := E) c) F G) = Ok (h, p_d1 q, p_d2 q).
Proof.
  intros [pa [a1 [a2 [a3 [a4 [ja [RA [I1 [I2 _]]]]]]]]].
  assert (EV : exists st, ev (prefix2 c) (opened F, opened G) (Ok (h, p_d1 q, p_d2 q)) st none).
  { unfold prefix2. destruct c; (eexists; eapply ev_newrd0; [reflexivity|]); (eapply evb; [apply RA; apply getr_setr|]).
    - rd @ev_decode1. rd @ev_decode2. apply ev_ret.
    - rd @ev_decode1. rd @ev_decode2. apply ev_ret. }
  destruct EV as [st EV]. apply ev_exec in EV. now rewrite EV.
Qed.

Lemma chain_updates : forall l (o : E) ph, chain2_err o ph l = None -> last (map d_delta l) o <> 0 ->
  (exists i c, nth_error l i = Some c /\ chal (kS (d_key c)) (kSX (d_key c)) (last (map d_hash (firstn i l)) ph) 1 = 0) \/
  exists xs, updates o ph l xs /\ last (map d_delta l) o = prodl xs * o.
Proof.
  induction l as [|c l IH]; intros o ph C L0.
  - right. exists []. split; [constructor|]. cbn. ring.
  - cbn [chain2_err] in C. destruct (verify_contrib2 c o ph) eqn:V; [discriminate|].
    apply verify2_inv in V as [V1 [V2 V3]]. set (S := kS (d_key c)) in *. set (SX := kSX (d_key c)) in *. set (P := kSPX (d_key c)) in *. set (R := chal S SX ph 1) in *.
    destruct (feq_dec E R 0) as [R0|R0]; [left; exists 0%nat, c; split; [reflexivity|exact R0]|].
    cbn [map] in L0 |- *. rewrite last_cons in L0 |- *. destruct (IH (d_delta c) (d_hash c) C L0) as [[i [c' [Hi Q]]]|[xs [U Q]]].
    + left. exists (Datatypes.S i), c'. split; [exact Hi|]. cbn [firstn map]. now rewrite last_cons.
    + right. exists (P / R :: xs). split.
      * constructor; [| | |exact V3|exact U].
        -- apply (fmul_cancel_l _ R); [exact R0|]. transitivity (d_delta c * R); [ring|]. rewrite V2. field. exact R0.
        -- fold SX S. apply (fmul_cancel_l _ R); [exact R0|]. transitivity (SX * R); [ring|]. rewrite <- V1. field. exact R0.
        -- fold S SX P R. field. exact R0.
      * change (prodl (P / R :: xs)) with (P / R * prodl xs). rewrite Q.
        assert (Hd : d_delta c = P / R * o).
        { apply (fmul_cancel_l _ R); [exact R0|]. transitivity (d_delta c * R); [ring|]. rewrite V2. field. exact R0. }
        rewrite Hd. field. exact R0.
Qed.

Lemma updates_nth : forall l (o : E) ph xs, updates o ph l xs -> forall i c, nth_error l i = Some c ->
  exists x, nth_error xs i = Some x /\ hash_good2 c /\ kSX (d_key c) = x * kS (d_key c).
Proof.
  induction l as [|a l IH]; intros o ph xs U i c Hi; [destruct i; discriminate|].
  inversion U; subst. destruct i as [|i]; cbn in Hi |- *; [injection Hi as <-; eauto|]. eauto.
Qed.

Lemma attested_at (l : list (contrib2 E)) o ph xs bs d s X g h O i : updates o ph l xs -> d <> 0 -> s <> 0 ->
  exec (contribute2 bs d s) X g = (Ok h, O) -> nth_error (map d_hash l) i = Some h ->
  nth_error xs i = Some d \/ exists r o' c, O = o' ++ rec2_bytes r /\ nth_error l i = Some c /\ sha_clash c r.
Proof.
  intros U D0 S0 X0 Hi. apply contribute2_appends in X0 as [d1 [p [o' [HO Hh]]]].
  set (r := new_rec2 d s (d1 * d) p) in *.
  rewrite nth_error_map in Hi. destruct (nth_error l i) as [c|] eqn:Hc; [|discriminate]. cbn in Hi. injection Hi as Hi.
  destruct (updates_nth _ _ _ _ U i c Hc) as [x [Hx [Hg Hk]]].
  unfold hash_good2 in Hg. 
  assert (Q : sha E (enc_vals (rec2_vals c)) = sha E (enc_vals (rec2_vals r))).
  { rewrite <- Hg, Hi, Hh. reflexivity. }
  destruct (bytes_eqb (enc_vals (rec2_vals c)) (enc_vals (rec2_vals r))) eqn:B.
  - left. apply bytes_eqb_eq in B. apply enc_vals_inj in B; [|reflexivity].
    unfold rec2_vals, key_vals in B. injection B as _ B1 B2 _. rewrite Hx. f_equal.
    rewrite B1, B2 in Hk. cbn in Hk. apply (fmul_cancel_l _ s); [exact S0|]. transitivity (x * s); [ring|]. rewrite <- Hk. ring.
  - right. exists r, o', c. split; [exact HO|]. split; [reflexivity|]. split; [|exact Q].
    intros A. rewrite A in B. assert (bytes_eqb (enc_vals (rec2_vals r)) (enc_vals (rec2_vals r)) = true) by now apply bytes_eqb_eq. congruence.
Qed.

Lemma is_file_ph2 f h (q : par2 E) l : hdr_ok h -> is_file2 f h q l -> ph2 f h q.
Proof. intros H [pb [rb [jk [-> [P [S _]]]]]]. split; [exact H|]. split; [exact S|]. exists pb, (rb ++ jk). auto. Qed.
Lemma records2 bs (rho : nat -> nat -> nat -> E) F G h (q : par2 E) l hs ho qo : 1 <= bs -> hdr_ok h -> is_file2 F h q l -> ph2 G ho qo ->
  fst (exec (verify2 bs rho) F G) = Ok hs -> chain2_err (p_d1 qo) [] l = None /\ last (map d_delta l) 0 = p_d1 q /\ hs = map d_hash l.
Proof.
  intros B H F2 [Ho [Sz [pb [junk [Eg P]]]]] V.
  destruct (verify2_ev bs rho F G h ho q qo pb junk l (opened F, opened G) B H Ho F2 Eg P Sz eq_refl eq_refl) as [s' Q].
  apply ev_exec in Q. rewrite Q in V. cbn [fst] in V. unfold verdict2 in V.
  repeat match type of V with (if ?b then _ else _) = _ => destruct b; [discriminate|] end.
  destruct (chain2_err (p_d1 qo) [] l); [discriminate|]. destruct (feqb (last (map d_delta l) 0) (p_d1 q)) eqn:Z; [|discriminate]. injection V as <-.
  apply feqb_ok in Z. auto.
Qed.

(* the records are those l that pass the chain check and end at delta *)
Lemma attested_core p T A Bt (cs : r1cs E) f p1 r1 p2 k :
  init_input p (srs_of p T A Bt) cs f p1 r1 p2 -> no_cmt cs -> (N.of_nat (wires cs) < 4294967296)%N ->
  is_dom (length (r_cons cs)) k -> T ^ (2 ^ k) <> 1 ->
  exists fa F0 G, p2n (E := E) p1 r1 p2 f = (Ok tt, fa) /\ fa p2 = Some F0 /\ fa evals_path = Some G /\
  forall bs (rho : nat -> nat -> nat -> E) F hs g sg pz f1 f2, 1 <= bs -> fst (exec (verify2 bs rho) F F0) = Ok hs ->
    pz <> pk_path -> pz <> vk_path -> f1 pz = Some F -> f1 evals_path = Some G -> extract_keys wrap64 g sg pz f1 = (Ok tt, f2) ->
    by_chance bs rho F F0 \/
    exists h h0 (q00 : par2 E) D D' (q : pkey E) (v : vkey E), fst (exec (prefix2 false) F F0) = Ok (h, D, D') /\ ph2 F0 h0 q00 /\ p_d1 q00 = 1 /\ D <> 0 /\
      f2 pk_path = Some (pk_bytes k (N.of_nat (wires cs)) q) /\
      f2 vk_path = Some (vk_bytes (ped (e := E) g sg []) (empty_info (E := E)) v) /\
      is_keypair cs k (root k) A Bt D T q v /\
      forall l, hs = map d_hash l -> chain2_err 1 [] l = None -> last (map d_delta l) 0 = D ->
      (no_challenge l \/ exists xs, updates 1 [] l xs /\ D = prodl xs /\
        forall bs' (d s : E) X h O i, d <> 0 -> s <> 0 -> exec (contribute2 bs' d s) X [] = (Ok h, O) -> nth_error hs i = Some h ->
          nth_error xs i = Some d \/ exists r o c, O = o ++ rec2_bytes r /\ nth_error l i = Some c /\ sha_clash c r).
Proof.
  intros HI Hnc HW KD TN.
  destruct (after_ceremony p T A Bt cs f p1 r1 p2 1 [] HI Hnc HW (le_n 1) ltac:(cbn; lia)) as
    [fa [k' [t [z [h [q0 [v [H1 [_ [H3 [H4 [H5 [H6 [H7 [H8 [H9 [H10 [H11 [H12 [H13 [H14 H15]]]]]]]]]]]]]]]]]]]]].
  assert (k' = k) by (destruct KD as [K1 [K2 K3]], H5 as [J1 [J2 J3]]; specialize (K3 k' J1 J2); specialize (J3 k K1 K2); lia). subst k'.
  exists fa, (file2 h q0 []), (evals_bytes v). split; [exact H1|]. split; [exact H3|]. split; [exact H4|].
  intros bs rho F hs g sg pz f1 f2 B V N1 N2 HF HG X.
  destruct (extract_keys_inv wrap64 g sg pz f1 f2 N1 N2 X) as [F' [G' [hh [qq [k2 [vv [s1 [s2 [EF [EG [RP [ND RV]]]]]]]]]]]].
  assert (F' = F) by congruence. assert (G' = evals_bytes v) by congruence. subst F' G'.
  pose proof (opens_pk _ _ _ _ _ RP) as OF. set (q := mkPar2 (q_delta qq) (q_delta2 qq) (q_Z qq) (q_K qq)) in *.
  assert (SZ : sized2 h q0).
  { rewrite H9, H10. split; unfold hdr_of; cbn [h_domain h_witness p_Z p_K].
    - rewrite (proj1 H8). pose proof (pow2_pos k). lia.
    - now rewrite map_length, seq_length. }
  assert (PH : ph2 (file2 h q0 []) h q0).
  { apply file2_ph2; [|exact SZ]. rewrite H9. destruct (init_dom _ _ _ _ _ _ _ HI) as [k' [KD' [K27 _]]].
    assert (k' = k) by (destruct KD as [K1 [K2 K3]], KD' as [J1 [J2 J3]]; specialize (K3 k' J1 J2); specialize (J3 k K1 K2); lia). subst k'.
    pose proof HI as [_ [_ [_ [_ [_ [_ [_ [L27 _]]]]]]]]. now apply hdr_of_ok. }
  pose proof (opens_file true _ _ _ PH) as OG.
  destruct (accepted_params bs rho F _ hh h q q0 hs B OF OG V) as [HE _].
  assert (Nz : exists x, In x (p_Z q0 ++ p_K q0) /\ x <> 0).
  { exists (T ^ (2 ^ k) - 1). split.
    - apply in_or_app. left. rewrite H10. cbn [p_Z]. destruct H8 as [_ H8]. apply nth_error_In with (n := 0%nat).
      rewrite (H8 0%nat 0%nat); [cbn [fpow]; f_equal; ring| |].
      + pose proof (Nat.pow_le_mono_r 2 1 k ltac:(lia) ltac:(lia)) as Q. change (2 ^ 1)%nat with 2%nat in Q. lia.
      + split; [pose proof (pow2_pos k); lia|]. intros i Hi. now rewrite !Nat.bits_0.
    - intros Q. apply TN. transitivity (T ^ (2 ^ k) - 1 + 1); [ring|]. rewrite Q. ring. }
  destruct (accepted_scaled bs rho F _ hh h q q0 hs B OF OG V ltac:(now rewrite H10) ltac:(now rewrite H10) Nz) as [[D Q]|C]; [right|left; exact C].
  destruct (read_pk_opens F hh q v OF H13) as [s3 RP'].
  destruct (hdr_eqb_dom _ _ HE) as [HD _].
  assert (HWZ : h_wires hh = Z.of_nat (wires cs)).
  { unfold hdr_eqb in HE. rewrite !andb_true_iff, !Z.eqb_eq in HE. destruct HE as [[[[[HE _] _] _] _] _]. rewrite HE, H9. reflexivity. }
  destruct (read_vk_opens wrap64 F hh q v (wires cs) OF H13 H14 HWZ) as [s4 RV']; [apply pos64; lia|].
  destruct (extract_keys_run wrap64 g sg pz f1 F (evals_bytes v) _ _ k _ s3 s4 N1 N2 HF HG RP' ltac:(now rewrite HD) RV') as [fb [B1 [B2 [B3 _]]]].
  assert (O1 : p_d1 q0 = 1) by (now rewrite H10).
  rewrite X in B1. injection B1 as <-. exists hh, h, q0, (p_d1 q), (p_d2 q), (pk_of q v), (vk_of q v).
  split; [exact (opens_prefix false F (file2 h q0 []) hh q OF)|]. split; [exact PH|]. split; [exact O1|].
  split; [exact D|]. split; [|split; [|split]].
  - rewrite B2, HWZ, u64_nat by lia. reflexivity.
  - rewrite B3. unfold vk_of. cbn [w_ck]. rewrite H11. cbn [v_ckk]. reflexivity.
  - rewrite H10 in Q. revert Q. generalize (p_d1 q). intros D' Q. rewrite Q, H11. now apply keypair_of.
  - intros l Hhs CE LD.
    assert (Ll0 : l <> []).
    { intros ->. cbn in LD. now apply D. }
    assert (LD' : last (map d_delta l) 1 = p_d1 q).
    { transitivity (last (map d_delta l) (0 : E)); [|exact LD]. destruct l as [|c l']; [congruence|]. cbn [map]. now rewrite !last_cons. }
    destruct (chain_updates l 1 [] CE) as [N|[xs [U PX]]]; [intros Z; apply D; rewrite <- Z; now symmetry|left; exact N|].
    right. exists xs. split; [exact U|]. split; [transitivity (last (map d_delta l) 1); [now symmetry|]; rewrite PX; ring|].
    intros bs' d s X' h' O i D0 S0 HX Hi. rewrite Hhs in Hi. eapply attested_at; eauto.
Qed.
Lemma attested p T A Bt (cs : r1cs E) f p1 r1 p2 k :
  init_input p (srs_of p T A Bt) cs f p1 r1 p2 -> no_cmt cs -> (N.of_nat (wires cs) < 4294967296)%N ->
  is_dom (length (r_cons cs)) k -> T ^ (2 ^ k) <> 1 ->
  exists fa F0 G, p2n (E := E) p1 r1 p2 f = (Ok tt, fa) /\ fa p2 = Some F0 /\ fa evals_path = Some G /\
  forall bs (rho : nat -> nat -> nat -> E) F hs g sg pz f1 f2, 1 <= bs -> fst (exec (verify2 bs rho) F F0) = Ok hs ->
    pz <> pk_path -> pz <> vk_path -> f1 pz = Some F -> f1 evals_path = Some G -> extract_keys wrap64 g sg pz f1 = (Ok tt, f2) ->
    by_chance bs rho F F0 \/
    exists l D (q : pkey E) (v : vkey E), hs = map d_hash l /\ D <> 0 /\
      f2 pk_path = Some (pk_bytes k (N.of_nat (wires cs)) q) /\
      f2 vk_path = Some (vk_bytes (ped (e := E) g sg []) (empty_info (E := E)) v) /\
      is_keypair cs k (root k) A Bt D T q v /\
      (no_challenge l \/ exists xs, updates 1 [] l xs /\ D = prodl xs /\
        forall bs' (d s : E) X h O i, d <> 0 -> s <> 0 -> exec (contribute2 bs' d s) X [] = (Ok h, O) -> nth_error hs i = Some h ->
          nth_error xs i = Some d \/ exists r o c, O = o ++ rec2_bytes r /\ nth_error l i = Some c /\ sha_clash c r).
Proof.
  intros HI Hnc HW KD TN. destruct (attested_core p T A Bt cs f p1 r1 p2 k HI Hnc HW KD TN) as [fa [F0 [G [H1 [H2 [H3 H4]]]]]].
  exists fa, F0, G. split; [exact H1|]. split; [exact H2|]. split; [exact H3|].
  intros bs rho F hs g sg pz f1 f2 B V N1 N2 HF HG X.
  destruct (H4 bs rho F hs g sg pz f1 f2 B V N1 N2 HF HG X) as [C|[h [h0 [q0 [D [D' [q [v [P1 [P2 [O1 [D0 [K1 [K2 [K3 K4]]]]]]]]]]]]]]]; [left; exact C|right].
  destruct (verify2_any bs rho F _ hs V) as [cur [org [d1 [d2 [g1 [g2 [l [Q1 [Q2 [_ [_ [_ [_ [CE [LD Hhs]]]]]]]]]]]]]]].
  rewrite P1 in Q1. injection Q1 as <- <- <-. rewrite (opens_prefix true F F0 h0 q0 (opens_file true _ _ _ P2)) in Q2. injection Q2 as <- <- <-. rewrite O1 in CE.
  exists l, D, q, v. split; [exact Hhs|]. split; [exact D0|]. split; [exact K1|]. split; [exact K2|]. split; [exact K3|]. now apply K4.
Qed.

(* the same, the records being those of the file *)
Lemma attested_file p T A Bt (cs : r1cs E) f p1 r1 p2 k :
  init_input p (srs_of p T A Bt) cs f p1 r1 p2 -> no_cmt cs -> (N.of_nat (wires cs) < 4294967296)%N ->
  is_dom (length (r_cons cs)) k -> T ^ (2 ^ k) <> 1 ->
  exists fa F0 G, p2n (E := E) p1 r1 p2 f = (Ok tt, fa) /\ fa p2 = Some F0 /\ fa evals_path = Some G /\
  forall bs (rho : nat -> nat -> nat -> E) F hF (qF : par2 E) l hs g sg pz f1 f2, 1 <= bs -> hdr_ok hF -> is_file2 F hF qF l -> fst (exec (verify2 bs rho) F F0) = Ok hs ->
    pz <> pk_path -> pz <> vk_path -> f1 pz = Some F -> f1 evals_path = Some G -> extract_keys wrap64 g sg pz f1 = (Ok tt, f2) ->
    by_chance bs rho F F0 \/
    exists D (q : pkey E) (v : vkey E), hs = map d_hash l /\ D <> 0 /\
      f2 pk_path = Some (pk_bytes k (N.of_nat (wires cs)) q) /\
      f2 vk_path = Some (vk_bytes (ped (e := E) g sg []) (empty_info (E := E)) v) /\
      is_keypair cs k (root k) A Bt D T q v /\
      (no_challenge l \/ exists xs, updates 1 [] l xs /\ D = prodl xs /\
        forall bs' (d s : E) X h O i, d <> 0 -> s <> 0 -> exec (contribute2 bs' d s) X [] = (Ok h, O) -> nth_error hs i = Some h ->
          nth_error xs i = Some d \/ exists r o c, O = o ++ rec2_bytes r /\ nth_error l i = Some c /\ sha_clash c r).
Proof.
  intros HI Hnc HW KD TN. destruct (attested_core p T A Bt cs f p1 r1 p2 k HI Hnc HW KD TN) as [fa [F0 [G [H1 [H2 [H3 H4]]]]]].
  exists fa, F0, G. split; [exact H1|]. split; [exact H2|]. split; [exact H3|].
  intros bs rho F hF qF l hs g sg pz f1 f2 B HO IF V N1 N2 HF HG X.
  destruct (H4 bs rho F hs g sg pz f1 f2 B V N1 N2 HF HG X) as [C|[h [h0 [q0 [D [D' [q [v [P1 [P2 [O1 [D0 [K1 [K2 [K3 K4]]]]]]]]]]]]]]]; [left; exact C|right].
  destruct (records2 bs rho F F0 hF qF l hs h0 q0 B HO IF P2 V) as [CE [LD Hhs]]. rewrite O1 in CE.
  rewrite (opens_prefix false F F0 hF qF (opens_file false _ _ _ (is_file_ph2 _ _ _ _ HO IF))) in P1. injection P1 as <- <- <-.
  exists (p_d1 qF), q, v. split; [exact Hhs|]. split; [exact D0|]. split; [exact K1|]. split; [exact K2|]. split; [exact K3|]. now apply K4.
Qed.
End Attest.
