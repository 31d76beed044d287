(* V2Iff.v -- the pairs of files that p2v accepts. *)
From Coq Require Import Ring Field.
From Verif Require Import Base Fld Conc Parallel IO Ext Spec1 Phase1 Phase1Io Phase1Verify Phase1Trans Phase1Facts Phase1Inv Phase1Claims Gob GobLemmas Circuit Spec2 Phase2 Phase2Io Phase2Lemmas Phase2Claims Phase2More Safe2 Safe KeysLemmas Spec27 Torn Shown KeyIff Spec30 V1Iff Spec31.
Local Open Scope fld_scope.
Local Open Scope io_scope.

Section V.
Context {E : Ext2}.
Add Field Kfld31 : (f_th E).

Lemma dec1_total (u : bytes) : (exists b (x : E) t, u = b ++ t /\ is1 b x) \/ (exists b t, u = b ++ t /\ undec1 (E := E) b) \/ short (inl (0 : E)) u.
Proof.
  destruct (Nat.le_gt_cases 32 (length u)) as [L|L]; [|right; right; left; exact L].
  destruct (compressed u) eqn:C.
  - assert (L1 : length (firstn 32 u) = 32%nat) by (rewrite firstn_length; lia).
    assert (C1 : compressed (firstn 32 u) = true).
    { rewrite <- C. rewrite <- (firstn_skipn 32 u) at 2. symmetry. apply compressed_app. intros X. rewrite X in L1. discriminate. }
    destruct (g1dc (e := E) (firstn 32 u)) as [x|] eqn:D.
    + left. exists (firstn 32 u), x, (skipn 32 u). split; [symmetry; apply firstn_skipn|]. left. auto.
    + right. left. exists (firstn 32 u), (skipn 32 u). split; [symmetry; apply firstn_skipn|]. left. auto.
  - destruct (Nat.le_gt_cases 64 (length u)) as [L2|L2]; [|right; right; right; auto].
    assert (L1 : length (firstn 64 u) = 64%nat) by (rewrite firstn_length; lia).
    assert (C1 : compressed (firstn 64 u) = false).
    { rewrite <- C. rewrite <- (firstn_skipn 64 u) at 2. symmetry. apply compressed_app. intros X. rewrite X in L1. discriminate. }
    destruct (g1dr (e := E) (firstn 64 u)) as [x|] eqn:D.
    + left. exists (firstn 64 u), x, (skipn 64 u). split; [symmetry; apply firstn_skipn|]. right. auto.
    + right. left. exists (firstn 64 u), (skipn 64 u). split; [symmetry; apply firstn_skipn|]. right. auto.
Qed.
Lemma run1_total : forall n u, exists (l : list E) ok r, run1 n u l ok r.
Proof.
  induction n as [|n IH]; intros u; [exists [], true, u; constructor|].
  destruct (dec1_total u) as [[b [x [t [-> I]]]]|[[b [t [-> B]]]|S]].
  - destruct (IH t) as [l [ok [r R]]]. exists (x :: l), ok, r. now constructor.
  - exists [], false, t. now constructor.
  - exists [], false, []. now constructor.
Qed.
Lemma run1_len n u (l : list E) ok r : run1 n u l ok r -> length r <= length u /\ (ok = true -> length l = n).
Proof.
  induction 1 as [u|n b x u l ok r I R [IH1 IH2]|n b u B|n u S]; cbn [length]; rewrite ?app_length; (split; [lia|]); try discriminate; [reflexivity|].
  intros Q. now rewrite (IH2 Q).
Qed.
Lemma compared_total bs (rho : nat -> nat -> E) : 1 <= bs -> forall m u v, exists o u' v', compared bs rho m u v o u' v'.
Proof.
  intros B m. induction m as [m IH] using (well_founded_induction Wf_nat.lt_wf). intros u v.
  destruct m as [|m]; [exists (Some (0, 0)), u, v; constructor|].
  destruct (run1_total (Nat.min (S m) bs) u) as [l [[|] [u' R]]]; [|exists None, u', v; econstructor; exact R].
  destruct (run1_total (Nat.min (S m) bs) v) as [k [[|] [v' Q]]]; [|exists None, u', v'; econstructor; [exact R|exact Q]].
  destruct (IH (S m - Nat.min (S m) bs)%nat ltac:(lia) u' v') as [o [u2 [v2 C]]].
  eexists _, u2, v2. eapply cmp_batch; [exact R|exact Q|exact C].
Qed.
Lemma compared_len bs (rho : nat -> nat -> E) m u v o u' v' : compared bs rho m u v o u' v' -> length u' <= length u /\ length v' <= length v.
Proof.
  induction 1 as [u v|m u v l u' R|m u v l k u' v' R Q|m u v l k u' v' o u2 v2 n R Q C [IH1 IH2]];
    try (apply run1_len in R as [R _]); try (apply run1_len in Q as [Q _]); lia.
Qed.

Lemma undec1_ev h file p b t s : undec1 (E := E) b -> getr h s = at_ file defBuf p (b ++ t) ->
  exists e, ev (decode1 (E := E) h) s (Err e) (setr h (at_ file defBuf (p + length b) t) s) none.
Proof.
  intros B G. unfold decode1. exists EDecode. destruct B as [[L [C D]]|[L [C D]]].
  - eapply evb; [eapply (readfull_ok h file defBuf p b t s 32); [exact L|apply (bigcap_le defBuf 32 defBuf_big); lia|exact G]|].
    cbv beta. rewrite C, D, L. apply ev_throw.
  - assert (exists x y, b = x ++ y /\ length x = 32%nat /\ length y = 32%nat) as [x [y [-> [Lx Ly]]]].
    { exists (firstn 32 b), (skipn 32 b). rewrite firstn_skipn, firstn_length, skipn_length. repeat split; lia. }
    assert (C1 : compressed x = false). { rewrite <- C. symmetry. apply compressed_app. intros Q. rewrite Q in Lx. discriminate. }
    rewrite <- app_assoc in G.
    eapply evb; [eapply (readfull_ok h file defBuf p x (y ++ t) s 32); [exact Lx|apply (bigcap_le defBuf 32 defBuf_big); lia|exact G]|].
    cbv beta. rewrite C1. eapply evb; [eapply (readfull_ok h file defBuf _ y t _ 32); [exact Ly|apply (bigcap_le defBuf 32 defBuf_big); lia|apply getr_setr]|].
    cbv beta. rewrite D, setr_setr, app_length, Lx, Ly. replace (p + (32 + 32))%nat with (p + 32 + 32)%nat by lia. apply ev_throw.
Qed.
Lemma short1_ev h file p u s : short (inl (0 : E)) u -> getr h s = at_ file defBuf p u ->
  exists e, ev (decode1 (E := E) h) s (Err e) (setr h (at_ file defBuf (p + length u) []) s) none.
Proof.
  intros S G. unfold decode1. exists EEof.
  destruct (Nat.le_gt_cases 32 (length u)) as [L|L].
  2: { apply ev_bind_err. eapply readfull_eof; [exact L|apply (bigcap_le defBuf 32 defBuf_big); lia|exact G]. }
  destruct S as [S|[C S]]; [lia|].
  assert (exists x y, u = x ++ y /\ length x = 32%nat /\ length y < 32) as [x [y [-> [Lx Ly]]]].
  { exists (firstn 32 u), (skipn 32 u). rewrite firstn_skipn, firstn_length, skipn_length. repeat split; lia. }
  assert (C1 : compressed x = false). { rewrite <- C. symmetry. apply compressed_app. intros Q. rewrite Q in Lx. discriminate. }
  eapply evb; [eapply (readfull_ok h file defBuf p x y s 32); [exact Lx|apply (bigcap_le defBuf 32 defBuf_big); lia|exact G]|].
  cbv beta. rewrite C1. apply ev_bind_err. eapply ev_cast; [eapply (readfull_eof h file defBuf _ y _ 32); [exact Ly|apply (bigcap_le defBuf 32 defBuf_big); lia|apply getr_setr]|reflexivity| |auto].
  rewrite setr_setr, app_length, Lx. now replace (p + (32 + length y))%nat with (p + 32 + length y)%nat by lia.
Qed.
Lemma run1_ev h file n u (l : list E) ok r : run1 n u l ok r -> forall p s, getr h s = at_ file defBuf p u ->
  exists e, ev (decodes1 h n) s (if ok : bool then Ok l else Err e) (setr h (at_ file defBuf (p + length u - length r) r) s) none.
Proof.
  induction 1 as [u|n b x u l ok r I R IH|n b u B|n u S]; intros p s G; cbn [decodes1].
  - exists EEof. replace (p + length u - length u)%nat with p by lia. rewrite <- G, setr_getr. apply ev_ret.
  - pose proof (ev_decode1 h file defBuf p b x u s defBuf_big I G) as D.
    destruct (IH _ _ (getr_setr h (at_ file defBuf (p + length b) u) s)) as [e V]. exists e.
    rewrite setr_setr in V. rewrite app_length. replace (p + (length b + length u) - length r)%nat with (p + length b + length u - length r)%nat by lia.
    eapply evb; [exact D|]. destruct ok.
    + eapply evb; [exact V|]. apply ev_ret.
    + apply ev_bind_err. exact V.
  - destruct (undec1_ev h file p b u s B G) as [e V]. exists e. apply ev_bind_err. rewrite app_length.
    replace (p + (length b + length u) - length u)%nat with (p + length b)%nat by lia. exact V.
  - destruct (short1_ev h file p u s S G) as [e V]. exists e. apply ev_bind_err. cbn [length]. rewrite Nat.sub_0_r. exact V.
Qed.
Lemma compared_ev bs (rho : nat -> nat -> E) F G : 1 <= bs -> forall m u v o u' v', compared bs rho m u v o u' v' ->
  forall fuel r (i j : E) p q, m <= fuel -> m <= length r ->
  exists e, ev (aggregate_loop bs rho fuel m r i j) (at_ F defBuf p u, at_ G defBuf q v)
    (match o with Some (x, y) => Ok (i + x, j + y) | None => Err e end)
    (at_ F defBuf (p + length u - length u') u', at_ G defBuf (q + length v - length v') v') none.
Proof.
  intros B m u v o u' v' C.
  assert (W : forall fuel m r (i j : E), S m <= length r -> aggregate_loop bs rho (S fuel) (S m) r i j =
    let n := Nat.min (S m) bs in
    ins <- decodes1 false n ;;
    match mexp E ins (weights (rho (S m)) n) with
    | None => Throw EDecode
    | Some t => ors <- decodes1 true n ;;
      match mexp E ors (weights (rho (S m)) n) with
      | None => Throw EDecode
      | Some t' => aggregate_loop bs rho fuel (S m - n) (map (rho (S m)) (seq 0 (length r))) (i + t) (j + t')
      end
    end).
  { intros fuel k r i j L. cbn [aggregate_loop]. rewrite randomize_len. cbn [orBoom]. cbv zeta.
    assert (Fr : firstn (Nat.min (S k) bs) (map (rho (S k)) (seq 0 (length r))) = weights (rho (S k)) (Nat.min (S k) bs)).
    { set (n := Nat.min (S k) bs). unfold weights. rewrite firstn_map. f_equal. replace (length r) with (n + (length r - n))%nat by lia.
      rewrite seq_app. replace n with (length (seq 0 n)) at 1 by apply seq_length. apply firstn_app_exact. }
    rewrite Fr. reflexivity. }
  induction C as [u v|m u v l u' R|m u v l k u' v' R Q|m u v l k u' v' o u2 v2 n R Q C IH]; intros fuel r i j p q Lf Lr.
  - exists EEof. replace (p + length u - length u)%nat with p by lia. replace (q + length v - length v)%nat with q by lia.
    rewrite (ltac:(ring) : i + 0 = i), (ltac:(ring) : j + 0 = j). destruct fuel; apply ev_ret.
  - destruct fuel as [|fuel]; [lia|]. rewrite W by exact Lr. cbv zeta. 
    destruct (run1_ev false F _ _ _ _ _ R p (at_ F defBuf p u, at_ G defBuf q v) eq_refl) as [e V]. exists e. apply ev_bind_err. cbn [setr fst snd] in V.
    replace (q + length v - length v)%nat with q by lia. exact V.
  - destruct fuel as [|fuel]; [lia|]. rewrite W by exact Lr. cbv zeta. 
    destruct (run1_ev false F _ _ _ _ _ R p (at_ F defBuf p u, at_ G defBuf q v) eq_refl) as [e0 V]. cbn [setr fst snd] in V.
    destruct (run1_ev true G _ _ _ _ _ Q q (at_ F defBuf (p + length u - length u') u', at_ G defBuf q v) eq_refl) as [e V2]. exists e. cbn [setr fst snd] in V2.
    eapply evb; [exact V|]. rewrite mexp_eq by (unfold weights; rewrite map_length, seq_length; apply run1_len in R; tauto).
    apply ev_bind_err. exact V2.
  - destruct fuel as [|fuel]; [lia|]. rewrite W by exact Lr. cbv zeta. fold n.
    destruct (run1_ev false F _ _ _ _ _ R p (at_ F defBuf p u, at_ G defBuf q v) eq_refl) as [e0 V]. cbn [setr fst snd] in V.
    destruct (run1_ev true G _ _ _ _ _ Q q (at_ F defBuf (p + length u - length u') u', at_ G defBuf q v) eq_refl) as [e1 V2]. cbn [setr fst snd] in V2.
    destruct (IH fuel (map (rho (S m)) (seq 0 (length r))) (i + dot l (weights (rho (S m)) n)) (j + dot k (weights (rho (S m)) n))
      (p + length u - length u')%nat (q + length v - length v')%nat) as [e V3]; [lia|rewrite map_length, seq_length; lia|]. exists e.
    pose proof (run1_len _ _ _ _ _ R) as [LR LR2]. pose proof (run1_len _ _ _ _ _ Q) as [LQ LQ2]. pose proof (compared_len _ _ _ _ _ _ _ _ C) as [LC1 LC2].
    eapply evb; [exact V|]. rewrite mexp_eq by (unfold weights; rewrite map_length, seq_length; auto).
    eapply evb; [exact V2|]. rewrite mexp_eq by (unfold weights; rewrite map_length, seq_length; auto).
    eapply ev_cast; [exact V3| | |auto].
    + destruct o as [[x y]|]; cbn [both]; [|reflexivity]. f_equal. f_equal; ring.
    + f_equal; f_equal; lia.
Qed.
Lemma param_ev bs (rho : nat -> nat -> E) F G (d g : E) size e u v o u' v' p q : 1 <= bs -> (0 <= size)%Z -> compared bs rho (Z.to_nat size) u v o u' v' ->
  exists r, ev (verify_param bs rho d g size e) (at_ F defBuf p u, at_ G defBuf q v) r
    (at_ F defBuf (p + length u - length u') u', at_ G defBuf (q + length v - length v') v') none /\ (r = Ok tt <-> agrees d g o).
Proof.
  intros B Sz C. unfold verify_param, aggregate. destruct (Z.ltb_spec size 0) as [Y|_]; [lia|].
  destruct (compared_ev bs rho F G B _ _ _ _ _ _ C (Z.to_nat size) (repeat 0 (Z.to_nat size)) 0 0 p q (le_n _)) as [e0 V]; [rewrite repeat_length; lia|].
  destruct o as [[x y]|]; cbn [agrees].
  - rewrite (ltac:(ring) : 0 + x = x), (ltac:(ring) : 0 + y = y) in V. unfold require, same_ratio. destruct (feqb (x * d) (y * g)) eqn:Q.
    + exists (Ok tt). split; [eapply evb; [apply ev_try_ok, V|]; cbv iota beta; unfold require, same_ratio; rewrite Q; apply ev_ret|].
      apply feqb_ok in Q. tauto.
    + exists (Err e). split; [eapply evb; [apply ev_try_ok, V|]; cbv iota beta; unfold require, same_ratio; rewrite Q; apply ev_throw|].
      split; [discriminate|]. intros X. apply feqb_ok in X. congruence.
  - exists (Ok tt). split; [|tauto]. eapply evb; [eapply ev_try_err, V|]. apply ev_ret.
Qed.
Lemma follows2_iff (x : E) ch (c : contrib2 E) : follows2 x ch c <-> verify_contrib2 c x ch = None.
Proof.
  unfold follows2, verify_contrib2, known, stepA. cbv zeta. change (@gen_sp E) with (@chal E). unfold same_ratio.
  assert (HH : compute_hash2 c = sha E (enc_vals (rec2_vals c))).
  { unfold compute_hash2. destruct c as [cd [k1 k2 k3] ch0]. reflexivity. }
  rewrite HH. split.
  - intros [H1 [H2 H3]]. rewrite (proj2 (feqb_ok _ _ _) H1), (proj2 (feqb_ok _ _ _) H2). cbn [check]. rewrite H3, bytes_eqb_refl. reflexivity.
  - destruct (feqb _ _) eqn:Q1; [|discriminate]. cbn [check]. destruct (feqb (d_delta c * _) _) eqn:Q2; [|discriminate]. cbn [check].
    destruct (bytes_eqb _ _) eqn:Q3; [|discriminate]. intros _. apply feqb_ok in Q1, Q2. apply bytes_eqb_eq in Q3. auto.
Qed.
Lemma linked2_iff : forall l (x : E) ch, linked2 x ch l <-> chain2_err x ch l = None.
Proof.
  induction l as [|c l IH]; intros x ch; [split; [reflexivity|exact (fun _ => I)]|]. cbn [linked2 chain2_err]. rewrite follows2_iff, IH.
  destruct (verify_contrib2 c x ch); [split; [intros [X _]; discriminate|discriminate]|tauto].
Qed.
Lemma chain2_run file : forall (l : list (contrib2 E)) p rest s (x pd : E) ph, seen2 p rest l -> getr false s = at_ file defBuf p rest -> chain2_err pd ph l = None ->
  exists s', ev (verify_chain2 (length l) x pd ph) s (Ok (last (map d_delta l) x, map d_hash l)) s' none.
Proof.
  induction l as [|c l IH]; intros p rest s x pd ph S G C; [exists s; apply ev_ret|].
  inversion S as [|off pb t c' l' A N hb D S' Q1 Q2 Q3]; subst. cbn [chain2_err] in C. destruct (verify_contrib2 c pd ph) eqn:V; [discriminate|].
  destruct (IH _ _ _ (d_delta c) (d_delta c) (d_hash c) S' (getr_setr false _ s) C) as [s' W]. exists s'. cbn [length verify_chain2].
  eapply evb; [eapply (ev_read_seen false file p c pb t s A N D G)|]. rewrite V. eapply evb; [exact W|]. cbn [map]. rewrite last_cons. apply ev_ret.
Qed.
Lemma hdr_eq_iff (h h0 : hdr) : hdr_eqb h h0 = true <-> h0 = set_contribs h (h_contribs h0).
Proof.
  destruct h as [a b c d e f g], h0 as [a0 b0 c0 d0 e0 f0 g0]. unfold hdr_eqb, set_contribs. cbn [h_wires h_witness h_public h_privc h_cons h_domain h_contribs].
  rewrite !andb_true_iff, !Z.eqb_eq. split; [intros [[[[[-> ->] ->] ->] ->] ->]; reflexivity|]. intros Q. injection Q as -> -> -> -> -> ->. tauto.
Qed.

Lemma v2_if bs (rho : nat -> nat -> nat -> E) h h0 t t0 hs : 1 <= bs -> hdr_ok h -> hdr_ok h0 ->
  accepts2 bs rho h h0 (length (gob_hdr h)) t t0 hs -> exec (verify2 bs rho) (gob_hdr h ++ t) (gob_hdr h0 ++ t0) = (Ok hs, []).
Proof.
  intros B HO HO0 [N0 [HE [DM [WT [b1 [b2 [u [d1 [d2 [c1 [c2 [v [g1 [g2 [-> [I1 [I2 [-> [J1 [J2 [SR
    [o1 [u1 [v1 [o2 [u2 [v2 [l [C1 [A1 [C2 [A2 [LL [SN [LK [LD ->]]]]]]]]]]]]]]]]]]]]]]]]]]]]]]]]]]]].
  pose proof (domain_int64 h HO) as DI. unfold int64 in DI.
  set (F := gob_hdr h ++ _) in *. set (G := gob_hdr h0 ++ _) in *.
  assert (EV : exists s', ev (verify2 bs rho) (opened F, opened G) (Ok (map d_hash l)) s' none).
  { unfold verify2.
    assert (Q : exists s', ev (cur <- read_hdr2 (E := E) false ;; org <- read_hdr2 (E := E) true ;; require (negb (h_contribs cur =? 0)%Z) ENoContrib ;;;
      require (hdr_eqb cur org) EHeader ;;; g1 <- decode1 (E := E) true ;; g2 <- decode2 (E := E) true ;; d1 <- decode1 (E := E) false ;; d2 <- decode2 (E := E) false ;;
      require (same_ratio g1 d1 d2 g2) EDelta ;;;
      verify_param bs (rho 0%nat) d2 g2 (wrap64 (h_domain cur - 1)) EInconsZ ;;;
      verify_param bs (rho 1%nat) d2 g2 (h_witness cur) EInconsPKK ;;;
      '(delta, hs) <- verify_chain2 (Z.to_nat (h_contribs cur)) 0 g1 [] ;;
      require (feqb delta d1) ELastDelta ;;; Ret hs) (at_ F defBuf 0 F, at_ G defBuf 0 G) (Ok (map d_hash l)) s' none).
    2: { destruct Q as [s' Q]. exists s'. eapply ev_newrd0; [reflexivity|]. eapply ev_newrd0; [reflexivity|]. exact Q. }
    assert (R1 : ev (read_hdr2 (E := E) false) (at_ F defBuf 0 F, at_ G defBuf 0 G) (Ok h) (at_ F defBuf (length (gob_hdr h)) (b1 ++ b2 ++ u), at_ G defBuf 0 G) none)
      by (apply (ev_read_hdr (gob_alt (e := E)) false F defBuf 0 h (b1 ++ b2 ++ u) (at_ F defBuf 0 F, at_ G defBuf 0 G) defBuf_gob HO); reflexivity).
    assert (R2 : forall a, ev (read_hdr2 (E := E) true) (a, at_ G defBuf 0 G) (Ok h0) (a, at_ G defBuf (length (gob_hdr h0)) (c1 ++ c2 ++ v)) none)
      by (intros a; apply (ev_read_hdr (gob_alt (e := E)) true G defBuf 0 h0 (c1 ++ c2 ++ v) (a, at_ G defBuf 0 G) defBuf_gob HO0); reflexivity).
    assert (NZ : negb (h_contribs h =? 0)%Z = true) by (destruct (Z.eqb_spec (h_contribs h) 0); [contradiction|reflexivity]).
    assert (D1 : forall a p, ev (decode1 (E := E) true) (a, at_ G defBuf p (c1 ++ c2 ++ v)) (Ok g1) (a, at_ G defBuf (p + length c1) (c2 ++ v)) none)
      by (intros a p; apply (ev_decode1 true G defBuf p c1 g1 (c2 ++ v) (a, at_ G defBuf p (c1 ++ c2 ++ v)) defBuf_big J1 eq_refl)).
    assert (D2 : forall a p, ev (decode2 (E := E) true) (a, at_ G defBuf p (c2 ++ v)) (Ok g2) (a, at_ G defBuf (p + length c2) v) none)
      by (intros a p; apply (ev_decode2 true G defBuf p c2 g2 v (a, at_ G defBuf p (c2 ++ v)) defBuf_big J2 eq_refl)).
    assert (D3 : forall a p, ev (decode1 (E := E) false) (at_ F defBuf p (b1 ++ b2 ++ u), a) (Ok d1) (at_ F defBuf (p + length b1) (b2 ++ u), a) none)
      by (intros a p; apply (ev_decode1 false F defBuf p b1 d1 (b2 ++ u) (at_ F defBuf p (b1 ++ b2 ++ u), a) defBuf_big I1 eq_refl)).
    assert (D4 : forall a p, ev (decode2 (E := E) false) (at_ F defBuf p (b2 ++ u), a) (Ok d2) (at_ F defBuf (p + length b2) u, a) none)
      by (intros a p; apply (ev_decode2 false F defBuf p b2 d2 u (at_ F defBuf p (b2 ++ u), a) defBuf_big I2 eq_refl)).
    set (p0 := (length (gob_hdr h) + length b1 + length b2)%nat). set (q0 := (length (gob_hdr h0) + length c1 + length c2)%nat).
    destruct (param_ev bs (rho 0%nat) F G d2 g2 (h_domain h - 1) EInconsZ u v o1 u1 v1 p0 q0 B ltac:(lia) C1) as [r1 [V1 Q1]].
    destruct (param_ev bs (rho 1%nat) F G d2 g2 (h_witness h) EInconsPKK u1 v1 o2 u2 v2 (p0 + length u - length u1) (q0 + length v - length v1) B WT C2) as [r2 [V2 Q2]].
    apply Q1 in A1. subst r1. apply Q2 in A2. subst r2.
    apply compared_len in C1 as [K1 K2]. apply compared_len in C2 as [K3 K4].
    apply linked2_iff in LK.
    replace (p0 + length u - length u1 + length u1 - length u2)%nat with (length (gob_hdr h) + length (b1 ++ b2 ++ u) - length u2)%nat in V2 by (rewrite !app_length; unfold p0; lia).
    match type of V2 with ev _ _ _ ?st _ => destruct (chain2_run F l _ u2 st 0 g1 [] SN eq_refl LK) as [s' V3] end. exists s'.
    eapply evb; [exact R1|]. eapply evb; [apply R2|]. rewrite NZ. unfold require at 1. cbn [bind].
    rewrite (proj2 (hdr_eq_iff h h0) HE). unfold require at 1. cbn [bind].
    eapply evb; [apply D1|]. eapply evb; [apply D2|]. eapply evb; [apply D3|]. eapply evb; [apply D4|].
    unfold same_ratio. rewrite (proj2 (feqb_ok _ _ _) SR). unfold require at 1. cbn [bind].
    rewrite wrap64_small by lia.
    eapply evb; [exact V1|]. eapply evb; [exact V2|]. rewrite <- LL. eapply evb; [exact V3|].
    cbv beta iota. rewrite LD, (proj2 (feqb_ok _ d1 d1) eq_refl). apply ev_ret. }
  destruct EV as [s' EV]. apply ev_exec in EV. exact EV.
Qed.
Lemma v2_only bs (rho : nat -> nat -> nat -> E) h h0 t t0 hs : 1 <= bs -> hdr_ok h -> hdr_ok h0 -> (- two63 < h_domain h)%Z ->
  fst (exec (verify2 bs rho) (gob_hdr h ++ t) (gob_hdr h0 ++ t0)) = Ok hs -> accepts2 bs rho h h0 (length (gob_hdr h)) t t0 hs.
Proof.
  intros B HO HO0 DM H. pose proof (domain_int64 h HO) as DI. unfold int64 in DI.
  set (F := gob_hdr h ++ t) in *. set (G := gob_hdr h0 ++ t0) in *.
  destruct (exec (verify2 bs rho) F G) as [r dd] eqn:X. cbn [fst] in H. subst r.
  apply exec_ev in X as [s' [D [X _]]]. unfold verify2 in X. do 2 apply newrd_inv in X. cbn [getr setr fst snd] in X. unfold opened in X. rewrite !rd_buf_at in X.
  assert (R1 : ev (read_hdr2 (E := E) false) (at_ F defBuf 0 F, at_ G defBuf 0 G) (Ok h) (at_ F defBuf (length (gob_hdr h)) t, at_ G defBuf 0 G) none)
    by (apply (ev_read_hdr (gob_alt (e := E)) false F defBuf 0 h t (at_ F defBuf 0 F, at_ G defBuf 0 G) defBuf_gob HO); reflexivity).
  assert (R2 : forall a, ev (read_hdr2 (E := E) true) (a, at_ G defBuf 0 G) (Ok h0) (a, at_ G defBuf (length (gob_hdr h0)) t0) none)
    by (intros a; apply (ev_read_hdr (gob_alt (e := E)) true G defBuf 0 h0 t0 (a, at_ G defBuf 0 G) defBuf_gob HO0); reflexivity).
  apply bind_ok_inv in X as [x1 [s1 [? [? [R [X _]]]]]]. destruct (ev_det _ _ _ _ _ _ _ _ R R1) as [Q [-> _]]. injection Q as ->. clear R.
  apply bind_ok_inv in X as [x2 [s1 [? [? [R [X _]]]]]]. destruct (ev_det _ _ _ _ _ _ _ _ R (R2 _)) as [Q [-> _]]. injection Q as ->. clear R.
  apply require_inv in X as [N0 X]. apply require_inv in X as [HE X].
  apply bind_ok_inv in X as [g1 [s1 [? [? [R [X _]]]]]]. destruct (d1i _ _ _ _ _ _ _ _ R eq_refl) as [c1 [t1 [T1 [J1 ->]]]]. clear R. cbn [setr fst snd] in X.
  apply bind_ok_inv in X as [g2 [s1 [? [? [R [X _]]]]]]. destruct (d2i _ _ _ _ _ _ _ _ R eq_refl) as [c2 [v [T2 [J2 ->]]]]. clear R. cbn [setr fst snd] in X.
  apply bind_ok_inv in X as [d1 [s1 [? [? [R [X _]]]]]]. destruct (d1i _ _ _ _ _ _ _ _ R eq_refl) as [b1 [t3 [T3 [I1 ->]]]]. clear R. cbn [setr fst snd] in X.
  apply bind_ok_inv in X as [d2 [s1 [? [? [R [X _]]]]]]. destruct (d2i _ _ _ _ _ _ _ _ R eq_refl) as [b2 [u [T4 [I2 ->]]]]. clear R. cbn [setr fst snd] in X.
  apply require_inv in X as [SR X]. rewrite wrap64_small in X by lia.
  apply bind_ok_inv in X as [[] [s1 [? [? [R [X _]]]]]].
  assert (Pos : forall n rr e (a : E) st s2 d2', ev (verify_param bs rr a g2 n e) st (Ok tt) s2 d2' -> (0 <= n)%Z).
  { intros n rr e a st s2 d2' Y. destruct (Z.lt_ge_cases n 0) as [L|L]; [|exact L]. exfalso. unfold verify_param, aggregate in Y.
    destruct (Z.ltb_spec n 0) as [_|L']; [|lia]. destruct Y as [w [Y _]]. cbn in Y. discriminate Y. }
  pose proof (Pos _ _ _ _ _ _ _ R) as P1.
  destruct (compared_total bs (rho 0%nat) B (Z.to_nat (h_domain h - 1)) u v) as [o1 [u1 [v1 C1]]].
  destruct (param_ev bs (rho 0%nat) F G d2 g2 _ EInconsZ u v o1 u1 v1 (length (gob_hdr h) + length b1 + length b2) (length (gob_hdr h0) + length c1 + length c2) B P1 C1) as [r1 [V1 Q1]].
  destruct (ev_det _ _ _ _ _ _ _ _ R V1) as [<- [-> _]]. clear R V1.
  apply bind_ok_inv in X as [[] [s1 [? [? [R [X _]]]]]]. pose proof (Pos _ _ _ _ _ _ _ R) as P2.
  destruct (compared_total bs (rho 1%nat) B (Z.to_nat (h_witness h)) u1 v1) as [o2 [u2 [v2 C2]]].
  match type of R with ev _ (at_ _ _ ?pp _, at_ _ _ ?qq _) _ _ _ => destruct (param_ev bs (rho 1%nat) F G d2 g2 _ EInconsPKK u1 v1 o2 u2 v2 pp qq B P2 C2) as [r2 [V2 Q2]] end.
  destruct (ev_det _ _ _ _ _ _ _ _ R V2) as [<- [-> _]]. clear R V2.
  apply bind_ok_inv in X as [[y hs'] [s5 [? [? [C [X _]]]]]].
  apply require_inv in X as [LD X]. destruct X as [w [X _]]. injection X as -> _ _.
  match type of C with ev _ ?st _ _ _ => destruct (chain2_seen _ _ F u2 st _ _ _ _ _ _ _ eq_refl C) as [l [LL [SN [CE [-> ->]]]]] end.
  pose proof (compared_len _ _ _ _ _ _ _ _ C1) as [K1 K2]. pose proof (compared_len _ _ _ _ _ _ _ _ C2) as [K3 K4].
  split; [destruct (Z.eqb_spec (h_contribs h) 0); [discriminate N0|assumption]|]. split; [now apply hdr_eq_iff|]. split; [lia|]. split; [exact P2|].
  exists b1, b2, u, d1, d2, c1, c2, v, g1, g2. split; [congruence|]. split; [exact I1|]. split; [exact I2|]. split; [congruence|]. split; [exact J1|]. split; [exact J2|].
  split; [apply feqb_ok in SR; exact SR|]. exists o1, u1, v1, o2, u2, v2, l. split; [exact C1|]. split; [now apply Q1|]. split; [exact C2|]. split; [now apply Q2|].
  split; [exact LL|]. split; [|split; [now apply linked2_iff|split; [apply feqb_ok in LD; exact LD|reflexivity]]].
  match type of SN with seen2 ?a _ _ => replace (length (gob_hdr h) + length t - length u2)%nat with a by (rewrite T3, T4, !app_length; lia) end. exact SN.
Qed.
Lemma v2_iff bs (rho : nat -> nat -> nat -> E) h h0 t t0 hs : 1 <= bs -> hdr_ok h -> hdr_ok h0 -> (- two63 < h_domain h)%Z ->
  (exec (verify2 bs rho) (gob_hdr h ++ t) (gob_hdr h0 ++ t0) = (Ok hs, []) <-> accepts2 bs rho h h0 (length (gob_hdr h)) t t0 hs).
Proof.
  intros B HO HO0 DM. split; [|apply v2_if; assumption]. intros X. apply v2_only; try assumption. now rewrite X.
Qed.
End V.
