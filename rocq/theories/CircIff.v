(* CircIff.v -- which circuits p2n accepts. *)
From Coq Require Import String Sorted.
From Verif Require Import Base Fld IO Ext Spec1 Phase1 Phase1Io Phase1Verify Phase1Inv Gob GobLemmas Circuit Spec2 Phase2 Phase2Io Phase2Lemmas Spec3 Fs Init2 Init2Pure Init2Io Init2Claims Init2More Spec21 Vt KeysLemmas Safe Spec32 NewIff Spec33.
Local Open Scope fld_scope.

Section C.
Context {E : Ext2}.
Lemma accumulate_only (cs : r1cs E) r t v x : accumulate cs r t v = Some x -> (t_coeff t < 4)%nat \/ (t_coeff t < length (r_coeffs cs))%nat.
Proof.
  unfold accumulate. destruct (t_coeff t) as [|[|[|[|n]]]]; try (left; lia). intros H. right.
  destruct (nth_error (r_coeffs cs) (S (S (S (S n))))) eqn:N; [|discriminate]. apply nth_error_Some. congruence.
Qed.
Lemma acc_terms_only (cs : r1cs E) srs i ts : forall buff b, length buff = wires cs -> acc_terms cs srs i ts buff = Some b ->
  length b = wires cs /\ forall t, In t ts -> term_ok cs t.
Proof.
  induction ts as [|t ts IH]; intros buff b L H; cbn [acc_terms] in H; [injection H as <-; split; [exact L|intros t []]|].
  destruct (nth_error buff (t_wire t)) as [r|] eqn:N1; [|discriminate]. destruct (nth_error srs i) as [v|]; [|discriminate].
  destruct (accumulate cs r t v) as [x|] eqn:A; [|discriminate].
  assert (W : (t_wire t < length buff)%nat) by (apply nth_error_Some; congruence).
  apply IH in H; [|now rewrite upd_length].
  destruct H as [Lb H]. split; [exact Lb|]. intros t' [<- | Ht]; [|auto]. split; [lia|]. eapply accumulate_only; eauto.
Qed.
Lemma acc_cons_only (cs : r1cs E) sel srs cons : forall i buff b, length buff = wires cs -> acc_cons cs sel srs i cons buff = Some b ->
  length b = wires cs /\ forall c, In c cons -> forall t, In t (sel c) -> term_ok cs t.
Proof.
  induction cons as [|c cons IH]; intros i buff b L H; cbn [acc_cons] in H; [injection H as <-; split; [exact L|intros c []]|].
  destruct (acc_terms cs srs i (sel c) buff) as [b1|] eqn:A; [|discriminate].
  destruct (acc_terms_only _ _ _ _ _ _ L A) as [L1 T]. destruct (IH _ _ _ L1 H) as [Lb R].
  split; [exact Lb|]. intros c' [<- | Hc]; eauto.
Qed.
Lemma orBoom_inv {X Y} (o : option X) (k : X -> io Y) s y s' d : ev (orBoom o k) s (Ok y) s' d -> exists x, o = Some x /\ ev (k x) s (Ok y) s' d.
Proof. destruct o as [x|]; cbn [orBoom]; intros H; [eauto|]. destruct H as [w [H _]]. discriminate. Qed.

Lemma body_only (cs : r1cs E) nb dom st s' d : ev (process_eval_body cs (Some (r_cons cs)) (header2_of cs nb dom)) st (Ok tt) s' d ->
  forall c, In c (r_cons cs) -> forall t, In t (r_L c ++ r_R c) -> term_ok cs t.
Proof.
  intros H. unfold process_eval_body in H. rewrite zeros_wires in H.
  apply bind_ok_inv in H as [srs [s1 [d1 [d2 [_ [H _]]]]]]. cbn [orBoom] in H.
  apply orBoom_inv in H as [bA [EA H]]. apply acc_cons_only in EA as [_ EA]; [|apply repeat_length].
  apply bind_ok_inv in H as [[] [s2 [d3 [d4 [_ [H _]]]]]].
  apply orBoom_inv in H as [bB [EB _]]. apply acc_cons_only in EB as [_ EB]; [|apply repeat_length].
  intros c Hc t Ht. apply in_app_iff in Ht as [Ht|Ht]; eauto.
Qed.
Lemma pvckk_only (cs : r1cs E) nb dom st s' d : let h := header2_of cs nb dom in
  ev (process_pvckk cs (Some (r_cons cs)) h) st (Ok tt) s' d ->
  (forall c, In c (r_cons cs) -> forall t, In t (r_O c) -> term_ok cs t) /\
  exists L : list E, length L = wires cs /\ filterL L h (r_cmt cs) <> None.
Proof.
  intros h H. unfold process_pvckk in H. unfold h in H at 1. rewrite zeros_wires in H. fold h in H.
  apply newrd_inv in H. apply newwr_inv, flush_inv in H.
  apply bind_ok_inv in H as [srs [s1 [d1 [d2 [_ [H _]]]]]]. cbn [orBoom] in H.
  apply orBoom_inv in H as [L1 [E1 H]]. apply acc_cons_only in E1 as [N1 E1]; [|apply repeat_length].
  apply bind_ok_inv in H as [srs2 [s2 [d3 [d4 [_ [H _]]]]]].
  apply orBoom_inv in H as [L2 [E2 H]]. apply acc_cons_only in E2 as [N2 _]; [|exact N1].
  apply bind_ok_inv in H as [srs3 [s3 [d5 [d6 [_ [H _]]]]]].
  apply orBoom_inv in H as [L3 [E3 H]]. apply acc_cons_only in E3 as [N3 _]; [|exact N2].
  apply orBoom_inv in H as [x [EF _]].
  split; [exact E1|]. exists L3. split; [exact N3|]. congruence.
Qed.

Lemma p2n_circuit f p1 r1 p2 f' rb (cs : r1cs E) : p2n (E := E) p1 r1 p2 f = (Ok tt, f') -> names_ok p1 r1 p2 ->
  f r1 = Some rb -> parse_r1cs rb = Some cs ->
  circuit_ok cs /\ exists dom (L : list E), length L = wires cs /\ filterL L (header2_of cs (Z.of_nat (length (r_cons cs))) dom) (r_cmt cs) <> None.
Proof.
  intros H [N1 [N2 [N3 [N4 [N5 [N6 [N7 N8]]]]]]] R1 R2. unfold p2n in H.
  apply cbind_inv in H as [[] [f0 [H0 H]]]. apply copen_inv in H0 as ->.
  apply cbind_inv in H as [[] [f1 [H1 H]]]. unfold ccreate in H1. injection H1 as <-.
  assert (C1 : fset f p2 [] r1 = Some rb) by (rewrite fset_other; auto).
  unfold init_steps in H.
  assert (Q : forall g (c : r1cs E) g', g r1 = Some rb -> read_r1cs r1 g = (Ok c, g') -> g' = g /\ c = cs).
  { intros g c g' G X. apply read_r1cs_inv in X as [-> [rb' [X1 X2]]]. split; [auto|]. congruence. }
  apply cbind_inv in H as [c2 [f2 [H2 H]]]. apply Q in H2 as [-> ->]; [|exact C1].
  apply cbind_inv in H as [[pw h] [f3 [H3 H]]].
  destruct (stage_only _ _ _ _ _ _ _ H3) as [s' [d [EV O3]]].
  destruct (process_header_inv _ _ (opened (contents (fset f p2 []) p1), opened (contents (fset f p2 []) p1)) (contents (fset f p2 []) p1) _ _ _ _ eq_refl EV) as [dom [t [D1 [D2 [D3 [D4 _]]]]]].
  assert (C3 : f3 r1 = Some rb) by (rewrite O3; [auto|cbn; intros [X|[]]; congruence]).
  cbn beta iota in H. apply cbind_inv in H as [[] [f4 [H4 H]]].
  unfold c_lagrange in H4. destruct (new_domain _) as [k'|]; [|discriminate].
  apply cbind_inv in H4 as [[] [f5 [H5 H4]]]. unfold ccreate in H5. injection H5 as <-.
  destruct (stage_only _ _ _ _ _ _ _ H4) as [s4 [e4 [_ O4]]].
  assert (C4 : f4 r1 = Some rb) by (rewrite O4; [rewrite fset_other; auto|cbn; intros [X|[X|[]]]; congruence]).
  apply cbind_inv in H as [[] [f6 [H6 H]]]. apply copen_inv in H6 as ->.
  apply cbind_inv in H as [[] [f7 [H7 H]]]. unfold ccreate in H7. injection H7 as <-.
  apply cbind_inv in H as [[] [f8 [H8 H]]]. destruct (stage_only _ _ _ _ _ _ _ H8) as [_ [_ [_ O8]]].
  assert (C8 : f8 r1 = Some rb) by (rewrite O8; [rewrite fset_other; auto|cbn; intros [Y|[Y|[Y|[]]]]; congruence]).
  apply cbind_inv in H as [c9 [f9 [H9 H]]]. apply Q in H9 as [-> ->]; [|exact C8].
  apply cbind_inv in H as [[] [f10 [H10 H]]]. destruct (stage_only _ _ _ _ _ _ _ H10) as [s10 [e10 [EV10 O10]]].
  assert (C10 : f10 r1 = Some rb) by (rewrite O10; [auto|cbn; intros [Y|[Y|[Y|[]]]]; congruence]).
  apply cbind_inv in H as [[] [f11 [H11 H]]]. destruct (stage_only _ _ _ _ _ _ _ H11) as [_ [_ [_ O11]]].
  assert (C11 : f11 r1 = Some rb) by (rewrite O11; [auto|cbn; intros [Y|[Y|[Y|[]]]]; congruence]).
  apply cbind_inv in H as [[] [f12 [H12 H]]]. apply copen_inv in H12 as ->.
  apply cbind_inv in H as [c13 [f13 [H13 H]]]. apply Q in H13 as [-> ->]; [|exact C11].
  destruct (stage_only _ _ _ _ _ _ _ H) as [s14 [e14 [EV14 _]]]. subst h.
  pose proof (body_only _ _ _ _ _ _ EV10) as B. destruct (pvckk_only _ _ _ _ _ _ EV14) as [O [L [LL FL]]].
  split; [|eauto]. intros c Hc t0 Ht. rewrite app_assoc in Ht. apply in_app_iff in Ht as [Ht|Ht]; eauto.
Qed.
Lemma servable_only (cs : r1cs E) nb dom (L : list E) : cmt_written cs -> length L = wires cs ->
  filterL L (header2_of cs nb dom) (r_cmt cs) <> None -> servable cs.
Proof.
  intros [pubs [privs [C1 [C2 [C3 [C4 [C5 C6]]]]]]] HL HF. destruct privs as [|w privs].
  - destruct (cm_committed (r_cmt cs)) as [|x l] eqn:EC; [now left|]. right. cbn in C2. split; [exact C2|].
    specialize (C6 ltac:(discriminate)). destruct (Nat.eq_dec (cm_index (r_cmt cs)) (nb_public cs)) as [|NE]; [auto|].
    exfalso. apply HF. apply filterL_far; auto; [congruence|lia].
  - exfalso. apply HF. eapply filterL_priv; eauto; [|discriminate]. intros i v N. split.
    + enough (1 + i <= v) by lia. eapply sorted_above; eauto. eapply Forall_impl; [|exact C4]. cbn. intros. lia.
    + rewrite Forall_forall in C4. apply C4. eapply nth_error_In; eauto.
Qed.
Lemma servable_split (cs : r1cs E) nb dom : cmt_written cs -> servable cs -> exists n, forall L : list E, length L = wires cs ->
  filterL L (header2_of cs nb dom) (r_cmt cs) = Some (skipn n L, firstn n L, []).
Proof.
  intros [pubs [privs [C1 [C2 [C3 [C4 [C5 C6]]]]]]] S. destruct (cm_committed (r_cmt cs)) as [|x l] eqn:EC.
  - exists (nb_public cs). intros L HL. apply filterL_nocmt; [|exact HL]. split; [exact EC|].
    symmetry in C1. apply app_eq_nil in C1 as [_ ->]. exact C2.
  - destruct S as [S|[S1 S2]]; [congruence|]. specialize (C6 ltac:(discriminate)).
    exists (S (nb_public cs)). intros L HL. apply filterL_pubcmt; auto; [congruence|lia].
Qed.

Lemma circ_if p k (S0 : srs E) (cs : r1cs E) f p1 r1 p2 rest rb : names_ok p1 r1 p2 -> p <= 54 ->
  f p1 = Some (b8 (N.of_nat p) :: rest) -> f r1 = Some rb -> parse_r1cs rb = Some cs -> circuit_ok cs -> cmt_written cs -> servable cs ->
  length (r_cons cs) <= 2 ^ p -> is_dom (length (r_cons cs)) k -> k <= kmax E -> k <= 27 -> uses p k (b8 (N.of_nat p) :: rest) S0 ->
  exists f', p2n (E := E) p1 r1 p2 f = (Ok tt, f').
Proof.
  intros HN Hp F1 R1 R2 Hok HC HS L1 KD KM K27 HU. destruct (uses_seen p k _ S0 ltac:(eauto) HU) as [HE HV].
  rewrite (p2n_start _ _ _ _ _ F1). pose proof HN as [N1 [N2 _]].
  assert (K : next_pow2 (Z.of_nat (length (r_cons cs))) = Some (Z.of_nat (2 ^ k))).
  { assert (L2 : (Z.of_nat (length (r_cons cs)) <= 2 ^ 27)%Z).
    { destruct KD as [_ [D2 _]]. pose proof (pow2_le k 27 K27). change (2 ^ Z.of_nat 27)%Z with (2 ^ 27)%Z in *. lia. }
    destruct (dom_ex _ L2) as [k' [_ [KD' K]]].
    assert (k = k') by (destruct KD as [A1 [A2 A3]], KD' as [B1 [B2 B3]]; specialize (A3 k' B1 B2); specialize (B3 k A1 A2); lia).
    now subst. }
  destruct (servable_split cs (Z.of_nat (length (r_cons cs))) (Z.of_nat (2 ^ k)) HC HS) as [n SP].
  destruct (init_steps_gen p k (b8 (N.of_nat p) :: rest) S0 cs (fset f p2 []) p1 r1 p2 (read_r1cs r1) (fun cs => Some (r_cons cs))
    (fun cs => Z.of_nat (length (r_cons cs))) HN Hp HE HV (eq_trans (fset_other _ _ _ _ (not_eq_sym N1)) F1) (fset_same _ _ _))
    with (pkk := fun t a b => skipn n (Lsum cs t a b)) (vkk := fun t a b => firstn n (Lsum cs t a b)) (ckk := fun t a b : list E => @nil E)
    as [f' [t [a [b [t2 [z [S _]]]]]]]; auto.
  - intros g Hg. apply read_r1cs_ok with (rb := rb); auto. destruct HN as [_ [_ [_ [_ [N5 [N6 _]]]]]].
    now rewrite (Hg r1), fset_other by auto.
  - intros t a b. apply SP. unfold Lsum. now rewrite map_length, seq_length.
  - eauto.
Qed.
Lemma circ_iff p k rest rb (cs : r1cs E) f p1 r1 p2 : names_ok p1 r1 p2 -> p <= 54 ->
  f p1 = Some (b8 (N.of_nat p) :: rest) -> f r1 = Some rb -> parse_r1cs rb = Some cs -> cmt_written cs ->
  is_dom (length (r_cons cs)) k ->
  ((exists f', p2n (E := E) p1 r1 p2 f = (Ok tt, f')) <->
   circuit_ok cs /\ servable cs /\
   length (r_cons cs) <= 2 ^ p /\ k <= kmax E /\ k <= 27 /\ exists S0 : srs E, uses p k (b8 (N.of_nat p) :: rest) S0).
Proof.
  intros HN Hp F1 R1 R2 HC KD. split.
  - intros [f' H]. destruct (p2n_circuit _ _ _ _ _ _ _ H HN R1 R2) as [Hok [dom [L [LL FL]]]].
    split; [exact Hok|]. split; [eapply servable_only; eauto|].
    destruct (p2n_only p _ _ _ _ _ _ H HN Hp F1) as [rb' [cs' [k' [S0 [R1' [R2' [KD' [KM [K27 [LE U]]]]]]]]]].
    rewrite R1 in R1'. injection R1' as <-. rewrite R2 in R2'. injection R2' as <-.
    assert (k = k') by (destruct KD as [A1 [A2 A3]], KD' as [B1 [B2 B3]]; specialize (A3 k' B1 B2); specialize (B3 k A1 A2); lia).
    subst k'. eauto 6.
  - intros [Hok [HS [L [KM [K27 [S0 U]]]]]]. eapply (circ_if p k S0); eauto.
Qed.
Lemma circ_terms f p1 r1 p2 f' rb (cs : r1cs E) : p2n (E := E) p1 r1 p2 f = (Ok tt, f') -> names_ok p1 r1 p2 ->
  f r1 = Some rb -> parse_r1cs rb = Some cs -> circuit_ok cs.
Proof. intros H HN R1 R2. exact (proj1 (p2n_circuit _ _ _ _ _ _ _ H HN R1 R2)). Qed.
End C.
