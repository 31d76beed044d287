(* StrictIff.v -- the files that the p2v of Strict2.v accepts. *)
From Coq Require Import Ring Field.
From Verif Require Import Base Fld Conc Parallel IO Ext Spec1 Phase1 Phase1Io Phase1Verify Phase1Trans Phase1Facts Phase1Inv Phase1Claims Gob GobLemmas Circuit Spec2 Phase2 Phase2Io Phase2Lemmas Phase2Claims Phase2More Safe2 Safe Spec4 KeysLemmas Spec27 Torn Shown Cut1 KeyIff Spec30 V1Iff Spec31 V2Iff CutOrigin Cut4 Strict2.
Local Open Scope fld_scope.
Local Open Scope io_scope.

Section S.
Context {E : Ext2}.
Add Field EF : (f_th E).
(* as agrees in Spec31.v, but an error counts *)
Definition sagrees (d g : E) (o : option (E * E)) : Prop := match o with Some (x, y) => x * d = y * g | None => False end.
Definition accepts2s (bs : nat) (rho : nat -> nat -> nat -> E) (h h0 : hdr) (hb : nat) (t t0 : bytes) (hs : list bytes) : Prop :=
  h_contribs h <> 0%Z /\ h0 = set_contribs h (h_contribs h0) /\ (1 <= h_domain h)%Z /\ (0 <= h_witness h)%Z /\
  exists b1 b2 u (d1 d2 : E) c1 c2 v g1 g2, t = b1 ++ b2 ++ u /\ is1 b1 d1 /\ is2 b2 d2 /\ t0 = c1 ++ c2 ++ v /\ is1 c1 g1 /\ is2 c2 g2 /\
  g1 * d2 = d1 * g2 /\
  exists o1 u1 v1 o2 u2 v2 (l : list (contrib2 E)),
  compared bs (rho 0%nat) (Z.to_nat (h_domain h - 1)) u v o1 u1 v1 /\ sagrees d2 g2 o1 /\
  compared bs (rho 1%nat) (Z.to_nat (h_witness h)) u1 v1 o2 u2 v2 /\ sagrees d2 g2 o2 /\
  length l = Z.to_nat (h_contribs h) /\ seen2 (hb + length t - length u2) u2 l /\ linked2 g1 [] l /\
  last (map d_delta l) 0 = d1 /\ hs = map d_hash l.

Lemma strict_ev bs (rho : nat -> nat -> E) F G (d g : E) size e u v o u' v' p q : 1 <= bs -> (0 <= size)%Z -> compared bs rho (Z.to_nat size) u v o u' v' ->
  exists r, ev (verify_param_strict bs rho d g size e) (at_ F defBuf p u, at_ G defBuf q v) r
    (at_ F defBuf (p + length u - length u') u', at_ G defBuf (q + length v - length v') v') none /\ (r = Ok tt <-> sagrees d g o).
Proof.
  intros B Sz C. unfold verify_param_strict, aggregate. destruct (Z.ltb_spec size 0) as [Y|_]; [lia|].
  destruct (compared_ev bs rho F G B _ _ _ _ _ _ C (Z.to_nat size) (repeat 0 (Z.to_nat size)) 0 0 p q (le_n _)) as [e0 V]; [rewrite repeat_length; lia|].
  destruct o as [[x y]|]; cbn [sagrees].
  - rewrite (ltac:(ring) : 0 + x = x), (ltac:(ring) : 0 + y = y) in V. unfold require, same_ratio. destruct (feqb (x * d) (y * g)) eqn:Q.
    + exists (Ok tt). split; [eapply evb; [exact V|]; cbv iota beta; unfold require, same_ratio; rewrite Q; apply ev_ret|].
      apply feqb_ok in Q. tauto.
    + exists (Err e). split; [eapply evb; [exact V|]; cbv iota beta; unfold require, same_ratio; rewrite Q; apply ev_throw|].
      split; [discriminate|]. intros X. apply feqb_ok in X. congruence.
  - exists (Err e0). split; [|split; [discriminate|intros []]]. apply ev_bind_err. exact V.
Qed.
Lemma v2s_if bs (rho : nat -> nat -> nat -> E) h h0 t t0 hs : 1 <= bs -> hdr_ok h -> hdr_ok h0 ->
  accepts2s bs rho h h0 (length (gob_hdr h)) t t0 hs -> exec (verify2_strict bs rho) (gob_hdr h ++ t) (gob_hdr h0 ++ t0) = (Ok hs, []).
Proof.
  intros B HO HO0 [N0 [HE [DM [WT [b1 [b2 [u [d1 [d2 [c1 [c2 [v [g1 [g2 [-> [I1 [I2 [-> [J1 [J2 [SR
    [o1 [u1 [v1 [o2 [u2 [v2 [l [C1 [A1 [C2 [A2 [LL [SN [LK [LD ->]]]]]]]]]]]]]]]]]]]]]]]]]]]]]]]]]]]].
  pose proof (domain_int64 h HO) as DI. unfold int64 in DI.
  set (F := gob_hdr h ++ _) in *. set (G := gob_hdr h0 ++ _) in *.
  assert (EV : exists s', ev (verify2_strict bs rho) (opened F, opened G) (Ok (map d_hash l)) s' none).
  { unfold verify2_strict.
    assert (Q : exists s', ev (cur <- read_hdr2 (E := E) false ;; org <- read_hdr2 (E := E) true ;; require (negb (h_contribs cur =? 0)%Z) ENoContrib ;;;
      require (hdr_eqb cur org) EHeader ;;; g1 <- decode1 (E := E) true ;; g2 <- decode2 (E := E) true ;; d1 <- decode1 (E := E) false ;; d2 <- decode2 (E := E) false ;;
      require (same_ratio g1 d1 d2 g2) EDelta ;;;
      verify_param_strict bs (rho 0%nat) d2 g2 (wrap64 (h_domain cur - 1)) EInconsZ ;;;
      verify_param_strict bs (rho 1%nat) d2 g2 (h_witness cur) EInconsPKK ;;;
      '(delta, hs) <- verify_chain2 (Z.to_nat (h_contribs cur)) 0 g1 [] ;;
      require (feqb delta d1) ELastDelta ;;; Ret hs) (at_ F defBuf 0 F, at_ G defBuf 0 G) (Ok (map d_hash l)) s' none).
    2: { destruct Q as [s' Q]. exists s'. eapply ev_newrd0; [reflexivity|]. eapply ev_newrd0; [reflexivity|]. exact Q. }
    assert (R1 : ev (read_hdr2 (E := E) false) (at_ F defBuf 0 F, at_ G defBuf 0 G) (Ok h) (at_ F defBuf (length (gob_hdr h)) (b1 ++ b2 ++ u), at_ G defBuf 0 G) none)
      by (apply (ev_read_hdr (gob_alt (e := E)) false F defBuf 0 h (b1 ++ b2 ++ u) (at_ F defBuf 0 F, at_ G defBuf 0 G) defBuf_gob HO); reflexivity).
    assert (R2 : forall a, ev (read_hdr2 (E := E) true) (a, at_ G defBuf 0 G) (Ok h0) (a, at_ G defBuf (length (gob_hdr h0)) (c1 ++ c2 ++ v)) none)
      by (intros a; apply (ev_read_hdr (gob_alt (e := E)) true G defBuf 0 h0 (c1 ++ c2 ++ v) (a, at_ G defBuf 0 G) defBuf_gob HO0); reflexivity).
    assert (NZ : negb (h_contribs h =? 0)%Z = true) by (destruct (Z.eqb_spec (h_contribs h) 0); [contradiction|reflexivity]).
    assert (D1 : forall a p, ev (decode1 (E := E) true) (a, at_ G defBuf p (c1 ++ c2 ++ v)) (Ok g1) (a, at_ G defBuf (p + length c1) (c2 ++ v)) none)
      by (intros a p; apply (ev_decode1 true G defBuf p c1 g1 (c2 ++ v) (a, at_ G defBuf p (c1 ++ c2 ++ v)) defBuf_big J1 eq_refl)).
    assert (D2 : forall a p, ev (decode2 (E := E) true) (a, at_ G defBuf p (c2 ++ v)) (Ok g2) (a, at_ G defBuf (p + length c2) v) none)
      by (intros a p; apply (ev_decode2 true G defBuf p c2 g2 v (a, at_ G defBuf p (c2 ++ v)) defBuf_big J2 eq_refl)).
    assert (D3 : forall a p, ev (decode1 (E := E) false) (at_ F defBuf p (b1 ++ b2 ++ u), a) (Ok d1) (at_ F defBuf (p + length b1) (b2 ++ u), a) none)
      by (intros a p; apply (ev_decode1 false F defBuf p b1 d1 (b2 ++ u) (at_ F defBuf p (b1 ++ b2 ++ u), a) defBuf_big I1 eq_refl)).
    assert (D4 : forall a p, ev (decode2 (E := E) false) (at_ F defBuf p (b2 ++ u), a) (Ok d2) (at_ F defBuf (p + length b2) u, a) none)
      by (intros a p; apply (ev_decode2 false F defBuf p b2 d2 u (at_ F defBuf p (b2 ++ u), a) defBuf_big I2 eq_refl)).
    set (p0 := (length (gob_hdr h) + length b1 + length b2)%nat). set (q0 := (length (gob_hdr h0) + length c1 + length c2)%nat).
    destruct (strict_ev bs (rho 0%nat) F G d2 g2 (h_domain h - 1) EInconsZ u v o1 u1 v1 p0 q0 B ltac:(lia) C1) as [r1 [V1 Q1]].
    destruct (strict_ev bs (rho 1%nat) F G d2 g2 (h_witness h) EInconsPKK u1 v1 o2 u2 v2 (p0 + length u - length u1) (q0 + length v - length v1) B WT C2) as [r2 [V2 Q2]].
    apply Q1 in A1. subst r1. apply Q2 in A2. subst r2.
    apply compared_len in C1 as [K1 K2]. apply compared_len in C2 as [K3 K4].
    apply linked2_iff in LK.
    replace (p0 + length u - length u1 + length u1 - length u2)%nat with (length (gob_hdr h) + length (b1 ++ b2 ++ u) - length u2)%nat in V2 by (rewrite !app_length; unfold p0; lia).
    match type of V2 with ev _ _ _ ?st _ => destruct (chain2_run F l _ u2 st 0 g1 [] SN eq_refl LK) as [s' V3] end. exists s'.
    eapply evb; [exact R1|]. eapply evb; [apply R2|]. rewrite NZ. unfold require at 1. cbn [bind].
    rewrite (proj2 (hdr_eq_iff h h0) HE). unfold require at 1. cbn [bind].
    eapply evb; [apply D1|]. eapply evb; [apply D2|]. eapply evb; [apply D3|]. eapply evb; [apply D4|].
    unfold same_ratio. rewrite (proj2 (feqb_ok _ _ _) SR). unfold require at 1. cbn [bind].
    rewrite wrap64_small by lia.
    eapply evb; [exact V1|]. eapply evb; [exact V2|]. rewrite <- LL. eapply evb; [exact V3|].
    cbv beta iota. rewrite LD, (proj2 (feqb_ok _ d1 d1) eq_refl). apply ev_ret. }
  destruct EV as [s' EV]. apply ev_exec in EV. exact EV.
Qed.
Lemma v2s_only bs (rho : nat -> nat -> nat -> E) h h0 t t0 hs : 1 <= bs -> hdr_ok h -> hdr_ok h0 -> (- two63 < h_domain h)%Z ->
  fst (exec (verify2_strict bs rho) (gob_hdr h ++ t) (gob_hdr h0 ++ t0)) = Ok hs -> accepts2s bs rho h h0 (length (gob_hdr h)) t t0 hs.
Proof.
  intros B HO HO0 DM H. pose proof (domain_int64 h HO) as DI. unfold int64 in DI.
  set (F := gob_hdr h ++ t) in *. set (G := gob_hdr h0 ++ t0) in *.
  destruct (exec (verify2_strict bs rho) F G) as [r dd] eqn:X. cbn [fst] in H. subst r.
  apply exec_ev in X as [s' [D [X _]]]. unfold verify2_strict in X. do 2 apply newrd_inv in X. cbn [getr setr fst snd] in X. unfold opened in X. rewrite !rd_buf_at in X.
  assert (R1 : ev (read_hdr2 (E := E) false) (at_ F defBuf 0 F, at_ G defBuf 0 G) (Ok h) (at_ F defBuf (length (gob_hdr h)) t, at_ G defBuf 0 G) none)
    by (apply (ev_read_hdr (gob_alt (e := E)) false F defBuf 0 h t (at_ F defBuf 0 F, at_ G defBuf 0 G) defBuf_gob HO); reflexivity).
  assert (R2 : forall a, ev (read_hdr2 (E := E) true) (a, at_ G defBuf 0 G) (Ok h0) (a, at_ G defBuf (length (gob_hdr h0)) t0) none)
    by (intros a; apply (ev_read_hdr (gob_alt (e := E)) true G defBuf 0 h0 t0 (a, at_ G defBuf 0 G) defBuf_gob HO0); reflexivity).
  apply bind_ok_inv in X as [x1 [s1 [? [? [R [X _]]]]]]. destruct (ev_det _ _ _ _ _ _ _ _ R R1) as [Q [-> _]]. injection Q as ->. clear R.
  apply bind_ok_inv in X as [x2 [s1 [? [? [R [X _]]]]]]. destruct (ev_det _ _ _ _ _ _ _ _ R (R2 _)) as [Q [-> _]]. injection Q as ->. clear R.
  apply require_inv in X as [N0 X]. apply require_inv in X as [HE X].
  apply bind_ok_inv in X as [g1 [s1 [? [? [R [X _]]]]]]. destruct (d1i _ _ _ _ _ _ _ _ R eq_refl) as [c1 [t1 [T1 [J1 ->]]]]. clear R. cbn [setr fst snd] in X.
  apply bind_ok_inv in X as [g2 [s1 [? [? [R [X _]]]]]]. destruct (d2i _ _ _ _ _ _ _ _ R eq_refl) as [c2 [v [T2 [J2 ->]]]]. clear R. cbn [setr fst snd] in X.
  apply bind_ok_inv in X as [d1 [s1 [? [? [R [X _]]]]]]. destruct (d1i _ _ _ _ _ _ _ _ R eq_refl) as [b1 [t3 [T3 [I1 ->]]]]. clear R. cbn [setr fst snd] in X.
  apply bind_ok_inv in X as [d2 [s1 [? [? [R [X _]]]]]]. destruct (d2i _ _ _ _ _ _ _ _ R eq_refl) as [b2 [u [T4 [I2 ->]]]]. clear R. cbn [setr fst snd] in X.
  apply require_inv in X as [SR X]. rewrite wrap64_small in X by lia.
  apply bind_ok_inv in X as [[] [s1 [? [? [R [X _]]]]]].
  assert (Pos : forall n rr e (a : E) st s2 d2', ev (verify_param_strict bs rr a g2 n e) st (Ok tt) s2 d2' -> (0 <= n)%Z).
  { intros n rr e a st s2 d2' Y. destruct (Z.lt_ge_cases n 0) as [L|L]; [|exact L]. exfalso. unfold verify_param_strict, aggregate in Y.
    destruct (Z.ltb_spec n 0) as [_|L']; [|lia]. destruct Y as [w [Y _]]. cbn in Y. discriminate Y. }
  pose proof (Pos _ _ _ _ _ _ _ R) as P1.
  destruct (compared_total bs (rho 0%nat) B (Z.to_nat (h_domain h - 1)) u v) as [o1 [u1 [v1 C1]]].
  destruct (strict_ev bs (rho 0%nat) F G d2 g2 _ EInconsZ u v o1 u1 v1 (length (gob_hdr h) + length b1 + length b2) (length (gob_hdr h0) + length c1 + length c2) B P1 C1) as [r1 [V1 Q1]].
  destruct (ev_det _ _ _ _ _ _ _ _ R V1) as [<- [-> _]]. clear R V1.
  apply bind_ok_inv in X as [[] [s1 [? [? [R [X _]]]]]]. pose proof (Pos _ _ _ _ _ _ _ R) as P2.
  destruct (compared_total bs (rho 1%nat) B (Z.to_nat (h_witness h)) u1 v1) as [o2 [u2 [v2 C2]]].
  match type of R with ev _ (at_ _ _ ?pp _, at_ _ _ ?qq _) _ _ _ => destruct (strict_ev bs (rho 1%nat) F G d2 g2 _ EInconsPKK u1 v1 o2 u2 v2 pp qq B P2 C2) as [r2 [V2 Q2]] end.
  destruct (ev_det _ _ _ _ _ _ _ _ R V2) as [<- [-> _]]. clear R V2.
  apply bind_ok_inv in X as [[y hs'] [s5 [? [? [C [X _]]]]]].
  apply require_inv in X as [LD X]. destruct X as [w [X _]]. injection X as -> _ _.
  match type of C with ev _ ?st _ _ _ => destruct (chain2_seen _ _ F u2 st _ _ _ _ _ _ _ eq_refl C) as [l [LL [SN [CE [-> ->]]]]] end.
  pose proof (compared_len _ _ _ _ _ _ _ _ C1) as [K1 K2]. pose proof (compared_len _ _ _ _ _ _ _ _ C2) as [K3 K4].
  split; [destruct (Z.eqb_spec (h_contribs h) 0); [discriminate N0|assumption]|]. split; [now apply hdr_eq_iff|]. split; [lia|]. split; [exact P2|].
  exists b1, b2, u, d1, d2, c1, c2, v, g1, g2. split; [congruence|]. split; [exact I1|]. split; [exact I2|]. split; [congruence|]. split; [exact J1|]. split; [exact J2|].
  split; [apply feqb_ok in SR; exact SR|]. exists o1, u1, v1, o2, u2, v2, l. split; [exact C1|]. split; [now apply Q1|]. split; [exact C2|]. split; [now apply Q2|].
  split; [exact LL|]. split; [|split; [now apply linked2_iff|split; [apply feqb_ok in LD; exact LD|reflexivity]]].
  match type of SN with seen2 ?a _ _ => replace (length (gob_hdr h) + length t - length u2)%nat with a by (rewrite T3, T4, !app_length; lia) end. exact SN.
Qed.

Lemma run_there n u (l : list E) r : run1 n u l true r -> exists b, u = b ++ r /\ are1 b l /\ length l = n.
Proof.
  remember true as ok eqn:O. induction 1 as [u|n b x u l ok r I R IH|n b u B|n u S]; try discriminate.
  - exists []. split; [reflexivity|]. split; [constructor|reflexivity].
  - destruct (IH O) as [b' [-> [A L]]]. exists (b ++ b'). rewrite app_assoc. split; [reflexivity|]. split; [now constructor|cbn; now rewrite L].
Qed.
Lemma compared_there bs (rho : nat -> nat -> E) m u v o u' v' : compared bs rho m u v o u' v' -> o <> None ->
  exists b (l : list E) c (k : list E), u = b ++ u' /\ are1 b l /\ length l = m /\ v = c ++ v' /\ are1 c k /\ length k = m.
Proof.
  induction 1 as [u v|m u v l u' R|m u v l k u' v' R Q|m u v l k u' v' o u2 v2 n R Q C IH]; intros N; try contradiction.
  - exists [], [], [], []. repeat split; constructor.
  - destruct IH as [b [l1 [c [k1 [-> [A [L [-> [A' L']]]]]]]]]; [destruct o as [[]|]; [discriminate|contradiction]|].
    apply run_there in R as [b0 [-> [A0 L0]]]. apply run_there in Q as [c0 [-> [A1 L1]]].
    exists (b0 ++ b), (l ++ l1), (c0 ++ c), (k ++ k1). rewrite !app_assoc, !app_length.
    assert (n <= S m) by (unfold n; lia).
    repeat split; try (now apply parses_app); lia.
Qed.
Lemma compared_sure bs (rho : nat -> nat -> E) b (l : list E) c (k : list E) t v o u' v' : 1 <= bs -> are1 b l -> are1 c k -> length k = length l ->
  compared bs rho (length l) (b ++ t) (c ++ v) o u' v' -> o <> None /\ u' = t /\ v' = v.
Proof.
  intros B A A' L C. destruct (cmp_all bs rho t v B (length l) b c l k (le_n _) L A A') as [x [y [C' _]]].
  destruct (compared_ev bs rho [] [] B _ _ _ _ _ _ C (length l) (repeat 0 (length l)) 0 0 0 0 (le_n _)) as [e V]; [rewrite repeat_length; lia|].
  destruct (compared_ev bs rho [] [] B _ _ _ _ _ _ C' (length l) (repeat 0 (length l)) 0 0 0 0 (le_n _)) as [e' V']; [rewrite repeat_length; lia|].
  destruct (ev_det _ _ _ _ _ _ _ _ V V') as [Q1 [Q2 _]]. split; [destruct o; [discriminate|discriminate Q1]|].
  injection Q2 as -> _ -> _. split; reflexivity.
Qed.
Lemma strict_iff bs (rho : nat -> nat -> nat -> E) h h0 t t0 hs : 1 <= bs -> hdr_ok h -> hdr_ok h0 -> (- two63 < h_domain h)%Z ->
  let F := gob_hdr h ++ t in let G := gob_hdr h0 ++ t0 in
  (exec (verify2_strict bs rho) F G = (Ok hs, []) <->
   exec (verify2 bs rho) F G = (Ok hs, []) /\ (exists q : par2 E, ph2 F h q) /\ (exists q0 : par2 E, ph2 G h0 q0)).
Proof.
  intros B HO HO0 DM F G. split.
  - intros X. assert (A : accepts2s bs rho h h0 (length (gob_hdr h)) t t0 hs) by (apply v2s_only; try assumption; fold F G; now rewrite X).
    destruct A as [N0 [HE [DM1 [WT [b1 [b2 [u [d1 [d2 [c1 [c2 [v [g1 [g2 [T1 [I1 [I2 [T2 [J1 [J2 [SR
      [o1 [u1 [v1 [o2 [u2 [v2 [l [C1 [A1 [C2 [A2 R]]]]]]]]]]]]]]]]]]]]]]]]]]]]]]]].
    destruct o1 as [[x1 y1]|]; [|destruct A1]. destruct o2 as [[x2 y2]|]; [|destruct A2].
    split.
    { apply v2_iff; try assumption. split; [exact N0|]. split; [exact HE|]. split; [exact DM1|]. split; [exact WT|].
      exists b1, b2, u, d1, d2, c1, c2, v, g1, g2. do 7 (split; [assumption|]).
      exists (Some (x1, y1)), u1, v1, (Some (x2, y2)), u2, v2, l. split; [exact C1|]. split; [exact A1|]. split; [exact C2|]. split; [exact A2|]. exact R. }
    destruct (compared_there _ _ _ _ _ _ _ _ C1 ltac:(discriminate)) as [bz [lz [cz [kz [Z1 [Z2 [Z3 [Z4 [Z5 Z6]]]]]]]]].
    destruct (compared_there _ _ _ _ _ _ _ _ C2 ltac:(discriminate)) as [bk [lk [ck [kk [K1 [K2 [K3 [K4 [K5 K6]]]]]]]]].
    assert (HD : h_domain h0 = h_domain h /\ h_witness h0 = h_witness h) by (rewrite HE; split; reflexivity). destruct HD as [HD HW].
    split.
    + exists (mkPar2 d1 d2 lz lk). split; [exact HO|]. split; [split; cbn [p_Z p_K]; lia|].
      exists (b1 ++ b2 ++ bz ++ bk), u2. split; [unfold F; rewrite T1, Z1, K1, <- !app_assoc; reflexivity|].
      exists b1, b2, bz, bk. repeat (split; [first [reflexivity|assumption]|]). assumption.
    + exists (mkPar2 g1 g2 kz kk). split; [exact HO0|]. split; [split; cbn [p_Z p_K]; lia|].
      exists (c1 ++ c2 ++ cz ++ ck), v2. split; [unfold G; rewrite T2, Z4, K4, <- !app_assoc; reflexivity|].
      exists c1, c2, cz, ck. repeat (split; [first [reflexivity|assumption]|]). assumption.
  - intros [X [[q [_ [[SZ SK] [pb [junk [EF [a1 [a2 [a3 [a4 [-> [P1 [P2 [P3 P4]]]]]]]]]]]]]] [q0 [_ [[SZ0 SK0] [pb0 [junk0 [EG [e1 [e2 [e3 [e4 [-> [O1 [O2 [O3 O4]]]]]]]]]]]]]]]].
    apply v2_iff in X; try assumption. apply v2s_if; try assumption.
    destruct X as [N0 [HE [DM1 [WT [b1 [b2 [u [d1 [d2 [c1 [c2 [v [g1 [g2 [T1 [I1 [I2 [T2 [J1 [J2 [SR
      [o1 [u1 [v1 [o2 [u2 [v2 [l [C1 [A1 [C2 [A2 R]]]]]]]]]]]]]]]]]]]]]]]]]]]]]]]].
    assert (HD : h_domain h0 = h_domain h /\ h_witness h0 = h_witness h) by (rewrite HE; split; reflexivity). destruct HD as [HD HW].
    unfold F in EF. apply app_inv_head in EF. unfold G in EG. apply app_inv_head in EG. rewrite <- !app_assoc in EF, EG.
    rewrite T1 in EF. rewrite T2 in EG.
    apply (is1_same _ _ _ _ _ _ I1 P1) in EF as [_ EF]. apply (is2_same _ _ _ _ _ _ I2 P2) in EF as [_ EF].
    apply (is1_same _ _ _ _ _ _ J1 O1) in EG as [_ EG]. apply (is2_same _ _ _ _ _ _ J2 O2) in EG as [_ EG].
    assert (S1 : o1 <> None /\ u1 = a4 ++ junk /\ v1 = e4 ++ junk0).
    { eapply (compared_sure bs (rho 0%nat) a3 (p_Z q) e3 (p_Z q0)); try assumption; [lia|].
      rewrite EF, EG in C1. replace (Z.to_nat (h_domain h - 1)) with (length (p_Z q)) in C1 by lia. exact C1. }
    destruct S1 as [S1 [-> ->]].
    assert (S2 : o2 <> None /\ u2 = junk /\ v2 = junk0).
    { eapply (compared_sure bs (rho 1%nat) a4 (p_K q) e4 (p_K q0)); try assumption; [lia|].
      replace (Z.to_nat (h_witness h)) with (length (p_K q)) in C2 by lia. exact C2. }
    destruct S2 as [S2 _].
    split; [exact N0|]. split; [exact HE|]. split; [exact DM1|]. split; [exact WT|].
    exists b1, b2, u, d1, d2, c1, c2, v, g1, g2. do 7 (split; [assumption|]).
    exists o1, (a4 ++ junk), (e4 ++ junk0), o2, u2, v2, l.
    assert (U : forall d g o, agrees (E := E) d g o -> o <> None -> sagrees d g o) by (intros d g [[]|] Y N; [exact Y|contradiction]).
    split; [exact C1|]. split; [now apply U|]. split; [exact C2|]. split; [now apply U|]. exact R.
Qed.
(* whatever the final file is, the origin can be read *)
Lemma strict_origin bs (rho : nat -> nat -> nat -> E) F h0 t0 hs : 1 <= bs -> hdr_ok h0 -> (- two63 < h_domain h0)%Z ->
  fst (exec (verify2_strict bs rho) F (gob_hdr h0 ++ t0)) = Ok hs -> exists q0 : par2 E, ph2 (gob_hdr h0 ++ t0) h0 q0.
Proof.
  intros B HO0 DM H. pose proof (domain_int64 h0 HO0) as DI. unfold int64 in DI. set (G := gob_hdr h0 ++ t0) in *.
  destruct (exec (verify2_strict bs rho) F G) as [r dd] eqn:X. cbn [fst] in H. subst r.
  apply exec_ev in X as [s' [D [X _]]]. unfold verify2_strict in X. do 2 apply newrd_inv in X. cbn [getr setr fst snd] in X. unfold opened in X. rewrite !rd_buf_at in X.
  assert (R2 : forall a, ev (read_hdr2 (E := E) true) (a, at_ G defBuf 0 G) (Ok h0) (a, at_ G defBuf (length (gob_hdr h0)) t0) none)
    by (intros a; apply (ev_read_hdr (gob_alt (e := E)) true G defBuf 0 h0 t0 (a, at_ G defBuf 0 G) defBuf_gob HO0); reflexivity).
  apply bind_ok_inv in X as [h [s1 [? [? [R [X _]]]]]].
  destruct (only_reads_ev false F defBuf (read_hdr2 (E := E) false) 0 F (at_ F defBuf 0 F, at_ G defBuf 0 G) (reads_hdr2 false) eq_refl) as [r [p [t [pre [R1 _]]]]].
  destruct (ev_det _ _ _ _ _ _ _ _ R R1) as [_ [-> _]]. clear R R1. cbn [setr fst snd] in X.
  apply bind_ok_inv in X as [x2 [s1 [? [? [R [X _]]]]]]. destruct (ev_det _ _ _ _ _ _ _ _ R (R2 _)) as [Q [-> _]]. injection Q as ->. clear R.
  apply require_inv in X as [N0 X]. apply require_inv in X as [HE X]. apply hdr_eqb_dom in HE as [HD HW].
  apply bind_ok_inv in X as [g1 [s1 [? [? [R [X _]]]]]]. destruct (d1i _ _ _ _ _ _ _ _ R eq_refl) as [c1 [t1 [T1 [J1 ->]]]]. clear R. cbn [setr fst snd] in X.
  apply bind_ok_inv in X as [g2 [s1 [? [? [R [X _]]]]]]. destruct (d2i _ _ _ _ _ _ _ _ R eq_refl) as [c2 [v [T2 [J2 ->]]]]. clear R. cbn [setr fst snd] in X.
  apply bind_ok_inv in X as [d1 [s1 [? [? [R [X _]]]]]]. destruct (d1i _ _ _ _ _ _ _ _ R eq_refl) as [b1 [t3 [T3 [I1 ->]]]]. clear R. cbn [setr fst snd] in X.
  apply bind_ok_inv in X as [d2 [s1 [? [? [R [X _]]]]]]. destruct (d2i _ _ _ _ _ _ _ _ R eq_refl) as [b2 [u [T4 [I2 ->]]]]. clear R. cbn [setr fst snd] in X.
  apply require_inv in X as [SR X]. rewrite wrap64_small in X by lia.
  apply bind_ok_inv in X as [[] [s1 [? [? [R [X _]]]]]].
  assert (Pos : forall n rr e (a : E) st s2 d2', ev (verify_param_strict bs rr a g2 n e) st (Ok tt) s2 d2' -> (0 <= n)%Z).
  { intros n rr e a st s2 d2' Y. destruct (Z.lt_ge_cases n 0) as [L|L]; [|exact L]. exfalso. unfold verify_param_strict, aggregate in Y.
    destruct (Z.ltb_spec n 0) as [_|L']; [|lia]. destruct Y as [w [Y _]]. cbn in Y. discriminate Y. }
  pose proof (Pos _ _ _ _ _ _ _ R) as P1.
  destruct (compared_total bs (rho 0%nat) B (Z.to_nat (h_domain h - 1)) u v) as [o1 [u1 [v1 C1]]].
  match type of R with ev _ (at_ _ _ ?pp _, at_ _ _ ?qq _) _ _ _ => destruct (strict_ev bs (rho 0%nat) F G d2 g2 _ EInconsZ u v o1 u1 v1 pp qq B P1 C1) as [r1 [V1 Q1]] end.
  destruct (ev_det _ _ _ _ _ _ _ _ R V1) as [<- [-> _]]. clear R V1.
  apply bind_ok_inv in X as [[] [s1 [? [? [R [X _]]]]]]. pose proof (Pos _ _ _ _ _ _ _ R) as P2.
  destruct (compared_total bs (rho 1%nat) B (Z.to_nat (h_witness h)) u1 v1) as [o2 [u2 [v2 C2]]].
  match type of R with ev _ (at_ _ _ ?pp _, at_ _ _ ?qq _) _ _ _ => destruct (strict_ev bs (rho 1%nat) F G d2 g2 _ EInconsPKK u1 v1 o2 u2 v2 pp qq B P2 C2) as [r2 [V2 Q2]] end.
  destruct (ev_det _ _ _ _ _ _ _ _ R V2) as [<- _]. clear R V2 X.
  assert (A1 : o1 <> None) by (intros ->; now apply Q1). assert (A2 : o2 <> None) by (intros ->; now apply Q2).
  destruct (compared_there _ _ _ _ _ _ _ _ C1 A1) as [bz [lz [cz [kz [_ [_ [_ [Z4 [Z5 Z6]]]]]]]]].
  destruct (compared_there _ _ _ _ _ _ _ _ C2 A2) as [bk [lk [ck [kk [_ [_ [_ [K4 [K5 K6]]]]]]]]].
  exists (mkPar2 g1 g2 kz kk). split; [exact HO0|]. split; [split; cbn [p_Z p_K]; lia|].
  exists (c1 ++ c2 ++ cz ++ ck), v2. split; [unfold G; rewrite T1, T2, Z4, K4, <- !app_assoc; reflexivity|].
  exists c1, c2, cz, ck. repeat (split; [first [reflexivity|assumption]|]). assumption.
Qed.
Lemma strict_cut bs (rho : nat -> nat -> nat -> E) h0 (q0 : par2 E) pb j : 1 <= bs -> hdr_ok h0 -> sized2 h0 q0 -> is_par2 pb q0 ->
  let G := gob_hdr h0 ++ pb in (j < length G)%nat -> forall F hs, fst (exec (verify2_strict bs rho) F (firstn j G)) <> Ok hs.
Proof.
  intros B HO0 [SZ SK] [a1 [a2 [a3 [a4 [-> [P1 [P2 [P3 P4]]]]]]]] G J F hs X. set (pb := a1 ++ a2 ++ a3 ++ a4) in *.
  destruct (Nat.lt_ge_cases j (length (gob_hdr h0))) as [KH|KH].
  { destruct (exec (verify2_strict bs rho) F (firstn j G)) as [r dd] eqn:Y. cbn [fst] in X. subst r. set (G' := firstn j G) in *.
    apply exec_ev in Y as [s' [D [X _]]]. unfold verify2_strict in X. do 2 apply newrd_inv in X. cbn [getr setr fst snd] in X. unfold opened in X. rewrite !rd_buf_at in X.
    apply bind_ok_inv in X as [h [s1 [? [? [R [X _]]]]]].
    destruct (only_reads_ev false F defBuf (read_hdr2 (E := E) false) 0 F (at_ F defBuf 0 F, at_ G' defBuf 0 G') (reads_hdr2 false) eq_refl) as [r [p [t [pre [R1 _]]]]].
    destruct (ev_det _ _ _ _ _ _ _ _ R R1) as [_ [-> _]]. clear R R1. cbn [setr fst snd] in X.
    apply bind_ok_inv in X as [x2 [s1 [? [? [R _]]]]].
    destruct (hdr_cut (gob_alt (e := E)) true G' defBuf 0 h0 j pb (at_ F defBuf p t, at_ G' defBuf 0 G') defBuf_gob eq_refl KH) as [sx Q].
    destruct (ev_det _ _ _ _ _ _ _ _ R Q) as [Y _]. discriminate. }
  assert (FG : firstn j G = gob_hdr h0 ++ firstn (j - length (gob_hdr h0)) pb) by (unfold G; rewrite firstn_app, firstn_all2 by lia; reflexivity).
  rewrite FG in X. apply strict_origin in X as [q [_ [[SZ0 SK0] [pb0 [junk0 [EG [e1 [e2 [e3 [e4 [-> [O1 [O2 [O3 O4]]]]]]]]]]]]]]; [|assumption|assumption|unfold two63; lia].
  apply app_inv_head in EG. set (i := (j - length (gob_hdr h0))%nat) in *.
  assert (EP : (e1 ++ e2 ++ e3 ++ e4) ++ junk0 ++ skipn i pb = pb ++ []) by (rewrite app_assoc, <- EG, firstn_skipn, app_nil_r; reflexivity).
  assert (K : e1 ++ e2 ++ e3 ++ e4 = pb).
  { unfold pb in EP |- *. set (R := junk0 ++ skipn i (a1 ++ a2 ++ a3 ++ a4)) in *. clearbody R. rewrite <- !app_assoc in EP.
    assert (e1 = a1) by (eapply is1_det; eauto). subst e1. apply app_inv_head in EP.
    assert (e2 = a2) by (eapply is2_det; eauto). subst e2. apply app_inv_head in EP.
    assert (e3 = a3) by (eapply (parses_det is1 is1_det); eauto; lia). subst e3. apply app_inv_head in EP.
    assert (e4 = a4) by (eapply (parses_det is1 is1_det); eauto; lia). now subst. }
  apply (f_equal (@length _)) in EP. rewrite K, app_nil_r, !app_length, skipn_length in EP. unfold G in J. rewrite app_length in J. unfold i in EP. lia.
Qed.
End S.
