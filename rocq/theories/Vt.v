(* Vt.v -- p1vt and the transformed file. *)
From Coq Require Import Ring Field.
From Coq Require Import ZifyBool ZifyNat ZifyN.
From Verif Require Import Base Fld Conc Parallel IO Ext Spec1 Phase1 Phase1Io Phase1Verify Phase1Trans Phase1Facts Phase1Inv Phase1More Phase1Claims Spec21 Spec22.
Local Open Scope io_scope.

Section Vt.
Context {E : Ext}.
Add Field Evt : (f_th E).
Lemma ring_comm (x y : E) : (x * y = y * x)%F. Proof. ring. Qed.
Definition org (t a b t2 b2 : E) : contrib E := mkContrib t a b t2 b2 zero_key zero_key zero_key [].

Lemma seek_inv h z s s' d file cap p rest : getr h s = at_ file cap p rest -> ev (seek h z) s (Ok tt) s' d ->
  (0 <= z)%Z /\ s' = setr h (at_ file 0 0 (skipn (Z.to_nat z) file)) s.
Proof.
  intros G H. assert (Z : (0 <= z)%Z).
  { destruct H as [w [H _]]. unfold seek in H. cbn [run] in H. destruct (Z.ltb_spec z 0) as [L|L]; [|lia].
    cbn in H. discriminate. }
  split; [exact Z|]. destruct (ev_det _ _ _ _ _ _ _ _ H (ev_seek h z (Z.to_nat z) s _ _ _ _ G ltac:(lia))) as [_ [-> _]]. reflexivity.
Qed.
Lemma point1 h z s s' s1 d d1 (x : E) file cap p rest : getr h s = at_ file cap p rest -> ev (seek h z) s (Ok tt) s' d ->
  ev (decode1 h) s' (Ok x) s1 d1 -> (0 <= z)%Z /\ at1 file (Z.to_nat z) [x] /\ exists p' r', getr h s1 = at_ file 0 p' r'.
Proof.
  intros G H K. destruct (seek_inv _ _ _ _ _ _ _ _ _ G H) as [Z ->].
  destruct (decode1_ok_inv _ _ _ _ _ _ _ _ _ bigcap0 (getr_setr _ _ _) K) as [b [t [Q [I ->]]]].
  split; [exact Z|]. split; [|rewrite getr_setr; eauto]. exists b, t. split; [exact Q|]. rewrite <- (app_nil_r b). constructor; [exact I|constructor].
Qed.
Lemma point2 h z s s' s1 d d1 (x : E) file cap p rest : getr h s = at_ file cap p rest -> ev (seek h z) s (Ok tt) s' d ->
  ev (decode2 h) s' (Ok x) s1 d1 -> (0 <= z)%Z /\ at2 file (Z.to_nat z) [x] /\ exists p' r', getr h s1 = at_ file 0 p' r'.
Proof.
  intros G H K. destruct (seek_inv _ _ _ _ _ _ _ _ _ G H) as [Z ->].
  destruct (decode2_ok_inv _ _ _ _ _ _ _ _ _ bigcap0 (getr_setr _ _ _) K) as [b [t [Q [I ->]]]].
  split; [exact Z|]. split; [|rewrite getr_setr; eauto]. exists b, t. split; [exact Q|]. rewrite <- (app_nil_r b). constructor; [exact I|constructor].
Qed.

(* the offsets *)
Lemma offsets q : q <= 55 -> let N := Z.of_nat (2 ^ q) in let n := 2 ^ q in
  wrap64 (3 + 32 + wrap64 (2 * N - 2) * 32) = Z.of_nat (3 + 32 * (2 * n - 1)) /\
  wrap64 (Z.of_nat (3 + 32 * (2 * n - 1)) + N * 32) = Z.of_nat (3 + 32 * (3 * n - 1)) /\
  wrap64 (Z.of_nat (3 + 32 * (3 * n - 1)) + N * 32 + 64) = Z.of_nat (3 + 32 * (4 * n - 1) + 64) /\
  wrap64 (Z.of_nat (3 + 32 * (4 * n - 1) + 64) + wrap64 (N - 1) * 64) = Z.of_nat (3 + 32 * (4 * n - 1) + 64 * n).
Proof.
  intros Q N n. pose proof (pow2_le q 55 Q) as NB. change (2 ^ Z.of_nat 55)%Z with 36028797018963968%Z in NB.
  pose proof (pow2_pos q) as PP. unfold N, n. set (m := 2 ^ q) in *.
  rewrite (wrap64_small (2 * _ - 2)) by (unfold two63; lia). rewrite (wrap64_small (_ - 1)) by (unfold two63; lia).
  repeat split; rewrite wrap64_small; unfold two63; lia.
Qed.
Lemma no_offsets pw : (55 < bN pw)%N -> let N := pow2 pw in
  let a := wrap64 (3 + 32 + wrap64 (2 * N - 2) * 32) in let b := wrap64 (a + N * 32) in
  let c := wrap64 (b + N * 32 + 64) in (a < 0 \/ b < 0 \/ c < 0)%Z.
Proof.
  intros H. cbv zeta. unfold pow2. destruct (N.ltb_spec (bN pw) 63) as [L|L]; [|left; reflexivity].
  assert (X : (bN pw = 56 \/ bN pw = 57 \/ bN pw = 58 \/ bN pw = 59 \/ bN pw = 60 \/ bN pw = 61 \/ bN pw = 62)%N) by lia.
  destruct X as [X|[X|[X|[X|[X|[X|X]]]]]]; rewrite X; vm_compute; auto.
Qed.

Lemma origin_iff g (o : contrib E) : origin_is (Some true) g o <->
  exists q t a b t2 b2, q <= 55 /\ starts q g t a b t2 b2 /\ o = org t a b t2 b2.
Proof.
  unfold origin_is. split.
  - intros H. destruct (exec (default_contrib (Some true)) [] g) as [r O] eqn:X. cbn [fst] in H. subst r.
    apply exec_ev in X as [s' [D [H _]]]. unfold default_contrib in H.
    apply bind_ok_inv in H as [[pw n] [s1 [d1 [e1 [H1 [H _]]]]]].
    apply read_header_inv with (f := g) in H1; [|reflexivity]. destruct H1 as [t [-> [Hn Hf]]]. cbv beta iota zeta in H.
    pose proof (getr_setr true (at_ g 0 0 t) (opened [], opened g)) as G. set (s0 := setr _ _ _) in *. clearbody s0.
    apply bind_ok_inv in H as [[] [s1 [d2 [e2 [H1 [H _]]]]]]. apply bind_ok_inv in H as [x1 [s2 [d3 [e3 [H2 [H _]]]]]].
    destruct (point1 _ _ _ _ _ _ _ _ _ _ _ _ G H1 H2) as [_ [P1 [p1 [r1 G1]]]]. clear H1 H2.
    apply bind_ok_inv in H as [[] [s3 [d4 [e4 [H1 [H _]]]]]]. apply bind_ok_inv in H as [x2 [s4 [d5 [e5 [H2 [H _]]]]]].
    destruct (point1 _ _ _ _ _ _ _ _ _ _ _ _ G1 H1 H2) as [Z2 [P2 [p2 [r2 G2]]]]. clear H1 H2.
    apply bind_ok_inv in H as [[] [s5 [d6 [e6 [H1 [H _]]]]]]. apply bind_ok_inv in H as [x3 [s6 [d7 [e7 [H2 [H _]]]]]].
    destruct (point1 _ _ _ _ _ _ _ _ _ _ _ _ G2 H1 H2) as [Z3 [P3 [p3 [r3 G3]]]]. clear H1 H2.
    apply bind_ok_inv in H as [[] [s7 [d8 [e8 [H1 [H _]]]]]]. apply bind_ok_inv in H as [x4 [s8 [d9 [e9 [H2 [H _]]]]]].
    destruct (point2 _ _ _ _ _ _ _ _ _ _ _ _ G3 H1 H2) as [Z4 [P4 [p4 [r4 G4]]]]. clear H1 H2.
    apply bind_ok_inv in H as [[] [s9 [d10 [e10 [H1 [H _]]]]]]. apply bind_ok_inv in H as [x5 [s10 [d11 [e11 [H2 [H _]]]]]].
    destruct (point2 _ _ _ _ _ _ _ _ _ _ _ _ G4 H1 H2) as [Z5 [P5 _]]. clear H1 H2.
    apply ret_inv in H as [<- _].
    assert (LE : (bN pw <= 55)%N).
    { destruct (N.le_gt_cases (bN pw) 55) as [L|L]; [exact L|]. pose proof (no_offsets pw L) as NO. cbv zeta in NO. lia. }
    set (q := N.to_nat (bN pw)). assert (Q : pw = b8 (N.of_nat q)) by (unfold q; rewrite N2Nat.id; symmetry; apply b8_bN).
    assert (Lq : q <= 55) by (unfold q; lia).
    rewrite Q, (pow2_small q) in P2, P3, P4, P5 by lia. destruct (offsets q Lq) as [O1 [O2 [O3 O4]]]. cbv zeta in O1, O2, O3, O4.
    rewrite O1 in P2, P3, P4, P5. rewrite O2 in P3, P4, P5. rewrite O3 in P4, P5. rewrite O4 in P5. rewrite Nat2Z.id in P2, P3, P4, P5.
    exists q, x1, x2, x3, x4, x5. split; [exact Lq|]. split; [|reflexivity].
    split; [|cbv zeta; auto]. rewrite <- Q. destruct Hf as [->|[-> _]]; eauto.
  - intros [q [t [a [b [t2 [b2 [Lq [[[r Hg] ST] ->]]]]]]]]. cbv zeta in ST.
    destruct ST as [[u1 [v1 [A1 B1]]] [[u2 [v2 [A2 B2]]] [[u3 [v3 [A3 B3]]] [[u4 [v4 [A4 B4]]] [u5 [v5 [A5 B5]]]]]]].
    assert (W1 : forall u (x : E), are1 u [x] -> is1 u x).
    { intros u x I. inversion I as [|? ? ? ? I1 I2]; subst. inversion I2; subst. now rewrite app_nil_r. }
    assert (W2 : forall u (x : E), are2 u [x] -> is2 u x).
    { intros u x I. inversion I as [|? ? ? ? I1 I2]; subst. inversion I2; subst. now rewrite app_nil_r. }
    apply W1 in B1, B2, B3. apply W2 in B4, B5. clear W1 W2.
    assert (L3 : exists c0 c1 w, r = c0 :: c1 :: w).
    { assert (1 <= length u1) by (destruct B1 as [[-> _]|[-> _]]; lia).
      pose proof (skipn_length (3 + 32) g) as L. rewrite A1, app_length in L. rewrite Hg in L. cbn [length] in L.
      destruct r as [|c0 [|c1 w]]; cbn [length] in L; [lia|lia|eauto]. }
    destruct L3 as [c0 [c1 [w ->]]].
    destruct (offsets q Lq) as [O1 [O2 [O3 O4]]]. cbv zeta in O1, O2, O3, O4.
    assert (X : exists s', ev (default_contrib (Some true)) (opened [], opened g) (Ok (org t a b t2 b2)) s' none).
    { assert (G : getr true (opened [], opened g) = at_ g 0 0 (b8 (N.of_nat q) :: c0 :: c1 :: w)) by (cbn [getr snd]; unfold opened; now rewrite Hg at 2).
      eexists. unfold default_contrib. eapply evb; [eapply ev_read_header; exact G|]. cbv beta iota zeta.
      rewrite (pow2_small q) by lia. rewrite O1, O2, O3, O4.
      eapply evb; [eapply (ev_seek _ _ 35); [apply getr_setr|reflexivity]|]. cbv beta. rewrite setr_setr. change (skipn 35 g) with (skipn (3 + 32) g). rewrite A1.
      eapply evb; [eapply ev_decode1; [exact bigcap0|exact B1|apply getr_setr]|]. cbv beta. rewrite setr_setr.
      eapply evb; [eapply ev_seek; [apply getr_setr|reflexivity]|]. cbv beta. rewrite setr_setr, A2.
      eapply evb; [eapply ev_decode1; [exact bigcap0|exact B2|apply getr_setr]|]. cbv beta. rewrite setr_setr.
      eapply evb; [eapply ev_seek; [apply getr_setr|reflexivity]|]. cbv beta. rewrite setr_setr, A3.
      eapply evb; [eapply ev_decode1; [exact bigcap0|exact B3|apply getr_setr]|]. cbv beta. rewrite setr_setr.
      eapply evb; [eapply ev_seek; [apply getr_setr|reflexivity]|]. cbv beta. rewrite setr_setr, A4.
      eapply evb; [eapply ev_decode2; [exact bigcap0|exact B4|apply getr_setr]|]. cbv beta. rewrite setr_setr.
      eapply evb; [eapply ev_seek; [apply getr_setr|reflexivity]|]. cbv beta. rewrite setr_setr, A5.
      eapply evb; [eapply ev_decode2; [exact bigcap0|exact B5|apply getr_setr]|]. cbv beta.
      apply ev_ret. }
    destruct X as [s' X]. apply ev_exec in X. now rewrite X.
Qed.

Lemma vt_needs bs (rho : nat -> nat -> nat -> E) f g hs O : 1 <= bs -> exec (verify bs rho (Some true)) f g = (Ok hs, O) ->
  exists q (t a b t2 b2 : E), q <= 55 /\ starts q g t a b t2 b2.
Proof.
  intros B H. destruct (verify_ok_inv bs rho (Some true) f g hs O B H) as [p [n [s [sb [tl [o [_ [_ [_ [_ [_ [X _]]]]]]]]]]]].
  apply origin_iff in X as [q [t [a [b [t2 [b2 [L [S _]]]]]]]]. eauto 10.
Qed.
Lemma vt_same1 bs (rho : nat -> nat -> nat -> E) f g g' q q' (t a b t2 b2 : E) hs : mexp_strict E -> 1 <= bs -> q <= 55 -> q' <= 55 ->
  starts q g t a b t2 b2 -> starts q' g' t a b t2 b2 ->
  exec (verify bs rho (Some true)) f g = (Ok hs, []) -> exec (verify bs rho (Some true)) f g' = (Ok hs, []).
Proof.
  intros MS B L L' S S' H.
  destruct (verify_ok_inv bs rho (Some true) f g hs [] B H) as [p [n [s [sb [tl [o [Lp [Ln [Hf [SZ [IS [X _]]]]]]]]]]]].
  assert (Q : o = org t a b t2 b2).
  { assert (Y : origin_is (Some true) g (org t a b t2 b2)) by (apply origin_iff; eauto 10). unfold origin_is in Y. congruence. }
  subst o. assert (Y : origin_is (Some true) g' (org t a b t2 b2)) by (apply origin_iff; eauto 10).
  rewrite (verify_bytes bs rho (Some true) f g p n s sb tl _ MS B Lp Ln SZ IS Hf (origin_is_src _ _ _ X)) in H.
  now rewrite (verify_bytes bs rho (Some true) f g' p n s sb tl _ MS B Lp Ln SZ IS Hf (origin_is_src _ _ _ Y)).
Qed.
Lemma vt_same bs (rho : nat -> nat -> nat -> E) f g g' q q' (t a b t2 b2 : E) hs : mexp_strict E -> 1 <= bs -> q <= 55 -> q' <= 55 ->
  starts q g t a b t2 b2 -> starts q' g' t a b t2 b2 ->
  (exec (verify bs rho (Some true)) f g = (Ok hs, []) <-> exec (verify bs rho (Some true)) f g' = (Ok hs, [])).
Proof. intros MS B L L' S S'. split; [exact (vt_same1 bs rho f g g' q q' t a b t2 b2 hs MS B L L' S S')|exact (vt_same1 bs rho f g' g q' q t a b t2 b2 hs MS B L' L S' S)]. Qed.

(* a transformed file of another power *)
Lemma two_le_pow c : 1 <= c -> 2 <= 2 ^ c.
Proof. intros H. destruct c as [|c]; [lia|]. pose proof (pow2_pos c). cbn [Nat.pow]. lia. Qed.
Lemma vt_power bs a b b' h (s : srs E) junk (ws : list (@rnd1 E)) : mexp_strict E -> 2 <= bs -> 1 <= b <= a -> 1 <= b' <= a -> a <= 54 ->
  sized a s -> length h = 64%nat -> firsts_ok bs (cut b s) -> ws <> [] -> length ws <= N.to_nat 65535 ->
  exists g g' f hs, exec (transform (E := E) (b8 (N.of_nat a)) (b8 (N.of_nat b))) (ppot h s junk) [] = (Ok tt, g) /\
    exec (transform (E := E) (b8 (N.of_nat a)) (b8 (N.of_nat b'))) (ppot h s junk) [] = (Ok tt, g') /\
    continue1 bs g ws = Ok (f, hs) /\ length hs = length ws /\
    forall bs' (rho : nat -> nat -> nat -> E), 1 <= bs' -> exec (verify bs' rho (Some true)) f g' = (Ok hs, []).
Proof.
  intros MS B Hb Hb' Ha SZ Lh FO NE L.
  destruct (c16 bs a b h s junk ws MS B Hb Ha SZ Lh FO NE L) as [g [f [hs [T1 [C [LH V]]]]]].
  pose proof (c15 a b' h s junk [] ltac:(lia) SZ Lh) as T2.
  pose proof (c15 a b h s junk [] ltac:(lia) SZ Lh) as T1'. rewrite T1 in T1'. injection T1' as ->.
  eexists _, _, f, hs. split; [exact T1|]. split; [exact T2|]. split; [exact C|]. split; [exact LH|].
  intros bs' rho B'. specialize (V bs' rho B').
  destruct (verify_ok_inv bs' rho (Some true) f _ hs [] B' V) as [p [n [s1 [sb [tl [o [Lp [Ln [Hf [SZ1 [IS [X _]]]]]]]]]]]].
  pose proof (cut_sized a b s ltac:(lia) SZ) as CZ. pose proof (cut_sized a b' s ltac:(lia) SZ) as CZ'.
  assert (OR : forall c, 1 <= c <= a -> origin_is (Some true) (file1 c (cut c s) []) (origin_of (cut c s))).
  { intros c Hc. unfold file1, hdr1. cbn [length recs_bytes flat_map]. apply origin_is_file; [lia|]. apply (cut_sized a c s); [lia|exact SZ]. }
  assert (OO : origin_of (cut b' s) = origin_of (cut b s)).
  { unfold origin_of, cut. cbn [tau1 alpha1 beta1 tau2 beta2].
    assert (K : forall c (l : list E) i, i < c -> nth i (firstn c l) 0%F = nth i l 0%F).
    { intros c l i. revert c l. induction i as [|i IH]; intros [|c] [|x l] HL; cbn; try lia; auto. apply IH. lia. }
    pose proof (two_le_pow b (proj1 Hb)). pose proof (two_le_pow b' (proj1 Hb')). rewrite !K by lia. reflexivity. }
  rewrite (verify_bytes bs' rho (Some true) f _ p n s1 sb tl _ MS B' Lp Ln SZ1 IS Hf (origin_is_src _ _ _ X)) in V.
  rewrite (verify_bytes bs' rho (Some true) f _ p n s1 sb tl _ MS B' Lp Ln SZ1 IS Hf (origin_is_src _ _ _ (OR b' Hb'))).
  rewrite OO. pose proof (OR b Hb) as Y. unfold origin_is in Y. rewrite X in Y. injection Y as <-. exact V.
Qed.

(* the answer determines the five points *)
Lemma contrib_origin (c o : contrib E) : verify_contrib c o = None -> c_hash o = [] ->
  let sp x d := gen_sp (kS x) (kSX x) [] d in
  (c_tau1 c * sp (c_kt c) 1%N = c_tau1 o * kSPX (c_kt c) /\ c_alpha1 c * sp (c_ka c) 2%N = c_alpha1 o * kSPX (c_ka c) /\
   c_beta1 c * sp (c_kb c) 3%N = c_beta1 o * kSPX (c_kb c) /\ kS (c_kt c) * c_tau2 c = kSX (c_kt c) * c_tau2 o /\
   kS (c_kb c) * c_beta2 c = kSX (c_kb c) * c_beta2 o)%F.
Proof.
  intros H Hh. unfold verify_contrib, check in H. rewrite Hh in H. cbv zeta in *.
  repeat match type of H with (if ?b then _ else _) = None => let e := fresh "Q" in destruct b eqn:e; [|discriminate] end.
  unfold same_ratio in *. repeat split; apply feqb_ok; assumption.
Qed.
Lemma cancel (x y z : E) : z <> 0%F -> (x * z = y * z)%F -> x = y.
Proof.
  intros N H. assert (P : ((x * z) / z = (y * z) / z)%F) by (now rewrite H).
  replace ((x * z) / z)%F with x in P by (field; exact N). replace ((y * z) / z)%F with y in P by (field; exact N). exact P.
Qed.
Lemma same_origin bs (rho rho' : nat -> nat -> nat -> E) tr tr' f g g' (o o' : contrib E) p (s : srs E) (c : contrib E) l hs hs' : mexp_strict E -> 1 <= bs -> p <= 62 ->
  length (c :: l) < N.to_nat 65536 -> is_file1 f p s (c :: l) -> c_hash o = [] -> c_hash o' = [] ->
  kSX (c_kt c) <> 0%F -> kSX (c_kb c) <> 0%F -> kSPX (c_kt c) <> 0%F -> kSPX (c_ka c) <> 0%F -> kSPX (c_kb c) <> 0%F ->
  origin_is tr g o -> origin_is tr' g' o' -> exec (verify bs rho tr) f g = (Ok hs, []) -> exec (verify bs rho' tr') f g' = (Ok hs', []) ->
  c_tau1 o = c_tau1 o' /\ c_alpha1 o = c_alpha1 o' /\ c_beta1 o = c_beta1 o' /\ c_tau2 o = c_tau2 o' /\ c_beta2 o = c_beta2 o'.
Proof.
  intros MS B P Ll F Ho Ho' N1 N2 N3 N4 N5 O1 O2 V1 V2.
  rewrite (verify_file bs rho tr f g p s (c :: l) o MS B P Ll F (origin_is_src _ _ _ O1)) in V1.
  rewrite (verify_file bs rho' tr' f g' p s (c :: l) o' MS B P Ll F (origin_is_src _ _ _ O2)) in V2.
  assert (K : forall x h, outcome x (beta2 s) (c :: l) = Ok h -> verify_contrib c x = None).
  { intros x h X. unfold outcome in X. cbn [chain_err] in X. destruct (verify_contrib c x); [discriminate|reflexivity]. }
  injection V1 as V1. injection V2 as V2. apply K in V1, V2.
  destruct (contrib_origin c o V1 Ho) as [A1 [A2 [A3 [A4 A5]]]]. destruct (contrib_origin c o' V2 Ho') as [B1 [B2 [B3 [B4 B5]]]].
  repeat split.
  - apply (cancel _ _ _ N3). congruence.
  - apply (cancel _ _ _ N4). congruence.
  - apply (cancel _ _ _ N5). congruence.
  - apply (cancel _ _ _ N1). rewrite (ring_comm (c_tau2 o)), (ring_comm (c_tau2 o')). congruence.
  - apply (cancel _ _ _ N2). rewrite (ring_comm (c_beta2 o)), (ring_comm (c_beta2 o')). congruence.
Qed.
Lemma vt_origin bs (rho rho' : nat -> nat -> nat -> E) f g g' q q' (t a b t2 b2 t' a' b' t2' b2' : E) p (s : srs E) (c : contrib E) l hs hs' :
  mexp_strict E -> 1 <= bs -> p <= 62 -> length (c :: l) < N.to_nat 65536 -> is_file1 f p s (c :: l) ->
  kSX (c_kt c) <> 0%F -> kSX (c_kb c) <> 0%F -> kSPX (c_kt c) <> 0%F -> kSPX (c_ka c) <> 0%F -> kSPX (c_kb c) <> 0%F ->
  q <= 55 -> q' <= 55 -> starts q g t a b t2 b2 -> starts q' g' t' a' b' t2' b2' ->
  exec (verify bs rho (Some true)) f g = (Ok hs, []) -> exec (verify bs rho' (Some true)) f g' = (Ok hs', []) ->
  t = t' /\ a = a' /\ b = b' /\ t2 = t2' /\ b2 = b2'.
Proof.
  intros MS B P Ll F N1 N2 N3 N4 N5 L L' S S' V V'.
  assert (O1 : origin_is (Some true) g (org t a b t2 b2)) by (apply origin_iff; eauto 10).
  assert (O2 : origin_is (Some true) g' (org t' a' b' t2' b2')) by (apply origin_iff; eauto 10).
  exact (same_origin bs rho rho' _ _ f g g' (org t a b t2 b2) (org t' a' b' t2' b2') p s c l hs hs' MS B P Ll F eq_refl eq_refl N1 N2 N3 N4 N5 O1 O2 V V').
Qed.
Lemma vt_and_v bs (rho rho' : nat -> nat -> nat -> E) f g g' q (t a b t2 b2 : E) p (s : srs E) (c : contrib E) l hs hs' :
  mexp_strict E -> 1 <= bs -> p <= 62 -> length (c :: l) < N.to_nat 65536 -> is_file1 f p s (c :: l) ->
  kSX (c_kt c) <> 0%F -> kSX (c_kb c) <> 0%F -> kSPX (c_kt c) <> 0%F -> kSPX (c_ka c) <> 0%F -> kSPX (c_kb c) <> 0%F ->
  q <= 55 -> starts q g t a b t2 b2 ->
  exec (verify bs rho (Some true)) f g = (Ok hs, []) -> exec (verify bs rho' None) f g' = (Ok hs', []) ->
  t = 1%F /\ a = 1%F /\ b = 1%F /\ t2 = 1%F /\ b2 = 1%F.
Proof.
  intros MS B P Ll F N1 N2 N3 N4 N5 L S V V'.
  assert (O1 : origin_is (Some true) g (org t a b t2 b2)) by (apply origin_iff; eauto 10).
  exact (same_origin bs rho rho' _ _ f g g' (org t a b t2 b2) origin_gen p s c l hs hs' MS B P Ll F eq_refl eq_refl N1 N2 N3 N4 N5 O1 (origin_is_none g') V V').
Qed.
End Vt.
