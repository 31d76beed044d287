(* Attest1.v -- a phase-1 contribution whose hash p1v shows is part of the records, whatever the other files were. *)
From Coq Require Import Ring Field.
From Verif Require Import Base Fld IO Ext Spec1 Phase1 Phase1Io Phase1Verify Phase1Trans Phase1Facts Phase1Inv Phase1Claims Gob Circuit Spec2 Phase2 Phase2Io Spec3 Fs Init2 Spec4 Keys KeysLemmas Spec25.
Local Open Scope fld_scope.
Local Open Scope io_scope.

Section Attest1.
Context {E : Ext}.
Add Field Eatt1 : (f_th E).

(* what p1c appends, whatever it was given *)
Lemma contribute_appends bs (w : @rnd1 E) X g h O : exec (contribute bs w) X g = (Ok h, O) ->
  exists t1 a1 b1 t2 b2 ph o, let r := signed_rec t1 a1 b1 t2 b2 (r_tau w) (r_alpha w) (r_beta w) (r_st w) (r_sa w) (r_sb w) ph in
    O = o ++ rec_bytes r /\ h = c_hash r.
Proof.
  intros H. apply exec_ev in H as [s' [D [H HO]]]. unfold contribute in H.
  apply bind_ok_inv in H as [[pw n] [s1 [e1 [k1 [_ [H O1]]]]]]. cbv beta iota zeta in H.
  apply bind_ok_inv in H as [[] [s2 [e2 [k2 [_ [H O2]]]]]].
  apply newrd_inv, newwr_inv, with_flush_inv in H. destruct w as [tau alpha beta st sa sb]. cbv beta iota in H.
  apply bind_ok_inv in H as [t1 [s3 [e3 [k3 [_ [H O3]]]]]].
  apply bind_ok_inv in H as [a1 [s4 [e4 [k4 [_ [H O4]]]]]].
  apply bind_ok_inv in H as [b1 [s5 [e5 [k5 [_ [H O5]]]]]].
  apply bind_ok_inv in H as [t2 [s6 [e6 [k6 [_ [H O6]]]]]].
  apply bind_ok_inv in H as [b2 [s7 [e7 [k7 [_ [H O7]]]]]].
  apply bind_ok_inv in H as [[] [s8 [e8 [k8 [_ [H O8]]]]]].
  apply bind_ok_inv in H as [c [s9 [e9 [k9 [_ [H O9]]]]]].
  set (ph := if (_ =? 0)%N then _ else _) in H.
  exists t1, a1, b1, t2, (b2 * beta), ph.
  apply bind_ok_inv in H as [x [s10 [e10 [k10 [W [H O10]]]]]].
  match type of W with ev (try (write_contrib 0 ?r)) _ _ _ _ =>
    destruct (ev_det _ _ _ _ _ _ _ _ W (ev_try_ok _ _ _ _ _ (ev_write_contrib 0 r s9))) as [_ [_ W']] end.
  assert (K10 : k10 0%nat = []) by (destruct H as [w0 [R0 W0]]; cbn in R0; injection R0 as _ _ <-; now rewrite <- W0).
  exists (e1 0%nat ++ e2 0%nat ++ e3 0%nat ++ e4 0%nat ++ e5 0%nat ++ e6 0%nat ++ e7 0%nat ++ e8 0%nat ++ e9 0%nat). cbv zeta.
  apply ret_inv in H as [Hh _].
  rewrite !Phase1Io.gen_key_spec in Hh, W'. cbn [r_tau r_alpha r_beta r_st r_sa r_sb]. split.
  - rewrite <- HO, O1, O2, O3, O4, O5, O6, O7, O8, O9, O10, K10, app_nil_r, W'. unfold on. cbn [Nat.eqb].
    rewrite <- !app_assoc. reflexivity.
  - now rewrite <- Hh.
Qed.

(* one link, if the challenge R is not the identity *)
Lemma link_one (S SX P R cur prev : E) : R <> 0 -> S * P = SX * R -> cur * R = prev * P ->
  cur = P / R * prev /\ SX = P / R * S /\ P = P / R * R.
Proof.
  intros R0 H1 H2. split; [|split; [|field; exact R0]]; apply (fmul_cancel_l _ R); try exact R0.
  - transitivity (cur * R); [ring|]. rewrite H2. field. exact R0.
  - transitivity (SX * R); [ring|]. rewrite <- H1. field. exact R0.
Qed.
Lemma link_two (S SX x cur prev : E) : SX = x * S -> S * cur = SX * prev -> S <> 0 -> cur = x * prev.
Proof. intros H1 H2 H. apply (fmul_cancel_l _ S); [exact H|]. rewrite H2, H1. ring. Qed.

Lemma chain_updates1 : forall l (o : contrib E), chain_err o l = None -> no_challenge1 o l \/ exists xs, updates1 o l xs.
Proof.
  induction l as [|c l IH]; intros o C; [right; exists []; constructor|].
  cbn [chain_err] in C. destruct (verify_contrib c o) eqn:V; [discriminate|].
  apply verify_inv in V as [V1 [V2 [V3 [V4 [V5 [V6 [V7 [V8 V9]]]]]]]].
  destruct (feq_dec E (chal (kS (c_kt c)) (kSX (c_kt c)) (c_hash o) 1) 0) as [R1|R1]; [left; exists 0%nat, c, o; auto|].
  destruct (feq_dec E (chal (kS (c_ka c)) (kSX (c_ka c)) (c_hash o) 2) 0) as [R2|R2]; [left; exists 0%nat, c, o; auto|].
  destruct (feq_dec E (chal (kS (c_kb c)) (kSX (c_kb c)) (c_hash o) 3) 0) as [R3|R3]; [left; exists 0%nat, c, o; auto|].
  destruct (IH c C) as [[i [c' [q [Hi [Hq Q]]]]]|[xs U]]; [left; exists (S i), c', q; auto|].
  destruct (link_one _ _ _ _ _ _ R1 V1 V4) as [T1 [T2 T3]]. destruct (link_one _ _ _ _ _ _ R2 V2 V5) as [A1 [A2 A3]].
  destruct (link_one _ _ _ _ _ _ R3 V3 V6) as [B1 [B2 B3]].
  right. eexists. econstructor; [exact T1|exact A1|exact B1| | |split; [exact T2|exact T3]|split; [exact A2|exact A3]|split; [exact B2|exact B3]|exact V9|exact U].
  - exact (link_two _ _ _ _ _ T2 V7).
  - exact (link_two _ _ _ _ _ B2 V8).
Qed.

Lemma last_cons1 {X} (x d : X) l : last (x :: l) d = last l x.
Proof. apply Phase2Io.last_cons. Qed.

Lemma updates1_last : forall l (o : contrib E) xs, updates1 o l xs ->
  c_tau1 (last l o) = prodl (taus xs) * c_tau1 o /\ c_alpha1 (last l o) = prodl (alphas xs) * c_alpha1 o /\
  c_beta1 (last l o) = prodl (betas xs) * c_beta1 o /\
  ((forall c, In c l -> kS (c_kt c) <> 0) -> c_tau2 (last l o) = prodl (taus xs) * c_tau2 o) /\
  ((forall c, In c l -> kS (c_kb c) <> 0) -> c_beta2 (last l o) = prodl (betas xs) * c_beta2 o).
Proof.
  induction l as [|c l IH]; intros o xs U.
  - inversion U; subst. cbn. repeat split; intros; ring.
  - inversion U as [|? ? ? t a b ys T1 A1 B1 T2 B2 ? ? ? ? U']; subst. rewrite last_cons1.
    destruct (IH _ _ U') as [L1 [L2 [L3 [L4 L5]]]].
    change (prodl (taus ((t, a, b) :: ys))) with (t * prodl (taus ys)).
    change (prodl (alphas ((t, a, b) :: ys))) with (a * prodl (alphas ys)).
    change (prodl (betas ((t, a, b) :: ys))) with (b * prodl (betas ys)).
    rewrite L1, L2, L3, T1, A1, B1. do 3 (split; [ring|]). split; intros K.
    + rewrite L4 by (intros; apply K; now right). rewrite T2 by (apply K; now left). ring.
    + rewrite L5 by (intros; apply K; now right). rewrite B2 by (apply K; now left). ring.
Qed.

Lemma updates1_nth : forall l (o : contrib E) xs, updates1 o l xs -> forall i c, nth_error l i = Some c ->
  exists t a b, nth_error xs i = Some (t, a, b) /\ hash_good1 c /\
    kSX (c_kt c) = t * kS (c_kt c) /\ kSX (c_ka c) = a * kS (c_ka c) /\ kSX (c_kb c) = b * kS (c_kb c).
Proof.
  induction l as [|y l IH]; intros o xs U i c Hi; [destruct i; discriminate|].
  inversion U; subst. destruct i as [|i]; cbn in Hi |- *; [injection Hi as <-; unfold shows in *; do 3 eexists; intuition eauto|]. eauto.
Qed.

Lemma attested1_at (l : list (contrib E)) o xs bs (w : @rnd1 E) X g h O i : updates1 o l xs ->
  r_st w <> 0 -> r_sa w <> 0 -> r_sb w <> 0 ->
  exec (contribute bs w) X g = (Ok h, O) -> nth_error (map c_hash l) i = Some h ->
  nth_error xs i = Some (r_tau w, r_alpha w, r_beta w) \/
  exists r o' c, O = o' ++ rec_bytes r /\ nth_error l i = Some c /\ sha_clash1 c r.
Proof.
  intros U S1 S2 S3 X0 Hi. apply contribute_appends in X0 as [t1 [a1 [b1 [t2 [b2 [p [o' [HO Hh]]]]]]]].
  set (r := signed_rec t1 a1 b1 t2 b2 _ _ _ _ _ _ p) in *.
  rewrite nth_error_map in Hi. destruct (nth_error l i) as [c|] eqn:Hc; [|discriminate]. cbn in Hi. injection Hi as Hi.
  destruct (updates1_nth _ _ _ U i c Hc) as [t [a [b [Hx [Hg [K1 [K2 K3]]]]]]].
  unfold hash_good1 in Hg.
  assert (Q : sha E (enc_vals (rec_vals c)) = sha E (enc_vals (rec_vals r))).
  { rewrite <- Hg, Hi, Hh. reflexivity. }
  assert (CX : forall x y s sx k : E, s <> 0 -> k = s -> sx = y * s -> sx = x * k -> x = y).
  { intros x y s sx k N -> -> M. apply (fmul_cancel_l _ s); [exact N|]. transitivity (x * s); [ring|]. rewrite <- M. ring. }
  destruct (bytes_eqb (enc_vals (rec_vals c)) (enc_vals (rec_vals r))) eqn:B.
  - left. apply bytes_eqb_eq in B. apply enc_vals_inj in B; [|reflexivity].
    unfold rec_vals, key_vals in B. cbn [app] in B. injection B as _ _ _ _ _ T1 T2 _ A1 A2 _ B1 B2 _. rewrite Hx. do 2 f_equal; [f_equal|].
    + exact (CX _ _ _ _ _ S1 T1 T2 K1).
    + exact (CX _ _ _ _ _ S2 A1 A2 K2).
    + exact (CX _ _ _ _ _ S3 B1 B2 K3).
  - right. exists r, o', c. split; [exact HO|]. split; [reflexivity|]. split; [|exact Q].
    intros A. rewrite A in B. assert (bytes_eqb (enc_vals (rec_vals r)) (enc_vals (rec_vals r)) = true) by now apply bytes_eqb_eq. congruence.
Qed.

Lemma attested1 bs (rho : nat -> nat -> nat -> E) trans F g hs : 1 <= bs -> fst (exec (verify bs rho trans) F g) = Ok hs ->
  exists p n (s : srs E) sb tail o, (n < 65536)%N /\ F = b8 (N.of_nat p) :: be16 n ++ sb ++ tail /\
    sized p s /\ is_srs sb s /\ origin_is trans g o /\
    let cs := take_chain (N.to_nat n) zero_contrib tail in
    hs = map c_hash cs /\
    (no_challenge1 o cs \/ exists xs, updates1 o cs xs /\
      c_tau1 (last cs o) = prodl (taus xs) * c_tau1 o /\ c_alpha1 (last cs o) = prodl (alphas xs) * c_alpha1 o /\
      c_beta1 (last cs o) = prodl (betas xs) * c_beta1 o /\
      (cs <> [] -> (forall c, In c cs -> kS (c_kb c) <> 0) -> beta2 s = prodl (betas xs) * c_beta2 o) /\
      forall bs' (w : @rnd1 E) X g' h O i, r_st w <> 0 -> r_sa w <> 0 -> r_sb w <> 0 ->
        exec (contribute bs' w) X g' = (Ok h, O) -> nth_error hs i = Some h ->
        nth_error xs i = Some (r_tau w, r_alpha w, r_beta w) \/
        exists r o' c, O = o' ++ rec_bytes r /\ nth_error cs i = Some c /\ sha_clash1 c r).
Proof.
  intros B H. destruct (exec (verify bs rho trans) F g) as [r out0] eqn:X. cbn [fst] in H. subst r.
  destruct (verify_ok_inv bs rho trans F g hs out0 B X) as [p [n [s [sb [tail [o [H1 [H2 [H3 [H4 [H5 [H6 H7]]]]]]]]]]]].
  exists p, n, s, sb, tail, o. cbv zeta in H7 |- *. destruct H7 as [C [-> Eb]].
  do 5 (split; [assumption|]). split; [reflexivity|].
  set (cs := take_chain _ _ _) in *. destruct (chain_updates1 cs o C) as [N|[xs U]]; [left; exact N|right]. exists xs.
  destruct (updates1_last _ _ _ U) as [L1 [L2 [L3 [_ L5]]]]. do 4 (split; [assumption|]). split.
  - intros NE K. rewrite <- (L5 K), Eb. destruct cs as [|c l]; [congruence|]. now rewrite !last_cons1.
  - intros. eapply attested1_at; eauto.
Qed.

(* the same for the file of an honest ceremony with tau and alpha replaced *)
Lemma attested1_replaced bs bs' p (ws : list (@rnd1 E)) (rho : nat -> nat -> nat -> E) g :
  mexp_strict E -> 2 <= bs -> 1 <= bs' -> 1 <= p <= 62 -> ws <> [] -> length ws <= N.to_nat 65535 ->
  exists F hs l, ceremony1 bs p ws = Ok (F, hs) /\ hs = map c_hash l /\
    forall T A : E, exec (verify bs' rho None) (file1 p (srs_of p T A (prodl (map (fun w => r_beta w) ws))) l) g = (Ok hs, []).
Proof.
  intros MS B B' P NE L. destruct (ceremony_result bs p ws B P L) as [l [H [Hl G]]].
  eexists _, _, l. split; [exact H|]. split; [reflexivity|]. intros T A. pose proof G as [SZ [_ [H32 _]]].
  set (s' := srs_of p T A _). assert (SZ' : sized p s') by apply srs_of_sized.
  rewrite (verify_file bs' rho None _ g p s' l origin_gen); auto using origin_src_none; try lia.
  - f_equal. change (beta2 s') with (beta2 (srs_of p (prodl (map (fun w => r_tau w) ws)) (prodl (map (fun w => r_alpha w) ws)) (prodl (map (fun w => r_beta w) ws)))).
    eapply good_outcome; [|exact G]. intros ->. destruct ws; [congruence|discriminate].
  - apply file1_is0; auto.
Qed.
End Attest1.
