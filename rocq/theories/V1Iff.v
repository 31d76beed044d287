(* V1Iff.v -- p1v and p1vt on any bytes: exactly which are accepted. *)
From Coq Require Import Ring Field.
From Verif Require Import Base Fld Conc Parallel IO Ext Spec1 Phase1 Phase1Io Phase1Verify Phase1Trans Phase1Facts Phase1Inv Phase1More Phase1Claims Spec21 Spec22 Vt Spec27 Spec30.
Local Open Scope fld_scope.
Local Open Scope io_scope.

Section V.
Context {E : Ext}.
Add Field Ev1 : (f_th E).
(* take_fields on the values in file order *)
Fixpoint take_vals (vs : list (E + E)) (u : bytes) : list (E + E) * bool * bytes :=
  match vs with
  | [] => ([], true, u)
  | inl y :: vs' => let '(x, ok, r) := take1 y u in if ok then let '(ws, ok', r') := take_vals vs' r in (inl x :: ws, ok', r') else (inl x :: vs', false, r)
  | inr y :: vs' => let '(x, ok, r) := take2 y u in if ok then let '(ws, ok', r') := take_vals vs' r in (inr x :: ws, ok', r') else (inr x :: vs', false, r)
  end.
Definition tf (hh : bytes) (fs : list field) (c : contrib E) (vs pre : list (E + E)) : Prop := forall u,
  let '(c', ok, r) := take_fields fs c u in let '(ws, ok', r') := take_vals vs u in
  rec_vals c' = pre ++ ws /\ ok = ok' /\ r = r' /\ c_hash c' = hh.
Lemma tf1 hh g st fs c v vs pre : g c = v -> (forall x, rec_vals (st c x) = pre ++ inl x :: vs /\ c_hash (st c x) = hh) ->
  (forall x, tf hh fs (st c x) vs (pre ++ [inl x])) -> tf hh (G1F g st :: fs) c (inl v :: vs) pre.
Proof.
  intros <- S N u. cbn [take_fields take_vals]. destruct (take1 (g c) u) as [[x ok] r]. destruct ok.
  - specialize (N x r). destruct (take_fields fs (st c x) r) as [[c' ok] r0]. destruct (take_vals vs r) as [[ws ok'] r'].
    rewrite <- app_assoc in N. exact N.
  - destruct (S x). auto.
Qed.
Lemma tf2 hh g st fs c v vs pre : g c = v -> (forall x, rec_vals (st c x) = pre ++ inr x :: vs /\ c_hash (st c x) = hh) ->
  (forall x, tf hh fs (st c x) vs (pre ++ [inr x])) -> tf hh (G2F g st :: fs) c (inr v :: vs) pre.
Proof.
  intros <- S N u. cbn [take_fields take_vals]. destruct (take2 (g c) u) as [[x ok] r]. destruct ok.
  - specialize (N x r). destruct (take_fields fs (st c x) r) as [[c' ok] r0]. destruct (take_vals vs r) as [[ws ok'] r'].
    rewrite <- app_assoc in N. exact N.
  - destruct (S x). auto.
Qed.
Lemma take_fields_vals (c : contrib E) u :
  let '(c', ok, r) := take_fields toDecode c u in take_vals (rec_vals c) u = (rec_vals c', ok, r) /\ c_hash c' = c_hash c.
Proof.
  assert (H : tf (c_hash c) toDecode c (rec_vals c) []).
  { destruct c as [a1 a2 a3 a4 a5 [b1 b2 b3] [d1 d2 d3] [e1 e2 e3] hh]. unfold rec_vals, key_vals.
    cbn [app c_tau1 c_alpha1 c_beta1 c_tau2 c_beta2 c_kt c_ka c_kb c_hash kS kSX kSPX].
    Ltac tstep := first [apply tf1|apply tf2]; [reflexivity|intros ?; split; reflexivity|intros ?;
      cbv beta; unfold s_tau1, s_alpha1, s_beta1, s_tau2, s_beta2, s_kt, s_ka, s_kb, s_S, s_SX, s_SPX; cbn [app c_tau1 c_alpha1 c_beta1 c_tau2 c_beta2 c_kt c_ka c_kb c_hash kS kSX kSPX]].
    do 14 tstep. intros v. cbn [take_fields take_vals]. rewrite app_nil_r. repeat split; reflexivity. }
  specialize (H u). destruct (take_fields toDecode c u) as [[c' ok] r]. destruct (take_vals (rec_vals c) u) as [[ws ok'] r'].
  destruct H as [-> [-> [-> H]]]. auto.
Qed.
Lemma take1_cases (y : E) u : let '(x, ok, r) := take1 y u in
  if ok then exists b, u = b ++ r /\ is1 b x else (exists b, u = b ++ r /\ broken (inl y) b (inl x)) \/ (short (inl y) u /\ x = y /\ r = []).
Proof.
  unfold take1. destruct (Nat.ltb_spec (length u) 32) as [L|L]; [right; split; [now left|auto]|].
  set (b := firstn 32 u). assert (Lb : length b = 32%nat) by (unfold b; rewrite firstn_length; lia). cbv zeta.
  destruct (compressed b) eqn:C.
  - destruct (@g1dc E b) as [x|] eqn:D.
    + exists b. split; [apply firstn_skipn'|]. left. auto.
    + left. exists b. split; [apply firstn_skipn'|]. split; [left; auto|reflexivity].
  - assert (Cu : compressed u = false). { unfold b in C. destruct u; [reflexivity|exact C]. }
    destruct (Nat.ltb_spec (length (skipn 32 u)) 32) as [L2|L2].
    + right. split; [|auto]. right. rewrite skipn_length in L2. split; [exact Cu|]. lia.
    + set (t := skipn 32 u) in *. set (b2 := firstn 32 t). assert (Lb2 : length b2 = 32%nat) by (unfold b2; rewrite firstn_length; lia).
      assert (Q : u = (b ++ b2) ++ skipn 32 t). { unfold b2. rewrite <- app_assoc, <- firstn_skipn'. apply firstn_skipn'. }
      assert (Lbb : length (b ++ b2) = 64%nat) by (rewrite app_length; lia).
      assert (Cb : compressed (b ++ b2) = false) by (destruct b; [discriminate Lb|exact C]).
      destruct (@g1dr E (b ++ b2)) as [x|] eqn:D.
      * exists (b ++ b2). split; [exact Q|]. right. auto.
      * left. exists (b ++ b2). split; [exact Q|]. split; [right; auto|reflexivity].
Qed.
Lemma take2_cases (y : E) u : let '(x, ok, r) := take2 y u in
  if ok then exists b, u = b ++ r /\ is2 b x else (exists b, u = b ++ r /\ broken (inr y) b (inr x)) \/ (short (inr y) u /\ x = y /\ r = []).
Proof.
  unfold take2. destruct (Nat.ltb_spec (length u) 64) as [L|L]; [right; split; [now left|auto]|].
  set (b := firstn 64 u). assert (Lb : length b = 64%nat) by (unfold b; rewrite firstn_length; lia). cbv zeta.
  destruct (compressed b) eqn:C.
  - destruct (@g2dc E b) as [x|] eqn:D.
    + exists b. split; [apply firstn_skipn'|]. left. auto.
    + left. exists b. split; [apply firstn_skipn'|]. split; [left; auto|reflexivity].
  - assert (Cu : compressed u = false). { unfold b in C. destruct u; [reflexivity|exact C]. }
    destruct (Nat.ltb_spec (length (skipn 64 u)) 64) as [L2|L2].
    + right. split; [|auto]. right. rewrite skipn_length in L2. split; [exact Cu|]. lia.
    + set (t := skipn 64 u) in *. set (b2 := firstn 64 t). assert (Lb2 : length b2 = 64%nat) by (unfold b2; rewrite firstn_length; lia).
      assert (Q : u = (b ++ b2) ++ skipn 64 t). { unfold b2. rewrite <- app_assoc, <- firstn_skipn'. apply firstn_skipn'. }
      assert (Lbb : length (b ++ b2) = 128%nat) by (rewrite app_length; lia).
      assert (Cb : compressed (b ++ b2) = false) by (destruct b; [discriminate Lb|exact C]).
      destruct (@g2dr E (b ++ b2)) as [x|] eqn:D.
      * exists (b ++ b2). split; [exact Q|]. right. auto.
      * left. exists (b ++ b2). split; [exact Q|]. split; [right; auto|reflexivity].
Qed.
Lemma comp_app b u : b <> [] -> compressed (b ++ u) = compressed b.
Proof. destruct b; [contradiction|reflexivity]. Qed.
Lemma comp_first n u : n <> 0%nat -> compressed (firstn n u) = compressed u.
Proof. intros N. destruct n; [contradiction|]. destruct u; reflexivity. Qed.
Lemma take1_broken (y : E) b x u : broken (inl y) b (inl x) -> take1 y (b ++ u) = (x, false, u).
Proof.
  intros [H Q]. assert (Hx : x = g1bad b y) by congruence. subst x. clear Q. unfold take1. destruct H as [[L [C D]]|[L [C D]]].
  - rewrite app_length. destruct (Nat.ltb_spec (length b + length u) 32); [lia|]. rewrite <- L, firstn_app_exact, skipn_app_exact. cbv zeta. now rewrite C, D.
  - pose proof (firstn_skipn 32 b) as Q. set (b1 := firstn 32 b) in *. set (b2 := skipn 32 b) in *.
    assert (L1 : length b1 = 32%nat) by (unfold b1; rewrite firstn_length; lia). assert (L2 : length b2 = 32%nat) by (unfold b2; rewrite skipn_length; lia).
    clearbody b1 b2. subst b. rewrite <- app_assoc. clear L.
    assert (C1 : compressed b1 = false) by (destruct b1; [reflexivity|exact C]).
    replace (firstn 32 (b1 ++ b2 ++ u)) with b1 by (rewrite <- L1; now rewrite firstn_app_exact).
    replace (skipn 32 (b1 ++ b2 ++ u)) with (b2 ++ u) by (rewrite <- L1; now rewrite skipn_app_exact).
    replace (firstn 32 (b2 ++ u)) with b2 by (rewrite <- L2; now rewrite firstn_app_exact).
    replace (skipn 32 (b2 ++ u)) with u by (rewrite <- L2; now rewrite skipn_app_exact).
    cbv zeta. rewrite C1, D, !app_length. destruct (Nat.ltb_spec (length b1 + (length b2 + length u)) 32); [lia|].
    destruct (Nat.ltb_spec (length b2 + length u) 32); [lia|reflexivity].
Qed.
Lemma take2_broken (y : E) b x u : broken (inr y) b (inr x) -> take2 y (b ++ u) = (x, false, u).
Proof.
  intros [H Q]. assert (Hx : x = g2bad b y) by congruence. subst x. clear Q. unfold take2. destruct H as [[L [C D]]|[L [C D]]].
  - rewrite app_length. destruct (Nat.ltb_spec (length b + length u) 64); [lia|]. rewrite <- L, firstn_app_exact, skipn_app_exact. cbv zeta. now rewrite C, D.
  - pose proof (firstn_skipn 64 b) as Q. set (b1 := firstn 64 b) in *. set (b2 := skipn 64 b) in *.
    assert (L1 : length b1 = 64%nat) by (unfold b1; rewrite firstn_length; lia). assert (L2 : length b2 = 64%nat) by (unfold b2; rewrite skipn_length; lia).
    clearbody b1 b2. subst b. rewrite <- app_assoc. clear L.
    assert (C1 : compressed b1 = false) by (destruct b1; [reflexivity|exact C]).
    replace (firstn 64 (b1 ++ b2 ++ u)) with b1 by (rewrite <- L1; now rewrite firstn_app_exact).
    replace (skipn 64 (b1 ++ b2 ++ u)) with (b2 ++ u) by (rewrite <- L1; now rewrite skipn_app_exact).
    replace (firstn 64 (b2 ++ u)) with b2 by (rewrite <- L2; now rewrite firstn_app_exact).
    replace (skipn 64 (b2 ++ u)) with u by (rewrite <- L2; now rewrite skipn_app_exact).
    cbv zeta. rewrite C1, D, !app_length. destruct (Nat.ltb_spec (length b1 + (length b2 + length u)) 64); [lia|].
    destruct (Nat.ltb_spec (length b2 + length u) 64); [lia|reflexivity].
Qed.
Lemma take1_short (y : E) u : short (inl y) u -> take1 y u = (y, false, []).
Proof.
  unfold short, take1. intros [L|[C L]]; destruct (Nat.ltb_spec (length u) 32); try lia; try reflexivity. cbv zeta.
  rewrite comp_first, C by discriminate. rewrite skipn_length. destruct (Nat.ltb_spec (length u - 32) 32); [reflexivity|lia].
Qed.
Lemma take2_short (y : E) u : short (inr y) u -> take2 y u = (y, false, []).
Proof.
  unfold short, take2. intros [L|[C L]]; destruct (Nat.ltb_spec (length u) 64); try lia; try reflexivity. cbv zeta.
  rewrite comp_first, C by discriminate. rewrite skipn_length. destruct (Nat.ltb_spec (length u - 64) 64); [reflexivity|lia].
Qed.
Lemma points_take : forall vs u ws ok r, points vs u ws ok r -> take_vals vs u = (ws, ok, r).
Proof.
  induction 1 as [u|v vs b x u ws ok r I S P IH|v vs b x u B|v vs u S].
  - reflexivity.
  - destruct v as [y|y], x as [x|x]; try contradiction; cbn [take_vals].
    + rewrite (take1_is b x y u I), IH. reflexivity.
    + rewrite (take2_is b x y u I), IH. reflexivity.
  - destruct v as [y|y]; pose proof B as [_ ->]; cbn [take_vals]; [now rewrite (take1_broken _ _ _ u B)|now rewrite (take2_broken _ _ _ u B)].
  - destruct v as [y|y]; cbn [take_vals]; [now rewrite take1_short|now rewrite take2_short].
Qed.
Lemma take_points : forall vs u, let '(ws, ok, r) := take_vals vs u in points vs u ws ok r.
Proof.
  induction vs as [|v vs IH]; intros u; [constructor|]. destruct v as [y|y]; cbn [take_vals].
  - pose proof (take1_cases y u) as T. destruct (take1 y u) as [[x ok] r]. destruct ok.
    + destruct T as [b [-> I]]. specialize (IH r). destruct (take_vals vs r) as [[ws ok'] r']. constructor; [exact I|exact Logic.I|exact IH].
    + destruct T as [[b [-> B]]|[S [-> ->]]]; [now constructor|now apply pts_short].
  - pose proof (take2_cases y u) as T. destruct (take2 y u) as [[x ok] r]. destruct ok.
    + destruct T as [b [-> I]]. specialize (IH r). destruct (take_vals vs r) as [[ws ok'] r']. constructor; [exact I|exact Logic.I|exact IH].
    + destruct T as [[b [-> B]]|[S [-> ->]]]; [now constructor|now apply pts_short].
Qed.
Lemma pad_eq r : r ++ skipn (length r) zeros32 = padded32 r.
Proof.
  unfold padded32, zeros32. change (b8 0) with x00. f_equal. destruct (Nat.le_gt_cases (length r) 32) as [L|L].
  - replace 32%nat with (length r + (32 - length r))%nat at 1 by lia. rewrite repeat_app, skipn_app, repeat_length, Nat.sub_diag.
    rewrite skipn_all2 by (rewrite repeat_length; lia). reflexivity.
  - rewrite skipn_all2 by (rewrite repeat_length; lia). now replace (32 - length r)%nat with 0%nat by lia.
Qed.
Lemma rec1_iff (old c : contrib E) u r : rec1 old u c r <-> exists ok, take_rec old u = (c, ok, r).
Proof.
  unfold take_rec. pose proof (take_fields_vals old u) as T. destruct (take_fields toDecode old u) as [[c1 ok1] r1]. destruct T as [T H1]. split.
  - intros R. destruct R as [r0 P H|r0 P H]; apply points_take in P; rewrite T in P; apply pair_equal_spec in P as [P P3]; apply pair_equal_spec in P as [P1 P2]; subst ok1 r1.
    + destruct r0 as [|x0 r0].
      * exists false. assert (Q : s_hash c1 zeros32 = c) by (apply rec_vals_inj; [exact P1|now rewrite H]). rewrite Q. reflexivity.
      * exists true. rewrite pad_eq. assert (Q : s_hash c1 (padded32 (firstn 32 (x0 :: r0))) = c) by (apply rec_vals_inj; [exact P1|now rewrite H]). rewrite Q. reflexivity.
    + exists false. assert (Q : c1 = c) by (apply rec_vals_inj; [exact P1|congruence]). now rewrite Q.
  - intros [ok Q]. pose proof (take_points (rec_vals old) u) as P. rewrite T in P. destruct ok1.
    + destruct r1 as [|x0 r1].
      * injection Q as <- _ <-. apply (rec1_whole old u _ []); [exact P|reflexivity].
      * rewrite pad_eq in Q. assert (Q1 : s_hash c1 (padded32 (firstn 32 (x0 :: r1))) = c) by congruence. assert (Q2 : skipn 32 (x0 :: r1) = r) by congruence.
        rewrite <- Q1, <- Q2. apply (rec1_whole old u _ (x0 :: r1)); [exact P|reflexivity].
    + injection Q as <- _ <-. now apply rec1_part.
Qed.
Lemma seen1_iff : forall l (old : contrib E) u, seen1 old u l <-> l = take_chain (length l) old u.
Proof.
  induction l as [|c l IH]; intros old u; [split; [reflexivity|constructor]|]. cbn [length take_chain]. split.
  - intros S. inversion S as [|old' u' c' r l' R S' Q1 Q2 Q3]. subst. apply rec1_iff in R as [ok R]. rewrite R. f_equal. now apply IH.
  - destruct (take_rec old u) as [[c' ok] r] eqn:R. intros Q. assert (c = c') by congruence. subst c'.
    apply (seen1_cons old u c r); [apply rec1_iff; eauto|]. apply IH. congruence.
Qed.
Lemma take_chain_len : forall n (old : contrib E) u, length (take_chain n old u) = n.
Proof. induction n as [|n IH]; intros old u; [reflexivity|]. cbn [take_chain]. destruct (take_rec old u) as [[c ok] r]. cbn [length]. now rewrite IH. Qed.
Lemma follows_iff (o c : contrib E) : follows o c <-> verify_contrib c o = None.
Proof.
  split; [|exact (verify_inv c o)]. intros [H1 [H2 [H3 [H4 [H5 [H6 [H7 [H8 H9]]]]]]]].
  unfold known, stepA, stepB in *. unfold verify_contrib. cbv zeta. change (@gen_sp E) with (@chal E). unfold same_ratio.
  rewrite (proj2 (feqb_ok _ _ _) H1), (proj2 (feqb_ok _ _ _) H2), (proj2 (feqb_ok _ _ _) H3), (proj2 (feqb_ok _ _ _) H4), (proj2 (feqb_ok _ _ _) H5),
    (proj2 (feqb_ok _ _ _) H6), (proj2 (feqb_ok _ _ _) H7), (proj2 (feqb_ok _ _ _) H8). cbn [check].
  rewrite hash_vals, H9, bytes_eqb_refl. reflexivity.
Qed.
Lemma chain1_iff : forall l (o : contrib E), chain1 o l <-> chain_err o l = None.
Proof.
  induction l as [|c l IH]; intros o; [split; [reflexivity|exact (fun _ => I)]|]. cbn [chain1 chain_err]. rewrite follows_iff, IH.
  destruct (verify_contrib c o); [split; [intros [X _]; discriminate|discriminate]|tauto].
Qed.

Lemma v1_only bs (rho : nat -> nat -> nat -> E) trans f g hs : 1 <= bs -> fst (exec (verify bs rho trans) f g) = Ok hs ->
  exists o : contrib E, origin_is trans g o /\ accepts1 f o hs.
Proof.
  intros B H. destruct (exec (verify bs rho trans) f g) as [r out0] eqn:X. cbn [fst] in H. subst r.
  destruct (verify_ok_inv bs rho trans f g hs out0 B X) as [p [n [s [sb [tail [o [H1 [H2 [H3 [H4 [H5 [H6 H7]]]]]]]]]]]].
  cbv zeta in H7. destruct H7 as [C [-> H8]]. exists o. split; [exact H6|].
  exists p, n, s, sb, tail, (take_chain (N.to_nat n) zero_contrib tail). do 5 (split; [auto|]). split; [apply take_chain_len|].
  split; [apply seen1_iff; now rewrite take_chain_len|]. split; [now apply chain1_iff|]. auto.
Qed.
Lemma v1_if bs (rho : nat -> nat -> nat -> E) trans f g (o : contrib E) hs : mexp_strict E -> 1 <= bs -> origin_is trans g o -> accepts1 f o hs ->
  exec (verify bs rho trans) f g = (Ok hs, []).
Proof.
  intros MS B O [p [n [s [sb [tail [l [H1 [H2 [H3 [H4 [H5 [H6 [H7 [H8 [H9 ->]]]]]]]]]]]]]]].
  apply seen1_iff in H7. rewrite H6 in H7. apply chain1_iff in H8.
  destruct (verify_ev bs rho trans f p n s sb tail o (opened f, opened g) (opened g) MS B H1 H2 H4 H5 H3 eq_refl) as [s' V]; [|reflexivity|].
  { intros st G. destruct (origin_run (E := E) trans g st G) as [s' D]. rewrite O in D. exists s'. split; [exact D|].
    apply (uses_other true _ (uses_default trans) _ _ _ _ D). }
  unfold verdict in V. cbv zeta in V. change (@zero_contrib E) with (@blank E) in V. rewrite <- H7, H8 in V.
  rewrite (proj2 (feqb_ok _ _ _) H9) in V. apply ev_exec in V. exact V.
Qed.
Lemma v1_none bs (rho : nat -> nat -> nat -> E) f g hs : 1 <= bs -> fst (exec (verify bs rho None) f g) = Ok hs -> accepts1 f (@origin_gen E) hs.
Proof. intros B H. destruct (v1_only bs rho None f g hs B H) as [o [O A]]. injection O as <-. exact A. Qed.
Lemma v1_iff bs (rho : nat -> nat -> nat -> E) f g hs : mexp_strict E -> 1 <= bs ->
  (exec (verify bs rho None) f g = (Ok hs, []) <-> accepts1 f (@origin_gen E) hs).
Proof.
  intros MS B. split.
  - intros X. destruct (v1_only bs rho None f g hs B) as [o [O A]]; [now rewrite X|]. injection O as <-. exact A.
  - intros A. now apply (v1_if bs rho None f g origin_gen hs MS B).
Qed.
Lemma vt1_iff bs (rho : nat -> nat -> nat -> E) f g hs : mexp_strict E -> 1 <= bs ->
  (exec (verify bs rho (Some true)) f g = (Ok hs, []) <->
   exists q (t a b t2 b2 : E), q <= 55 /\ starts q g t a b t2 b2 /\ accepts1 f (mkContrib t a b t2 b2 (mkKey 0 0 0) (mkKey 0 0 0) (mkKey 0 0 0) []) hs).
Proof.
  intros MS B. split.
  - intros X. destruct (v1_only bs rho (Some true) f g hs B) as [o [O A]]; [now rewrite X|]. apply origin_iff in O as [q [t [a [b [t2 [b2 [L [S ->]]]]]]]].
    exists q, t, a, b, t2, b2. auto.
  - intros [q [t [a [b [t2 [b2 [L [S A]]]]]]]]. eapply (v1_if bs rho (Some true) f g _ hs MS B); [|exact A]. apply origin_iff. exists q, t, a, b, t2, b2. auto.
Qed.
End V.
