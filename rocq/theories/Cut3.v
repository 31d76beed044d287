(* Cut3.v -- records that are not there; what Contribute accepts. *)
From Coq Require Import Ring Field.
From Verif Require Import Base Fld IO Ext Spec1 Phase1 Phase1Io Phase1Verify Phase1Trans Phase1Facts Phase1Inv Phase1More Phase1Claims Spec7 Cut1 Cut2.
Local Open Scope fld_scope.

Section Phantom.
Context {E : Ext}.
Add Field Kcut4 : (f_th E).

Lemma idle_zero (prev : contrib E) t2 b2 : verify_contrib (idle_rec 0 0 0 t2 b2 0 0 0) prev = None.
Proof.
  pose proof (idle_ok prev 0 0 0 t2 b2) as H.
  replace (0 * c_tau1 prev) with (0 : E) in H by ring. replace (0 * c_alpha1 prev) with (0 : E) in H by ring.
  replace (0 * c_beta1 prev) with (0 : E) in H by ring. replace (0 * chal 0 0 (c_hash prev) 1) with (0 : E) in H by ring.
  replace (0 * chal 0 0 (c_hash prev) 2) with (0 : E) in H by ring. replace (0 * chal 0 0 (c_hash prev) 3) with (0 : E) in H by ring.
  exact H.
Qed.
Lemma idle_hash32 t1 a1 b1 t2 b2 kt ka kb : length (c_hash (@idle_rec E t1 a1 b1 t2 b2 kt ka kb)) = 32%nat.
Proof. apply sha_len. Qed.

Lemma take_chain_app : forall l rb (cur : contrib E) t m, are_recs rb l ->
  take_chain (length l + m) cur (rb ++ t) = l ++ take_chain m (last l cur) t.
Proof.
  induction l as [|r l IH]; intros rb cur t m A.
  - inversion A. reflexivity.
  - inversion A as [|b1 r' t1 l' R A']; subst. cbn [length Nat.add take_chain]. rewrite <- app_assoc, (take_rec_is b1 r) by auto.
    rewrite (IH t1 r t m A'). rewrite last_cons_d. reflexivity.
Qed.
Lemma chain_idle (c : contrib E) : (forall prev, verify_contrib c prev = None) -> forall n prev, chain_err prev (repeat c n) = None.
Proof. intros H. induction n as [|n IH]; intros prev; [reflexivity|]. cbn [repeat chain_err]. rewrite H. apply IH. Qed.
Lemma last_repeat {X} (c d : X) n : 1 <= n -> last (repeat c n) d = c.
Proof. intros H. destruct n as [|n]; [lia|]. clear H. induction n as [|n IH]; [reflexivity|]. exact IH. Qed.
Lemma map_repeat' {X Y} (f : X -> Y) c n : map f (repeat c n) = repeat (f c) n.
Proof. induction n; cbn; congruence. Qed.

Lemma copied_short : forall (l : list (contrib E)) rb (cur : contrib E) m, are_recs rb l -> 1 <= m -> exists b, copied (length l + m) cur rb = (b, None).
Proof.
  induction l as [|r l IH]; intros rb cur m A M.
  - inversion A; subst. destruct m as [|m]; [lia|]. cbn [length Nat.add copied]. rewrite take_rec_nil. eauto.
  - inversion A as [|b1 r' t1 l' R A']; subst. cbn [length Nat.add copied]. rewrite (take_rec_is b1 r) by auto.
    destruct (IH t1 r m A' M) as [b ->]. eauto.
Qed.

(* one forged record of 640 bytes stands for any number of claimed contributions *)
Lemma phantom bs (rho : nat -> nat -> nat -> E) trans g p (s : srs E) (l : list (contrib E)) (o : contrib E) hs n t2 b2 : mexp_strict E -> 1 <= bs -> 1 <= p <= 62 ->
  (n < 65536)%N -> length l < N.to_nat n -> sized p s -> hashed32 l -> origin_is trans g o ->
  fst (exec (verify bs rho trans) (file1 p s l) g) = Ok hs ->
  exists c f, length (rec_bytes c) = 640%nat /\ c_tau1 c = 0 /\ c_tau2 c = t2 /\ c_beta2 c = b2 /\
    f = b8 (N.of_nat p) :: be16 n ++ srs_bytes (set_beta2 s b2) ++ recs_bytes l ++ rec_bytes c /\
    fst (exec (verify bs rho trans) f g) = Ok (hs ++ repeat (c_hash c) (N.to_nat n - length l)) /\
    (1 < N.to_nat n - length l -> forall bs' (w : @rnd1 E), 2 <= bs' -> fst (exec (contribute bs' w) f g) = Err EEof).
Proof.
  intros MS B P Hn Hl SZ H32 O H.
  rewrite (verify_file bs rho trans (file1 p s l) g p s l o) in H; [|auto|auto|lia|lia|rewrite <- (app_nil_r (file1 p s l)); now apply file1_is|now apply origin_is_src].
  cbn [fst] in H. unfold outcome in H. destruct (chain_err o l) eqn:C; [discriminate|].
  destruct (feqb (beta2 s) (c_beta2 (last l zero_contrib))); [|discriminate]. injection H as <-.
  set (c := @idle_rec E 0 0 0 t2 b2 0 0 0). pose proof (idle_hash32 0 0 0 t2 b2 0 0 0) as HC. fold c in HC.
  exists c. eexists. split; [now apply rec_bytes_length|]. do 3 (split; [reflexivity|]). split; [reflexivity|].
  assert (AR : are_recs (recs_bytes l ++ rec_bytes c) (l ++ [c])).
  { replace (recs_bytes l ++ rec_bytes c) with (recs_bytes (l ++ [c])).
    - apply are_recs_bytes. intros x Hx. apply in_app_or in Hx as [Hx|[<-|[]]]; [now apply H32|exact HC].
    - unfold recs_bytes. rewrite flat_map_app. cbn [flat_map]. now rewrite app_nil_r. }
  assert (SZ' : sized p (set_beta2 s b2)) by exact SZ.
  split.
  - rewrite (verify_bytes bs rho trans _ g p n (set_beta2 s b2) (srs_bytes (set_beta2 s b2)) (recs_bytes l ++ rec_bytes c) o);
      [|auto|auto|lia|auto|exact SZ'|apply is_srs_bytes|reflexivity|now apply origin_is_src].
    cbn [fst]. unfold verdict.
    assert (T : take_chain (N.to_nat n) zero_contrib (recs_bytes l ++ rec_bytes c) = l ++ repeat c (N.to_nat n - length l)).
    { replace (N.to_nat n) with (length (l ++ [c]) + (N.to_nat n - length l - 1))%nat by (rewrite app_length; cbn [length]; lia).
      pose proof (take_chain_app (l ++ [c]) _ zero_contrib [] (N.to_nat n - length l - 1) AR) as T.
      rewrite app_nil_r in T. rewrite T, take_chain_nil, last_last, <- app_assoc. f_equal.
      change ([c] ++ repeat c (N.to_nat n - length l - 1)) with (repeat c (S (N.to_nat n - length l - 1))). f_equal.
      rewrite app_length. cbn [length]. lia. }
    rewrite T, chain_err_app, C, (chain_idle c (fun prev => idle_zero prev t2 b2)).
    assert (LL : last (l ++ repeat c (N.to_nat n - length l)) zero_contrib = c).
    { destruct (N.to_nat n - length l)%nat as [|m] eqn:Q; [lia|].
      replace (repeat c (S m)) with (repeat c m ++ [c]) by (rewrite <- repeat_cons; reflexivity).
      rewrite app_assoc. apply last_last. }
    rewrite LL. change (beta2 (set_beta2 s b2)) with b2. change (c_beta2 c) with b2. rewrite feqb_refl.
    now rewrite map_app, map_repeat'.
  - intros M bs' w B2.
    match goal with |- context [exec _ ?f _] => set (ff := f) end.
    pose proof (contribute_bytes bs' w ff p n (set_beta2 s b2) (srs_bytes (set_beta2 s b2)) (recs_bytes l ++ rec_bytes c)
      (opened ff, opened g) B2 P Hn SZ' (is_srs_bytes _) eq_refl eq_refl) as D. cbv zeta in D.
    destruct (copied_short (l ++ [c]) _ zero_contrib (N.to_nat n - length (l ++ [c])) AR) as [b Q].
    { rewrite app_length. cbn [length]. lia. }
    replace (length (l ++ [c]) + (N.to_nat n - length (l ++ [c])))%nat with (N.to_nat n) in Q by (rewrite app_length; cbn [length]; lia).
    rewrite Q in D. destruct D as [s' D]. apply ev_exec in D. now rewrite D.
Qed.
End Phantom.

Section Own.
Context {E : Ext}.
Add Field Kcut5 : (f_th E).
(* for a record with live keys, answering its own hash means that two challenges agree *)
Lemma own_challenges l (prev : contrib E) c : chain_err prev l = None -> In c l -> follows_itself c ->
  kSX (c_kt c) <> 0 -> kSX (c_ka c) <> 0 -> kSX (c_kb c) <> 0 ->
  exists l1 l2, l = l1 ++ c :: l2 /\ same_challenges (c_hash (last l1 prev)) c.
Proof.
  intros C I F K1 K2 K3. apply in_split in I as [l1 [l2 ->]]. exists l1, l2. split; [reflexivity|].
  rewrite chain_err_app in C. destruct (chain_err prev l1); [discriminate|]. cbn [chain_err] in C.
  destruct (verify_contrib c (last l1 prev)) eqn:V; [discriminate|]. apply verify_inv in V as [V1 [V2 [V3 _]]].
  destruct F as [F1 [F2 F3]].
  assert (X : forall k x y : E, k <> 0 -> k * x = k * y -> x = y).
  { intros k x y K Q. transitivity (k * x / k); [field; auto|]. rewrite Q. field; auto. }
  split; [apply (X _ _ _ K1); congruence|]. split; [apply (X _ _ _ K2); congruence|apply (X _ _ _ K3); congruence].
Qed.
End Own.

Section Accepts.
Context {E : Ext}.
Add Field Kcut6 : (f_th E).

Lemma app_repeat_split (f a t : bytes) z : f ++ repeat x00 z = a ++ t -> z <= length t -> exists t', f = a ++ t' /\ t = t' ++ repeat x00 z.
Proof.
  intros H Z. exists (firstn (length t - z) t).
  assert (S0 : f ++ repeat x00 z = (a ++ firstn (length t - z) t) ++ skipn (length t - z) t) by (now rewrite <- app_assoc, firstn_skipn).
  apply app_inv_len in S0.
  - destruct S0 as [S1 S2]. split; [exact S1|]. rewrite S2. now rewrite firstn_skipn.
  - apply (f_equal (@length _)) in H. rewrite !app_length, repeat_length in H. rewrite app_length, firstn_length. lia.
Qed.
(* the final hash may lack bytes if they are zero *)
Lemma take_rec_pad (c r : contrib E) rest z : 1 <= z <= 31 -> is_rec (rest ++ repeat x00 z) r -> take_rec c rest = (r, true, []).
Proof.
  intros Z [pb [Q [A L]]]. apply app_repeat_split in Q; [|lia]. destruct Q as [h [-> HH]].
  assert (LH : (length h + z = 32)%nat) by (apply (f_equal (@length _)) in HH; rewrite app_length, repeat_length, L in HH; lia).
  unfold take_rec. rewrite (take_fields_is toDecode (rec_vals r) c (s_hash r (c_hash c))) by auto using set_fields_decode.
  destruct h as [|x h0] eqn:Eh; [cbn [length] in LH; lia|]. rewrite <- Eh in *. clear Eh x h0.
  rewrite (firstn_all2 (n := 32)) by lia. rewrite (skipn_all2 (n := 32)) by lia.
  unfold zeros32. rewrite skipn_repeat. replace (32 - length h)%nat with z by lia. change (b8 0) with x00. rewrite <- HH. now destruct r.
Qed.
Lemma is_rec_long b (r : contrib E) : is_rec b r -> 32 <= length b.
Proof. intros [pb [-> [_ L]]]. rewrite app_length. lia. Qed.
Lemma copied_pad : forall (l : list (contrib E)) rb rest junk cur z, are_recs rb l -> z < 32 -> (l = [] -> z = 0%nat) ->
  rest ++ repeat x00 z = rb ++ junk -> copied (length l) cur rest = (recs_bytes l, Some (last l cur)).
Proof.
  induction l as [|r l IH]; intros rb rest junk cur z A Z Z0 Q; [reflexivity|].
  inversion A as [|b1 r' t1 l' R A']; subst. cbn [length copied]. rewrite <- app_assoc in Q.
  destruct (Nat.le_gt_cases z (length (t1 ++ junk))) as [LE|GT].
  - apply app_repeat_split in Q; [|exact LE]. destruct Q as [t' [-> Q]].
    rewrite (take_rec_is b1 r) by auto. destruct l as [|r2 l].
    + cbn [length copied]. reflexivity.
    + rewrite (IH t1 t' junk r z A' Z ltac:(discriminate) (eq_sym Q)).
      rewrite (last_cons_d (r2 :: l) cur r). reflexivity.
  - destruct l as [|r2 l].
    2:{ exfalso. inversion A' as [|b2 r2' t2 l2 R2 _]; subst. apply is_rec_long in R2. rewrite !app_length in GT. lia. }
    inversion A'. subst t1. cbn [app] in *.
    assert (QQ : rest ++ repeat x00 (z - length junk) = b1).
    { replace (repeat x00 z) with (repeat x00 (z - length junk) ++ repeat x00 (length junk)) in Q by (rewrite <- repeat_app; f_equal; lia).
      rewrite app_assoc in Q. apply app_inv_len in Q; [tauto|].
      apply (f_equal (@length _)) in Q. rewrite !app_length, !repeat_length in Q. rewrite app_length, repeat_length. lia. }
    rewrite (take_rec_pad cur r rest (z - length junk)) by (try lia; now rewrite QQ).
    reflexivity.
Qed.

Lemma is_file1_split (f : bytes) p (s : srs E) l z : z < 32 -> (l = [] -> z = 0%nat) -> is_file1 (f ++ repeat x00 z) p s l ->
  exists sb tail rb junk, f = b8 (N.of_nat p) :: be16 (N.of_nat (length l)) ++ sb ++ tail /\ sized p s /\ is_srs sb s /\ are_recs rb l /\
    tail ++ repeat x00 z = rb ++ junk.
Proof.
  intros Z Z0 [sb [rb [junk [F [SZ [IS A]]]]]].
  assert (LE : z <= length (rb ++ junk)).
  { destruct l as [|r l]; [rewrite Z0 by reflexivity; lia|]. inversion A as [|b1 r' t1 l' R A']; subst.
    apply is_rec_long in R. rewrite !app_length. lia. }
  rewrite (app_assoc _ sb) in F. apply app_repeat_split in F; [|exact LE]. destruct F as [tail [-> Q]].
  exists sb, tail, rb, junk. split; [unfold hdr1; cbn [app]; now rewrite <- app_assoc|]. auto.
Qed.

(* Contribute, on any bytes *)
Lemma contribute_iff bs (w : @rnd1 E) f g : 2 <= bs ->
  ((exists h, fst (exec (contribute (E := E) bs w) f g) = Ok h) <->
   (exists p (s : srs E) l z, 1 <= p <= 62 /\ length l < N.to_nat 65536 /\ z < 32 /\ (l = [] -> z = 0%nat) /\ is_file1 (f ++ repeat x00 z) p s l)).
Proof.
  intros B2. split.
  - intros [h H]. destruct (exec (contribute bs w) f g) as [r out0] eqn:X. cbn [fst] in H. subst r.
    assert (B1 : 1 <= bs) by lia.
    destruct (contribute_ok_inv bs w f g h out0 B1 X) as [p [n [s [sb [tail [P [Hn [F [SZ IS]]]]]]]]].
    assert (P1 : 1 <= p).
    { destruct p as [|p]; [exfalso|lia].
      destruct SZ as [Z1 _]. destruct IS as [b1 [b2 [b3 [b4 [b5 [-> [I1 _]]]]]]].
      destruct (tau1 s) as [|x tl]; [discriminate|]. inversion I1 as [|b0 y t0 l0 Q0 Q1]; subst.
      unfold be16 in X. cbn [app] in X. rewrite <- !app_assoc in X.
      erewrite (contribute_power0 bs w _ g) in X; [|exact B1|exact Q0|reflexivity]. discriminate. }
    pose proof (contribute_bytes bs w f p n s sb tail (opened f, opened g) B2 (conj P1 P) Hn SZ IS F eq_refl) as D. cbv zeta in D.
    destruct (copied (N.to_nat n) zero_contrib tail) as [b r] eqn:C. destruct D as [s' D]. apply ev_exec in D. rewrite D in X.
    destruct r as [c|]; [|discriminate].
    apply copied_true in C as [l [rb [junk [z [Q [A [L [Z [Z0 _]]]]]]]]].
    exists p, s, l, z. split; [lia|]. split; [lia|]. split; [exact Z|]. split; [exact Z0|].
    exists sb, rb, junk. split; [|auto].
    rewrite F. unfold hdr1. rewrite L, N2Nat.id. cbn [app]. f_equal. rewrite <- !app_assoc. now rewrite Q.
  - intros [p [s [l [z [P [L [Z [Z0 F]]]]]]]].
    destruct (is_file1_split f p s l z Z Z0 F) as [sb [tail [rb [junk [Ef [SZ [IS [A Q]]]]]]]].
    assert (Hn : (N.of_nat (length l) < 65536)%N) by lia.
    pose proof (contribute_bytes bs w f p (N.of_nat (length l)) s sb tail (opened f, opened g) B2 P Hn SZ IS Ef eq_refl) as D. cbv zeta in D.
    rewrite Nat2N.id, (copied_pad l rb tail junk zero_contrib z A Z Z0 Q) in D.
    destruct D as [s' D]. apply ev_exec in D. rewrite D. eexists. reflexivity.
Qed.
Lemma contribute_pad bs (w : @rnd1 E) f g p (s : srs E) l z : 2 <= bs -> 1 <= p <= 62 -> length l < N.to_nat 65536 ->
  z < 32 -> (l = [] -> z = 0%nat) -> is_file1 (f ++ repeat x00 z) p s l ->
  exec (contribute bs w) f g = exec (contribute bs w) (f ++ repeat x00 z) g.
Proof.
  intros B2 P L Z Z0 F. assert (Hn : (N.of_nat (length l) < 65536)%N) by lia.
  destruct (is_file1_split f p s l z Z Z0 F) as [sb [tail [rb [junk [Ef [SZ [IS [A Q]]]]]]]].
  pose proof (contribute_bytes bs w f p (N.of_nat (length l)) s sb tail (opened f, opened g) B2 P Hn SZ IS Ef eq_refl) as D. cbv zeta in D.
  rewrite Nat2N.id, (copied_pad l rb tail junk zero_contrib z A Z Z0 Q) in D. destruct D as [s' D]. apply ev_exec in D.
  assert (Ef' : f ++ repeat x00 z = b8 (N.of_nat p) :: be16 (N.of_nat (length l)) ++ sb ++ (tail ++ repeat x00 z)).
  { rewrite Ef. cbn [app]. f_equal. now rewrite <- !app_assoc. }
  pose proof (contribute_bytes bs w _ p (N.of_nat (length l)) s sb _ (opened (f ++ repeat x00 z), opened g) B2 P Hn SZ IS Ef' eq_refl) as D2. cbv zeta in D2.
  rewrite Nat2N.id, Q, (copied_is l rb zero_contrib junk A) in D2. destruct D2 as [s2 D2]. apply ev_exec in D2.
  now rewrite D, D2.
Qed.

(* on a file cut short *)
Lemma copied_cut : forall (l : list (contrib E)) (cur : contrib E) k b c, hashed32 l -> k < length (recs_bytes l) ->
  copied (length l) cur (firstn k (recs_bytes l)) = (b, Some c) -> length (recs_bytes l) < k + 32.
Proof.
  induction l as [|r l IH]; intros cur k b c H32 K H; [cbn in K; lia|].
  assert (HR : length (c_hash r) = 32%nat) by (apply H32; now left). pose proof (rec_bytes_length r HR) as LR.
  change (recs_bytes (r :: l)) with (rec_bytes r ++ recs_bytes l) in *. rewrite app_length, LR in *. cbn [length copied] in H.
  destruct (Nat.le_gt_cases 640 k) as [Hk|Hk].
  - rewrite firstn_app_le, LR in H by (rewrite LR; exact Hk). rewrite (take_rec_is (rec_bytes r) r) in H by (now apply is_rec_bytes).
    destruct (copied (length l) r (firstn (k - 640) (recs_bytes l))) as [b1 r1] eqn:C. injection H as <- ->.
    apply IH in C; [lia| |lia]. intros x Hx. apply H32. now right.
  - rewrite firstn_app in H. replace (k - length (rec_bytes r))%nat with 0%nat in H by (rewrite LR; lia).
    rewrite (firstn_O (recs_bytes l)), app_nil_r in H.
    destruct (take_rec_cut r cur k HR Hk) as [c' [ok [T [_ OK]]]]. rewrite T in H. destruct ok; [|discriminate].
    assert (608 < k) by (now apply OK). destruct l as [|r2 l]; [cbn [recs_bytes flat_map length]; lia|].
    exfalso. cbn [length copied] in H. rewrite take_rec_nil in H. discriminate.
Qed.
Lemma cut_hash p (s : srs E) l c k : length (c_hash c) = 32%nat -> k < length (file1 p s (l ++ [c])) -> length (file1 p s (l ++ [c])) < k + 32 ->
  let z := (length (file1 p s (l ++ [c])) - k)%nat in
  firstn k (file1 p s (l ++ [c])) ++ repeat x00 z = file1 p s (l ++ [s_hash c (firstn (32 - z) (c_hash c) ++ repeat x00 z)]).
Proof.
  intros HC K LT z.
  assert (X : forall c1 : contrib E, file1 p s (l ++ [c1]) = (hdr1 p (S (length l)) ++ srs_bytes s ++ recs_bytes l ++ enc_vals (rec_vals c1)) ++ c_hash c1).
  { intros c1. unfold file1, recs_bytes, rec_bytes. rewrite app_length, flat_map_app. cbn [length flat_map]. rewrite app_nil_r, Nat.add_1_r, <- !app_assoc. reflexivity. }
  pose proof (X c) as Xc. set (A := hdr1 p _ ++ _) in Xc.
  assert (LA : length (file1 p s (l ++ [c])) = (length A + 32)%nat) by (rewrite Xc, app_length, HC; reflexivity).
  rewrite (X (s_hash c _)). change (rec_vals (s_hash c (firstn (32 - z) (c_hash c) ++ repeat x00 z))) with (rec_vals c). fold A.
  change (c_hash (s_hash c ?h)) with h. 
  assert (FA : firstn k (file1 p s (l ++ [c])) = A ++ firstn (32 - z) (c_hash c)).
  { rewrite Xc, firstn_app_le by lia. f_equal. f_equal. unfold z. lia. }
  rewrite FA, <- app_assoc. reflexivity.
Qed.
Lemma contribute_cut bs (w : @rnd1 E) g p (s : srs E) l k : 2 <= bs -> 1 <= p <= 62 -> length l < N.to_nat 65536 -> sized p s -> hashed32 l ->
  k < length (file1 p s l) ->
  ((exists h, fst (exec (contribute bs w) (firstn k (file1 p s l)) g) = Ok h) <-> l <> [] /\ length (file1 p s l) < k + 32).
Proof.
  intros B2 P L SZ H32 K. split.
  - intros [h H].
    assert (B1 : 1 <= bs) by lia. assert (Hn : (N.of_nat (length l) < 65536)%N) by lia.
    destruct (exec (contribute bs w) (firstn k (file1 p s l)) g) as [r out0] eqn:X. cbn [fst] in H. subst r.
    destruct (contribute_ok_inv bs w _ g h out0 B1 X) as [q [n [s1 [sb [tail [Q [Hn' [F [SZ1 IS]]]]]]]]].
    pose proof (firstn_skipn k (file1 p s l)) as FS. set (rest := skipn k (file1 p s l)) in *. rewrite F in FS.
    unfold file1, hdr1 in FS. cbn [app] in FS. injection FS as F0 F1 F2 FS.
    apply b8_small_inj in F0; [|auto|lia]. subst q.
    assert (EN : n = N.of_nat (length l)) by (apply be16_inj; auto; unfold be16; now rewrite F1, F2). subst n. clear F1 F2.
    rewrite <- app_assoc in FS.
    assert (ES : sb = srs_bytes s) by (eapply is_srs_det; [exact SZ1|exact IS|exact SZ|apply is_srs_bytes|exact FS]). subst sb.
    apply app_inv_head in FS.
    assert (T : tail = firstn (length tail) (recs_bytes l)) by (rewrite <- FS; now rewrite firstn_app_exact).
    assert (LK : length (file1 p s l) = (3 + length (srs_bytes s) + length (recs_bytes l))%nat).
    { unfold file1. rewrite !app_length, hdr1_length. lia. }
    assert (KK : k = (3 + length (srs_bytes s) + length tail)%nat).
    { apply (f_equal (@length _)) in F. rewrite firstn_length in F. cbn [length] in F. rewrite !app_length in F.
      change (length (be16 (N.of_nat (length l)))) with 2%nat in F. lia. }
    pose proof (contribute_bytes bs w _ p (N.of_nat (length l)) s1 (srs_bytes s) tail (opened _, opened g) B2 P Hn SZ1 IS F eq_refl) as D. cbv zeta in D.
    rewrite Nat2N.id in D. destruct (copied (length l) zero_contrib tail) as [b r] eqn:C.
    destruct D as [s' D]. apply ev_exec in D. rewrite D in X. destruct r as [c|]; [|discriminate].
    remember (length tail) as m eqn:Em. rewrite T in C.
    apply copied_cut in C; [|exact H32|lia]. split; [|lia]. intros ->. rewrite LK in K. change (length (recs_bytes (@nil (contrib E)))) with 0%nat in K. lia.
  - intros [NE LT]. destruct (exists_last NE) as [l0 [c ->]].
    assert (HC : length (c_hash c) = 32%nat) by (apply H32, in_or_app; right; now left).
    set (z := (length (file1 p s (l0 ++ [c])) - k)%nat). set (h' := firstn (32 - z) (c_hash c) ++ repeat x00 z).
    assert (F : firstn k (file1 p s (l0 ++ [c])) ++ repeat x00 z = file1 p s (l0 ++ [s_hash c h'])) by (now apply cut_hash).
    destruct (contribute_iff bs w (firstn k (file1 p s (l0 ++ [c]))) g B2) as [_ I]. apply I.
    exists p, s, (l0 ++ [s_hash c h']), z. split; [exact P|]. split; [rewrite app_length in *; exact L|]. split; [unfold z; lia|].
    split; [intros X; now destruct l0|]. rewrite F, <- (app_nil_r (file1 _ _ _)). apply file1_is; [exact SZ|].
    intros x Hx. apply in_app_or in Hx as [Hx|[<-|[]]]; [apply H32, in_or_app; now left|].
    change (length h' = 32%nat). unfold h'. rewrite app_length, firstn_length, repeat_length. unfold z. lia.
Qed.

(* the new record is put after one with a wrong hash *)
Lemma cut_in_hash bs (w : @rnd1 E) trans g p (s : srs E) l c k : 2 <= bs -> 1 <= p <= 62 -> length l < N.to_nat 65534 -> sized p s ->
  hashed32 (l ++ [c]) -> c_hash c = sha E (enc_vals (rec_vals c)) ->
  k < length (file1 p s (l ++ [c])) -> length (file1 p s (l ++ [c])) < k + 32 ->
  skipn k (file1 p s (l ++ [c])) <> repeat x00 (length (file1 p s (l ++ [c])) - k) ->
  exists h out, exec (contribute bs w) (firstn k (file1 p s (l ++ [c]))) g = (Ok h, out) /\
    forall bs' (rho : nat -> nat -> nat -> E) hs, 1 <= bs' -> fst (exec (verify bs' rho trans) out g) <> Ok hs.
Proof.
  intros B2 P L SZ H32 HS K LT NZ.
  assert (HC : length (c_hash c) = 32%nat) by (apply H32, in_or_app; right; now left).
  assert (LL : length (l ++ [c]) < N.to_nat 65536) by (rewrite app_length; cbn [length]; lia).
  set (z := (length (file1 p s (l ++ [c])) - k)%nat). set (h' := firstn (32 - z) (c_hash c) ++ repeat x00 z).
  assert (F : firstn k (file1 p s (l ++ [c])) ++ repeat x00 z = file1 p s (l ++ [s_hash c h'])) by (now apply cut_hash).
  assert (HB : hashed32 (l ++ [s_hash c h'])).
  { intros x Hx. apply in_app_or in Hx as [Hx|[<-|[]]]; [apply H32, in_or_app; now left|].
    change (length h' = 32%nat). unfold h'. rewrite app_length, firstn_length, repeat_length. unfold z. lia. }
  assert (LB : length (l ++ [s_hash c h']) < N.to_nat 65536) by (rewrite app_length in *; exact LL).
  assert (IB : is_file1 (file1 p s (l ++ [s_hash c h'])) p s (l ++ [s_hash c h'])) by (rewrite <- (app_nil_r (file1 _ _ _)); now apply file1_is).
  rewrite (contribute_pad bs w _ g p s (l ++ [s_hash c h']) z);
    [|auto|auto|auto|unfold z; lia|intros X; now destruct l|now rewrite F].
  rewrite F.
  destruct (contribute_ev bs w _ p s _ (opened (file1 p s (l ++ [s_hash c h'])), opened g) B2 P LB IB eq_refl) as [s' [_ D]]. apply ev_exec in D. rewrite D.
  eexists. eexists. split; [reflexivity|]. intros bs' rho hs B1 H.
  set (S' := upd_srs (r_tau w) (r_alpha w) (r_beta w) s) in *. set (cn := first_rec bs w S' _) in *.
  destruct (exec (verify bs' rho trans) _ g) as [r out0] eqn:X. cbn [fst] in H. subst r.
  destruct (verify_ok_inv bs' rho trans _ g hs out0 B1 X) as [q [n [s1 [sb [tail [o [Q [Hn [FF [SZ1 [IS [_ [C _]]]]]]]]]]]]].
  assert (SZ' : sized p S') by (now apply upd_sized).
  assert (LN : length (l ++ [s_hash c h']) = S (length l)) by (rewrite app_length; cbn [length]; lia).
  unfold hdr1 in FF. cbn [app] in FF. injection FF as F0 F1 F2 FF.
  apply b8_small_inj in F0; [|lia|auto]. subst q.
  assert (EN : n = (N.of_nat (length (l ++ [s_hash c h'])) + 1)%N).
  { symmetry. rewrite LN. apply be16_inj; [lia|auto|]. rewrite LN, N2Nat.id, N.mod_small in F1, F2 by lia. unfold be16. now rewrite F1, F2. }
  subst n. clear F1 F2.
  assert (ES : srs_bytes S' = sb) by (eapply is_srs_det; [exact SZ'|apply is_srs_bytes|exact SZ1|exact IS|exact FF]). subst sb.
  apply app_inv_head in FF. subst tail.
  replace (N.to_nat (N.of_nat (length (l ++ [s_hash c h'])) + 1)) with (length (l ++ [s_hash c h']) + 1)%nat in C by lia.
  rewrite (take_chain_app (l ++ [s_hash c h'])) in C by (now apply are_recs_bytes).
  rewrite chain_err_app in C. destruct (chain_err o (l ++ [s_hash c h'])) eqn:C1; [discriminate|]. clear C.
  rewrite chain_err_app in C1. destruct (chain_err o l); [discriminate|]. cbn [chain_err] in C1.
  destruct (verify_contrib (s_hash c h') (last l o)) eqn:V; [discriminate|]. apply verify_inv in V as [_ [_ [_ [_ [_ [_ [_ [_ V]]]]]]]].
  change (rec_vals (s_hash c h')) with (rec_vals c) in V. rewrite <- HS in V. change (c_hash (s_hash c h')) with h' in V.
  apply NZ. fold z. rewrite <- (firstn_skipn k (file1 p s (l ++ [c]))) in F at 1.
  pose proof (firstn_skipn k (file1 p s (l ++ [c]))) as FS.
  assert (SC : s_hash c h' = c) by (rewrite V; now destruct c). rewrite SC in F.
  rewrite firstn_skipn in F. rewrite <- F in FS at 3. now apply app_inv_head in FS.
Qed.
End Accepts.

Section Live.
Context {E : Ext}.
Lemma origin_no_hash trans g (o : contrib E) : fst (exec (default_contrib trans) [] g) = Ok o -> c_hash o = [].
Proof.
  intros H. destruct (exec (default_contrib trans) [] g) as [r d] eqn:X. cbn [fst] in H. subst r.
  apply exec_ev in X as [s' [D [X _]]]. unfold default_contrib in X. destruct trans as [[|]|].
  - apply bind_ok_inv in X as [[pw n] [? [? [? [_ [X _]]]]]]. cbv beta iota zeta in X.
    do 10 (apply bind_ok_inv in X as [? [? [? [? [_ [X _]]]]]]; cbv beta in X).
    apply ret_inv in X as [<- _]. reflexivity.
  - destruct X as [w [X _]]. discriminate.
  - apply ret_inv in X as [<- _]. reflexivity.
Qed.
Lemma truncated_live bs bs' (rho rho' : nat -> nat -> nat -> E) trans g p (s : srs E) l hs k hs' : 1 <= bs -> 1 <= bs' -> p <= 62 ->
  length l < N.to_nat 65536 -> sized p s -> hashed32 l ->
  (forall c, In c l -> kSX (c_kt c) <> 0 /\ kSX (c_ka c) <> 0 /\ kSX (c_kb c) <> 0) ->
  fst (exec (verify bs rho trans) (file1 p s l) g) = Ok hs -> k < length (file1 p s l) ->
  fst (exec (verify bs' rho' trans) (firstn k (file1 p s l)) g) = Ok hs' ->
  (exists z, z <= 32 /\ file1 p s l = firstn k (file1 p s l) ++ repeat x00 z /\ hs' = hs) \/
  (exists l1 c l2, l = l1 ++ c :: l2 /\ same_challenges (last_hash l1) c) \/ stale_collision l.
Proof.
  intros B B' P L SZ H32 KL H K H'.
  destruct (truncated bs bs' rho rho' trans g p s l hs k hs' B B' P L SZ H32 H K H') as [X|[[c [I F]]|X]]; [now left| |right; right; exact X].
  right; left.
  destruct (exec (verify bs rho trans) (file1 p s l) g) as [r out0] eqn:X. cbn [fst] in H. subst r.
  destruct (verify_ok_inv bs rho trans _ g hs out0 B X) as [q [n [s1 [sb [tail [o [Q [Hn [FF [SZ1 [IS [O [C _]]]]]]]]]]]]].
  assert (Ln : (N.of_nat (length l) < 65536)%N) by lia.
  unfold file1, hdr1 in FF. cbn [app] in FF. injection FF as F0 F1 F2 FF.
  apply b8_small_inj in F0; auto. subst q.
  assert (EN : N.of_nat (length l) = n) by (apply be16_inj; auto; unfold be16; now rewrite F1, F2). subst n. clear F1 F2.
  assert (ES : srs_bytes s = sb) by (eapply is_srs_det; [exact SZ|apply is_srs_bytes|exact SZ1|exact IS|exact FF]). subst sb.
  apply app_inv_head in FF. subst tail. rewrite Nat2N.id in *.
  rewrite <- (app_nil_r (recs_bytes l)), (take_chain_is l (recs_bytes l) zero_contrib []) in C by (now apply are_recs_bytes).
  destruct (KL c I) as [K1 [K2 K3]].
  destruct (own_challenges l o c C I F K1 K2 K3) as [l1 [l2 [-> S]]].
  exists l1, c, l2. split; [reflexivity|]. rewrite (last_hash_of l1 o); [exact S|]. now apply (origin_no_hash trans g).
Qed.
End Live.
