(* Cut1.v -- phase1.Verify on files that end early. *)
From Coq Require Import Ring Field.
From Verif Require Import Base Fld IO Ext Spec1 Phase1 Phase1Io Phase1Verify Phase1Trans Phase1Facts Phase1Inv Phase1More Phase1Claims Spec7.
Local Open Scope fld_scope.

(* parsing is deterministic *)
Section Det.
Context {E : Ext}.
Lemma is1_det b (x : E) b' (x' : E) t t' : is1 b x -> is1 b' x' -> b ++ t = b' ++ t' -> b = b'.
Proof.
  intros H H' Q.
  assert (C : compressed b = compressed b').
  { assert (N : b <> []) by (destruct H as [[L _]|[L _]]; intros ->; discriminate L).
    assert (N' : b' <> []) by (destruct H' as [[L _]|[L _]]; intros ->; discriminate L).
    rewrite <- (compressed_app b t N), <- (compressed_app b' t' N'). now rewrite Q. }
  destruct H as [[L [K _]]|[L [K _]]], H' as [[L' [K' _]]|[L' [K' _]]]; try congruence;
  (apply app_inv_len in Q; [tauto|congruence]).
Qed.
Lemma is2_det b (x : E) b' (x' : E) t t' : is2 b x -> is2 b' x' -> b ++ t = b' ++ t' -> b = b'.
Proof.
  intros H H' Q.
  assert (C : compressed b = compressed b').
  { assert (N : b <> []) by (destruct H as [[L _]|[L _]]; intros ->; discriminate L).
    assert (N' : b' <> []) by (destruct H' as [[L _]|[L _]]; intros ->; discriminate L).
    rewrite <- (compressed_app b t N), <- (compressed_app b' t' N'). now rewrite Q. }
  destruct H as [[L [K _]]|[L [K _]]], H' as [[L' [K' _]]|[L' [K' _]]]; try congruence;
  (apply app_inv_len in Q; [tauto|congruence]).
Qed.
Lemma parses_det {X} (P : bytes -> X -> Prop) : (forall b x b' x' t t', P b x -> P b' x' -> b ++ t = b' ++ t' -> b = b') ->
  forall l l' b b' t t', parses P b l -> parses P b' l' -> length l = length l' -> b ++ t = b' ++ t' -> b = b'.
Proof.
  intros D. induction l as [|x l IH]; intros [|x' l'] b b' t t' A A' L Q; try discriminate.
  - inversion A; inversion A'. reflexivity.
  - inversion A as [|b1 y t1 k1 P1 A1]; subst. inversion A' as [|b2 y' t2 k2 P2 A2]; subst.
    rewrite <- !app_assoc in Q. assert (b1 = b2) by (eapply D; eauto). subst b2.
    apply app_inv_head in Q. f_equal. eapply IH; eauto.
Qed.
Lemma is_srs_det p b (s : srs E) b' (s' : srs E) t t' : sized p s -> is_srs b s -> sized p s' -> is_srs b' s' -> b ++ t = b' ++ t' -> b = b'.
Proof.
  intros [Z1 [Z2 [Z3 Z4]]] [b1 [b2 [b3 [b4 [b5 [-> [A1 [A2 [A3 [A4 A5]]]]]]]]]] [Y1 [Y2 [Y3 Y4]]]
    [c1 [c2 [c3 [c4 [c5 [-> [B1 [B2 [B3 [B4 B5]]]]]]]]]] Q.
  rewrite <- !app_assoc in Q.
  assert (b1 = c1) by (eapply (parses_det is1 is1_det); eauto; congruence). subst c1. apply app_inv_head in Q.
  assert (b2 = c2) by (eapply (parses_det is1 is1_det); eauto; congruence). subst c2. apply app_inv_head in Q.
  assert (b3 = c3) by (eapply (parses_det is1 is1_det); eauto; congruence). subst c3. apply app_inv_head in Q.
  assert (b4 = c4) by (eapply (parses_det is2 is2_det); eauto; congruence). subst c4. apply app_inv_head in Q.
  assert (b5 = c5) by (eapply is2_det; eauto). now subst.
Qed.
End Det.

Section Cut.
Context {E : Ext}.
Add Field Kcut : (f_th E).

Lemma firstn_app_le {X} k (a t : list X) : length a <= k -> firstn k (a ++ t) = a ++ firstn (k - length a) t.
Proof. intros H. rewrite firstn_app. now rewrite firstn_all2. Qed.
Lemma take1_cut k (x old : E) t : take1 old (firstn k (g1c x ++ t)) =
  if k <? 32 then (old, false, []) else (x, true, firstn (k - 32) t).
Proof.
  destruct (Nat.ltb_spec k 32).
  - unfold take1. rewrite firstn_length, app_length, g1c_len. destruct (Nat.ltb_spec (Nat.min k (32 + length t)) 32); [reflexivity|lia].
  - rewrite firstn_app_le by (rewrite g1c_len; lia). rewrite g1c_len. apply take1_is, is1_c.
Qed.
Lemma take2_cut k (x old : E) t : take2 old (firstn k (g2c x ++ t)) =
  if k <? 64 then (old, false, []) else (x, true, firstn (k - 64) t).
Proof.
  destruct (Nat.ltb_spec k 64).
  - unfold take2. rewrite firstn_length, app_length, g2c_len. destruct (Nat.ltb_spec (Nat.min k (64 + length t)) 64); [reflexivity|lia].
  - rewrite firstn_app_le by (rewrite g2c_len; lia). rewrite g2c_len. apply take2_is, is2_c.
Qed.
Lemma skipn_repeat {X} (x : X) : forall n m, skipn n (repeat x m) = repeat x (m - n).
Proof. induction n as [|n IH]; intros [|m]; cbn [skipn repeat Nat.sub]; auto. Qed.
Lemma take1_nil (old : E) : take1 old [] = (old, false, []). Proof. reflexivity. Qed.

(* the receiver after a record of which only k bytes are there *)
Definition left_by (k : nat) (r c c' : contrib E) : Prop :=
  (exists m, rec_vals c' = firstn m (rec_vals r) ++ skipn m (rec_vals c) /\ c_hash c' = c_hash c) \/
  (608 <= k /\ rec_vals c' = rec_vals r /\ c_hash c' = firstn (k - 608) (c_hash r) ++ repeat x00 (640 - k)).

Lemma take_rec_cut (r c : contrib E) k : length (c_hash r) = 32%nat -> k < 640 ->
  exists c' ok, take_rec c (firstn k (rec_bytes r)) = (c', ok, []) /\ left_by k r c c' /\ (ok = true <-> 608 < k).
Proof.
  intros H32 K. unfold rec_bytes, enc_vals, rec_vals, key_vals. cbn [flat_map app enc_val]. rewrite <- !app_assoc.
  unfold take_rec, toDecode.
  cbn [take_fields p_tau1 p_alpha1 p_beta1 p_tau2 p_beta2 p_ktS p_ktSX p_ktSPX p_kaS p_kaSX p_kaSPX p_kbS p_kbSX p_kbSPX].
  Local Ltac fld m := rewrite ?take1_cut, ?take2_cut; 
    match goal with |- context [if ?k <? ?n then _ else _] => destruct (Nat.ltb_spec k n) end;
    [eexists; exists false; split; [reflexivity|]; split; [left; exists m; split; reflexivity|split; [discriminate|lia]]|].
  fld 0%nat. fld 1%nat. fld 2%nat. fld 3%nat. fld 4%nat. fld 5%nat. fld 6%nat. fld 7%nat. fld 8%nat. fld 9%nat. fld 10%nat. fld 11%nat. fld 12%nat. fld 13%nat.
  set (k' := (k - _ - _ - _ - _ - _ - _ - _ - _ - _ - _ - _ - _ - _ - _)%nat).
  assert (KE : k' = (k - 608)%nat) by (unfold k'; lia). clearbody k'. subst k'.
  cbn [app flat_map]. rewrite ?app_nil_r.
  match goal with |- context [s_hash ?cc _] => set (d := cc) end.
  assert (RV : rec_vals d = rec_vals r) by reflexivity. clearbody d. unfold left_by.
  destruct (firstn (k - 608) (c_hash r)) as [|x0 h0] eqn:F.
  - assert (K0 : k = 608%nat). { apply (f_equal (@length _)) in F. rewrite firstn_length in F. cbn in F. lia. }
    exists (s_hash d zeros32), false. split; [reflexivity|]. split; [|split; [discriminate|lia]].
    right. split; [lia|]. split; [exact RV|]. rewrite K0. reflexivity.
  - assert (K1 : 608 < k). { apply (f_equal (@length _)) in F. rewrite firstn_length in F. cbn [length] in F. lia. }
    rewrite <- F in *. clear F x0 h0.
    assert (L : length (firstn (k - 608) (c_hash r)) = (k - 608)%nat) by (rewrite firstn_length; lia).
    exists (s_hash d (firstn (k - 608) (c_hash r) ++ repeat x00 (640 - k))), true. split.
    + rewrite (firstn_all2 (n := 32)) by lia. rewrite L, (skipn_all2 (n := 32)) by lia.
      replace (skipn (k - 608) zeros32) with (repeat x00 (640 - k)); [reflexivity|].
      unfold zeros32. rewrite skipn_repeat. f_equal. lia.
    + split; [|split; auto]. right. split; [lia|]. split; [exact RV|reflexivity].
Qed.
Lemma take_rec_nil (c : contrib E) : take_rec c [] = (c, false, []).
Proof. destruct c. reflexivity. Qed.
Lemma take_chain_nil : forall n (c : contrib E), take_chain n c [] = repeat c n.
Proof. induction n as [|n IH]; intros c; [reflexivity|]. cbn [take_chain repeat]. rewrite take_rec_nil. f_equal. apply IH. Qed.

Lemma follows_self (c : contrib E) : verify_contrib c c = None -> follows_itself c.
Proof. intros V. apply verify_inv in V as [H1 [H2 [H3 _]]]. exact (conj H1 (conj H2 H3)). Qed.

Lemma cons_stale (x : contrib E) l : stale_collision l -> stale_collision (x :: l).
Proof. intros [i [m [a [c [A [B H]]]]]]. exists (S i), m, a, c. auto. Qed.

Lemma shape_mixed m (a c : contrib E) :
  map (fun v => match v with inl _ => true | inr _ => false end) (mixed m a c) =
  map (fun v => match v with inl _ => true | inr _ => false end) (rec_vals a).
Proof.
  unfold mixed. rewrite map_app, <- firstn_map, <- skipn_map.
  change (map (fun v : E + E => match v with inl _ => true | inr _ => false end) (rec_vals c)) with
    (map (fun v : E + E => match v with inl _ => true | inr _ => false end) (rec_vals a)).
  apply firstn_skipn.
Qed.

(* the records read so far that count *)
Definition seen (cur : contrib E) (l : list (contrib E)) : list (contrib E) := match c_hash cur with [] => l | _ => cur :: l end.
Lemma seen_hashed (cur : contrib E) l x : c_hash cur = sha E x -> seen cur l = cur :: l.
Proof. intros H. unfold seen. destruct (c_hash cur) eqn:Q; [|reflexivity]. apply (f_equal (@length _)) in H. rewrite sha_len in H. discriminate. Qed.
Lemma in_seen (cur c : contrib E) l : In c l -> In c (seen cur l).
Proof. intros H. unfold seen. destruct (c_hash cur); [exact H|now right]. Qed.
Lemma stale_seen (cur : contrib E) l : stale_collision l -> stale_collision (seen cur l).
Proof. intros H. unfold seen. destruct (c_hash cur); [exact H|now apply cons_stale]. Qed.

Lemma cut_chain : forall l (cur prev : contrib E) k, hashed32 l -> chain_err prev l = None ->
  (c_hash cur = [] \/ cur = prev /\ c_hash cur = sha E (enc_vals (rec_vals cur))) ->
  k < length (recs_bytes l) ->
  chain_err prev (take_chain (length l) cur (firstn k (recs_bytes l))) = None ->
  (exists z, z <= 32 /\ recs_bytes l = firstn k (recs_bytes l) ++ repeat x00 z /\
     take_chain (length l) cur (firstn k (recs_bytes l)) = l) \/
  (exists c, In c (seen cur l) /\ follows_itself c) \/ stale_collision (seen cur l).
Proof.
  induction l as [|r l IH]; intros cur prev k H32 C0 HC K C; [cbn in K; lia|].
  assert (HR : length (c_hash r) = 32%nat) by (apply H32; now left).
  pose proof (rec_bytes_length r HR) as LR.
  change (recs_bytes (r :: l)) with (rec_bytes r ++ recs_bytes l) in *. rewrite app_length, LR in K.
  cbn [length take_chain] in *. cbn [chain_err] in C0. destruct (verify_contrib r prev) eqn:V0; [discriminate|].
  destruct (Nat.le_gt_cases 640 k) as [Hk|Hk].
  - rewrite firstn_app_le in * by (rewrite LR; exact Hk). rewrite LR in *.
    rewrite (take_rec_is (rec_bytes r) r) in * by (now apply is_rec_bytes).
    cbn [chain_err] in C. rewrite V0 in C.
    destruct (IH r r (k - 640)%nat) as [[z [Z1 [Z2 Z3]]]|[[c [I F]]|S]]; auto.
    + intros c Hc. apply H32. now right.
    + right. split; [reflexivity|]. apply verify_inv in V0. tauto.
    + lia.
    + left. exists z. split; [exact Z1|]. split; [rewrite Z2 at 1; now rewrite app_assoc|]. now rewrite Z3.
    + right; left. exists c. split; [|exact F]. apply in_seen. apply verify_inv in V0 as [_ [_ [_ [_ [_ [_ [_ [_ V0]]]]]]]].
      now rewrite (seen_hashed _ _ _ V0) in I.
    + right; right. apply stale_seen. apply verify_inv in V0 as [_ [_ [_ [_ [_ [_ [_ [_ V0]]]]]]]].
      now rewrite (seen_hashed _ _ _ V0) in S.
  - rewrite firstn_app in *. replace (k - length (rec_bytes r))%nat with 0%nat in * by (rewrite LR; lia).
    rewrite (firstn_O (recs_bytes l)), app_nil_r in *.
    destruct (take_rec_cut r cur k HR Hk) as [c' [ok [T [LB _]]]]. rewrite T in *. rewrite take_chain_nil in *.
    cbn [chain_err] in C. destruct (verify_contrib c' prev) eqn:V; [discriminate|].
    pose proof V as V'. apply verify_inv in V' as [_ [_ [_ [_ [_ [_ [_ [_ HS]]]]]]]].
    destruct LB as [[m [RV HH]]|[K6 [RV HH]]].
    + right. rewrite HH in HS. destruct HC as [Z|[-> HC]].
      { exfalso. apply (f_equal (@length _)) in HS. rewrite Z, sha_len in HS. discriminate. }
      rewrite (seen_hashed _ _ _ HC).
      change (firstn m (rec_vals r) ++ skipn m (rec_vals prev)) with (mixed m prev r) in RV. rewrite RV in HS.
      destruct (bytes_eqb (enc_vals (mixed m prev r)) (enc_vals (rec_vals prev))) eqn:B.
      * left. exists prev. split; [now left|]. apply bytes_eqb_eq in B. apply enc_vals_inj in B; [|apply shape_mixed].
        assert (Q : c' = prev) by (apply rec_vals_inj; [now rewrite RV|exact HH]). subst c'. now apply follows_self.
      * right. exists 0%nat, m, prev, r. split; [reflexivity|]. split; [reflexivity|]. split; [|congruence].
        intros X. rewrite X, bytes_eqb_refl in B. discriminate.
    + assert (Q : c' = r).
      { apply rec_vals_inj; [exact RV|]. rewrite HS, RV. apply verify_inv in V0. symmetry. tauto. }
      subst c'. destruct l as [|r2 l].
      * left. exists (640 - k)%nat. split; [lia|]. split; [|reflexivity].
        cbn [recs_bytes flat_map]. rewrite app_nil_r. unfold rec_bytes in *. set (e := enc_vals (rec_vals r)) in *.
        assert (Le : length e = 608%nat) by (rewrite app_length, HR in LR; lia).
        rewrite firstn_app_le by (rewrite Le; exact K6). rewrite Le, <- app_assoc. now rewrite <- HH.
      * right; left. exists r. split; [apply in_seen; now left|]. cbn [length repeat chain_err] in C.
        destruct (verify_contrib r r) eqn:V2; [discriminate|]. now apply follows_self.
Qed.

(* ---- the whole file ---- *)
Lemma b8_small_inj a b : a <= 62 -> b <= 62 -> b8 (N.of_nat a) = b8 (N.of_nat b) -> a = b.
Proof.
  intros A B H. apply (f_equal bN) in H. rewrite !bN_b8, !N.mod_small in H by lia. lia.
Qed.
Lemma be16_inj a b : (a < 65536)%N -> (b < 65536)%N -> be16 a = be16 b -> a = b.
Proof.
  intros A B H. unfold be16 in H. injection H as H1 H2. apply (f_equal bN) in H1, H2.
  rewrite !bN_b8 in H1, H2.
  assert (X : (a / 256 < 256)%N) by (apply N.div_lt_upper_bound; lia).
  assert (Y : (b / 256 < 256)%N) by (apply N.div_lt_upper_bound; lia).
  rewrite !(N.mod_small (_ / 256)) in H1 by assumption.
  rewrite (N.div_mod a 256), (N.div_mod b 256) by lia. congruence.
Qed.

Lemma truncated bs bs' (rho rho' : nat -> nat -> nat -> E) trans g p (s : srs E) l hs k hs' : 1 <= bs -> 1 <= bs' -> p <= 62 ->
  length l < N.to_nat 65536 -> sized p s -> hashed32 l ->
  fst (exec (verify bs rho trans) (file1 p s l) g) = Ok hs -> k < length (file1 p s l) ->
  fst (exec (verify bs' rho' trans) (firstn k (file1 p s l)) g) = Ok hs' ->
  (exists z, z <= 32 /\ file1 p s l = firstn k (file1 p s l) ++ repeat x00 z /\ hs' = hs) \/
  (exists c, In c l /\ follows_itself c) \/ stale_collision l.
Proof.
  intros B B' P L SZ H32 H K H'.
  destruct (exec (verify bs rho trans) (file1 p s l) g) as [r out0] eqn:X. cbn [fst] in H. subst r.
  destruct (exec (verify bs' rho' trans) (firstn k (file1 p s l)) g) as [r' out1] eqn:X'. cbn [fst] in H'. subst r'.
  destruct (verify_ok_inv bs rho trans _ g hs out0 B X) as [q [n [s1 [sb [tail [o [Q [Hn [F [SZ1 [IS [O [C [-> _]]]]]]]]]]]]]].
  destruct (verify_ok_inv bs' rho' trans _ g hs' out1 B' X') as [q' [n' [s1' [sb' [tail' [o' [Q' [Hn' [F' [SZ1' [IS' [O' [C' [-> _]]]]]]]]]]]]]].
  clear X X'. rewrite O in O'. injection O' as <-. clear O.
  assert (Ln : (N.of_nat (length l) < 65536)%N) by lia.
  (* the complete file *)
  unfold file1, hdr1 in F. cbn [app] in F. injection F as F0 F1 F2 F.
  apply b8_small_inj in F0; auto. subst q.
  assert (EN : N.of_nat (length l) = n) by (apply be16_inj; auto; unfold be16; now rewrite F1, F2). subst n. clear F1 F2.
  assert (ES : srs_bytes s = sb) by (eapply is_srs_det; [exact SZ|apply is_srs_bytes|exact SZ1|exact IS|exact F]). subst sb.
  apply app_inv_head in F. subst tail. rewrite Nat2N.id in *.
  rewrite <- (app_nil_r (recs_bytes l)), (take_chain_is l (recs_bytes l) zero_contrib []) in * by (now apply are_recs_bytes).
  rewrite ?app_nil_r in *.
  (* the cut one *)
  pose proof (firstn_skipn k (file1 p s l)) as FS. set (rest := skipn k (file1 p s l)) in *. rewrite F' in FS.
  unfold file1, hdr1 in FS. cbn [app] in FS. injection FS as F0 F1 F2 FS.
  apply b8_small_inj in F0; auto. subst q'.
  assert (EN : n' = N.of_nat (length l)) by (apply be16_inj; auto; unfold be16; now rewrite F1, F2). subst n'. clear F1 F2.
  rewrite <- app_assoc in FS.
  assert (ES : sb' = srs_bytes s) by (eapply is_srs_det; [exact SZ1'|exact IS'|exact SZ|apply is_srs_bytes|exact FS]). subst sb'.
  apply app_inv_head in FS. rewrite Nat2N.id in *.
  assert (T : tail' = firstn (length tail') (recs_bytes l)) by (rewrite <- FS; now rewrite firstn_app_exact).
  assert (LT : length tail' < length (recs_bytes l)).
  { apply (f_equal (@length _)) in F'. rewrite firstn_length in F'. unfold file1 in *. rewrite !app_length in *.
    cbn [length] in F'. rewrite !app_length, hdr1_length in *. change (length (be16 (N.of_nat (length l)))) with 2%nat in F'. lia. }
  assert (EZ : c_hash (@zero_contrib E) = []) by reflexivity.
  rewrite T in C'. 
  destruct (cut_chain l zero_contrib o (length tail') H32 C (or_introl EZ) LT C') as [[z [Z1 [Z2 Z3]]]|[H|H]].
  - left. exists z. split; [exact Z1|]. split.
    + rewrite F'. unfold file1, hdr1. rewrite Z2 at 1. rewrite <- T. cbn [app]. f_equal. rewrite <- !app_assoc. reflexivity.
    + rewrite T, Z3. reflexivity.
  - right; left. exact H.
  - right; right. exact H.
Qed.
End Cut.
