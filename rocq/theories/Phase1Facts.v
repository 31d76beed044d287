(* Phase1Facts.v -- ceremonies, chains of records and verdicts. *)
From Coq Require Import Ring Field.
From Verif Require Import Base Fld Conc Parallel IO Ext Spec1 Phase1 Phase1Io Phase1Verify Phase1Trans.
Local Open Scope fld_scope.
Local Open Scope io_scope.

Section Facts.
Context {E : Ext}.
Add Field Kfld6 : (f_th E).

Definition ok_out {X} (r : res X * bytes) : res (X * bytes) :=
  match fst r with Ok x => Ok (x, snd r) | Err e => Err e | Panic => Panic end.

(* p1n, then p1c once for every contributor; the last file and the hashes printed on the way *)
Definition step1 (bs : nat) (r : res (bytes * list bytes)) (w : @rnd1 E) : res (bytes * list bytes) :=
  match r with
  | Ok (f, hs) => match ok_out (exec (contribute bs w) f []) with
                  | Ok (h, f') => Ok (f', hs ++ [h]) | Err e => Err e | Panic => Panic end
  | _ => r
  end.
Definition ceremony1 (bs p : nat) (ws : list (@rnd1 E)) : res (bytes * list bytes) :=
  fold_left (step1 bs) ws
    match ok_out (exec (initialize (E := E) (b8 (N.of_nat p))) [] []) with
    | Ok (_, f) => Ok (f, []) | Err e => Err e | Panic => Panic end.
(* the same, starting from an existing file *)
Definition continue1 (bs : nat) (f : bytes) (ws : list (@rnd1 E)) : res (bytes * list bytes) :=
  fold_left (step1 bs) ws (Ok (f, [])).

Lemma prodl_app (l1 l2 : list E) : prodl (l1 ++ l2) = prodl l1 * prodl l2.
Proof. induction l1 as [|x l IH]; cbn [app prodl fold_right]; [fold (prodl l2); ring|]. fold (prodl (l ++ l2)) (prodl l). rewrite IH. ring. Qed.

(* ---- parameters ---- *)
Lemma upd_srs_of p (T A B t a b : E) : upd_srs t a b (srs_of p T A B) = srs_of p (t * T) (a * A) (b * B).
Proof.
  assert (M : forall n (f : nat -> E -> E) (g h : nat -> E), (forall i, f i (g i) = h i) ->
    mapi f (map g (seq 0 n)) = map h (seq 0 n)).
  { intros n f g h H. apply list_ext. intros i. rewrite nth_error_mapi, !nth_error_map_seq.
    destruct (i <? n); cbn; auto. now rewrite H. }
  unfold upd_srs, srs_of. cbn [tau1 alpha1 beta1 tau2 beta2]. f_equal; apply M; intros i; rewrite fpow_mul_base; ring.
Qed.
Lemma upd_sized p (s : srs E) t a b : sized p s -> sized p (upd_srs t a b s).
Proof. intros [A [B [C D]]]. repeat split; cbn [upd_srs tau1 alpha1 beta1 tau2]; now rewrite mapi_length. Qed.

Lemma nth_mapi0 (f : nat -> E -> E) l i : f i 0 = 0 -> nth i (mapi f l) 0 = f i (nth i l 0).
Proof.
  intros H. rewrite !nth_nth_error, nth_error_mapi. destruct (nth_error l i); cbn; auto.
Qed.


Lemma first_ok_tau bs (t : E) L : first_ok 1 bs L -> first_ok 1 bs (mapi (fun i x => t ^ i * x) L).
Proof.
  intros H. unfold first_ok in *. rewrite mapi_length.
  destruct (feq_dec E t 0) as [->|Ht].
  { right. right. intros i Hi. rewrite nth_mapi0 by ring. destruct i; [lia|]. rewrite fpow_S. ring. }
  destruct H as [H|[H|H]]; [left|auto|right; right].
  - rewrite nth_mapi0 by ring. rewrite fpow_1. intros X. apply fmul_0_iff in X. tauto.
  - intros i Hi. rewrite nth_mapi0 by ring. rewrite H by auto. ring.
Qed.
Lemma first_ok_mul bs (m t : E) L : first_ok 0 bs L -> first_ok 0 bs (mapi (fun i x => m * t ^ i * x) L).
Proof.
  intros H. unfold first_ok in *. rewrite mapi_length.
  destruct (feq_dec E m 0) as [->|Hm].
  { right. right. intros i Hi. rewrite nth_mapi0 by ring. ring. }
  destruct H as [H|[H|H]]; [left|auto|right; right].
  - rewrite nth_mapi0 by ring. rewrite fpow_0. intros X. apply fmul_0_iff in X. destruct X as [X|X]; [|tauto].
    apply fmul_0_iff in X. destruct X as [X|X]; [tauto|]. revert X. apply f1_neq_0.
  - intros i Hi. rewrite nth_mapi0 by ring. rewrite H by auto. ring.
Qed.
Lemma firsts_ok_upd bs (s : srs E) t a b : firsts_ok bs s -> firsts_ok bs (upd_srs t a b s).
Proof.
  intros [H1 [H2 [H3 H4]]]. repeat split; cbn [upd_srs tau1 alpha1 beta1 tau2]; auto using first_ok_tau, first_ok_mul.
Qed.
Lemma firsts_ok_of bs p (T A B : E) : firsts_ok bs (srs_of p T A B).
Proof.
  assert (X : forall n m k, first_ok 0 bs (map (fun i => m * T ^ i) (seq k n)) \/ True) by auto. clear X.
  assert (Q0 : forall n i m, nth i (map (fun i => m * T ^ i) (seq 0 n)) 0 = if i <? n then m * T ^ i else 0).
  { intros n i m. rewrite nth_nth_error, nth_error_map_seq. destruct (i <? n); auto. }
  assert (Q1 : forall n i, nth i (map (fun i => T ^ i) (seq 0 n)) 0 = if i <? n then T ^ i else 0).
  { intros n i. rewrite nth_nth_error, nth_error_map_seq. destruct (i <? n); auto. }
  assert (F1 : forall n, first_ok 1 bs (map (fun i => T ^ i) (seq 0 n))).
  { intros n. destruct (feq_dec E (nth 1 (map (fun i => T ^ i) (seq 0 n)) 0) 0) as [Z|Z]; [|left; auto].
    right. right. intros i Hi. rewrite Q1 in *. destruct (Nat.ltb_spec 1 n).
    - rewrite fpow_1 in Z. subst T. destruct (i <? n); auto. destruct i; [lia|]. rewrite fpow_S. ring.
    - destruct (Nat.ltb_spec i n); [lia|auto]. }
  assert (F0 : forall n m, first_ok 0 bs (map (fun i => m * T ^ i) (seq 0 n))).
  { intros n m. destruct (feq_dec E m 0) as [->|Hm].
    - right. right. intros i Hi. rewrite Q0. destruct (i <? n); auto. ring.
    - destruct n; [right; left; cbn; lia|]. left. rewrite Q0. cbn [Nat.ltb Nat.leb]. rewrite fpow_0.
      intros X. apply Hm. rewrite <- X. ring. }
  repeat split; cbn [srs_of tau1 alpha1 beta1 tau2]; auto.
Qed.

(* ---- records ---- *)
Definition rec_for (w : @rnd1 E) (s : srs E) (prev : bytes) : contrib E :=
  new_rec (r_tau w) (r_alpha w) (r_beta w) (r_st w) (r_sa w) (r_sb w) s prev.
Definition upd_for (w : @rnd1 E) (s : srs E) : srs E := upd_srs (r_tau w) (r_alpha w) (r_beta w) s.

Lemma first_rec_eq bs w (s : srs E) p prev : 2 <= bs -> 1 <= p -> sized p s -> firsts_ok bs s ->
  first_rec bs w s prev = rec_for w s prev.
Proof.
  intros B2 P1 [Z1 [Z2 [Z3 Z4]]] [H1 [H2 [H3 H4]]].
  assert (N2 : 2 <= 2 ^ p) by (pose proof (Nat.pow_le_mono_r 2 1 p); cbn in *; lia).
  assert (NE : forall l : list E, 1 <= length l -> l <> []) by (intros [|] X; cbn in X; [lia|discriminate]).
  unfold first_rec, rec_for, new_rec. f_equal; apply firstnz_ok; auto; try lia; apply NE; lia.
Qed.

Lemma gen_sp_chal (s sx : E) ch tag : gen_sp s sx ch tag = chal s sx ch tag.
Proof. reflexivity. Qed.

(* a record made honestly on top of prev passes *)
Lemma honest_ok w (s : srs E) prev : at_points prev s ->
  verify_contrib (rec_for w (upd_for w s) (c_hash prev)) prev = None.
Proof.
  intros [P1 [P2 [P3 [P4 P5]]]].
  assert (T1 : nth 1 (tau1 (upd_for w s)) 0 = r_tau w * nth 1 (tau1 s) 0) by (cbn [upd_for upd_srs tau1]; rewrite nth_mapi0 by ring; rewrite fpow_1; ring).
  assert (T2 : nth 1 (tau2 (upd_for w s)) 0 = r_tau w * nth 1 (tau2 s) 0) by (cbn [upd_for upd_srs tau2]; rewrite nth_mapi0 by ring; rewrite fpow_1; ring).
  assert (A1 : nth 0 (alpha1 (upd_for w s)) 0 = r_alpha w * nth 0 (alpha1 s) 0) by (cbn [upd_for upd_srs alpha1]; rewrite nth_mapi0 by ring; rewrite fpow_0; ring).
  assert (B1 : nth 0 (beta1 (upd_for w s)) 0 = r_beta w * nth 0 (beta1 s) 0) by (cbn [upd_for upd_srs beta1]; rewrite nth_mapi0 by ring; rewrite fpow_0; ring).
  assert (B2 : beta2 (upd_for w s) = r_beta w * beta2 s) by reflexivity.
  set (c := rec_for w (upd_for w s) (c_hash prev)).
  assert (V : forall b e (k : option err), b = true -> check b e k = k) by (intros ? ? ? ->; reflexivity).
  unfold verify_contrib. cbv zeta. change (@gen_sp E) with (@chal E). unfold same_ratio.
  rewrite !V; auto;
    try (apply feqb_ok; unfold c, rec_for, new_rec, signed_rec; cbn [c_kt c_ka c_kb mk_key kS kSX kSPX c_tau1 c_alpha1 c_beta1 c_tau2 c_beta2];
         rewrite ?T1, ?T2, ?A1, ?B1, ?B2, <- ?P1, <- ?P2, <- ?P3, <- ?P4, <- ?P5; ring).
  apply bytes_eqb_eq. rewrite hash_vals. reflexivity.
Qed.
Lemma rec_at_points w (s : srs E) prev : at_points (rec_for w s prev) s.
Proof. repeat split. Qed.

Lemma chain_err_app : forall l1 l2 (o : contrib E),
  chain_err o (l1 ++ l2) = match chain_err o l1 with Some e => Some e | None => chain_err (last l1 o) l2 end.
Proof.
  induction l1 as [|c l1 IH]; intros l2 o; [reflexivity|]. cbn [app chain_err].
  destruct (verify_contrib c o); [reflexivity|]. rewrite IH.
  replace (last (c :: l1) o) with (last l1 c); [reflexivity|].
  clear. destruct l1 as [|x l]; [reflexivity|]. cbn [last]. revert x. induction l as [|y l IHl]; intros x; [reflexivity|]. exact (IHl y).
Qed.
Lemma last_hash_of (l : list (contrib E)) o : c_hash o = [] -> last_hash l = c_hash (last l o).
Proof. intros H. unfold last_hash. rewrite <- (last_map (@c_hash E)), H. reflexivity. Qed.
Lemma last_hash_snoc (l : list (contrib E)) c : last_hash (l ++ [c]) = c_hash c.
Proof. unfold last_hash. rewrite map_app. cbn [map]. apply last_last. Qed.

(* what an honest run maintains *)
Definition good (bs p : nat) (o : contrib E) (s : srs E) (l : list (contrib E)) : Prop :=
  sized p s /\ firsts_ok bs s /\ hashed32 l /\ chain_err o l = None /\ at_points (last l o) s.

Lemma hashed_snoc (l : list (contrib E)) c : hashed32 l -> length (c_hash c) = 32%nat -> hashed32 (l ++ [c]).
Proof. intros H L x Hx. apply in_app_or in Hx. destruct Hx as [Hx|[<-|[]]]; auto. Qed.

Lemma good_step bs p o (s : srs E) l w : c_hash o = [] -> good bs p o s l ->
  good bs p o (upd_for w s) (l ++ [rec_for w (upd_for w s) (last_hash l)]).
Proof.
  intros Ho [H1 [H2 [H3 [H4 H5]]]]. split; [now apply upd_sized|]. split; [now apply firsts_ok_upd|].
  split; [apply hashed_snoc; auto; apply sha_len|]. split.
  - rewrite chain_err_app, H4. cbn [chain_err]. rewrite (last_hash_of l o Ho). now rewrite honest_ok.
  - rewrite last_last. apply rec_at_points.
Qed.

Lemma contribute_exec bs w f g p (s : srs E) l : 2 <= bs -> 1 <= p <= 62 -> length l < N.to_nat 65535 ->
  is_file1 f p s l -> firsts_ok bs s ->
  let s' := upd_for w s in let c := rec_for w s' (last_hash l) in
  exec (contribute bs w) f g = (Ok (c_hash c), file1 p s' (l ++ [c])).
Proof.
  intros B2 P1 Ll F FO s' c.
  assert (SZ : sized p s) by (destruct F as [? [? [? [_ [Q _]]]]]; exact Q).
  destruct (contribute_ev bs w f p s l (opened f, opened g) B2 P1 ltac:(lia) F eq_refl) as [s1 [_ D]].
  apply ev_exec in D. rewrite D. unfold on. cbn [Nat.eqb].
  rewrite (first_rec_eq bs w _ p) by (auto using upd_sized, firsts_ok_upd; lia).
  fold s'. f_equal. unfold file1. fold (upd_for w s). fold s'. fold c.
  rewrite app_length. cbn [length]. unfold recs_bytes. rewrite flat_map_app. cbn [flat_map]. rewrite app_nil_r.
  replace (N.to_nat ((N.of_nat (length l) + 1) mod 65536)) with (length l + 1)%nat; [reflexivity|].
  rewrite N.mod_small by lia. lia.
Qed.

Fixpoint honest (s : srs E) (l : list (contrib E)) (ws : list (@rnd1 E)) : srs E * list (contrib E) :=
  match ws with
  | [] => (s, l)
  | w :: ws' => let s' := upd_for w s in honest s' (l ++ [rec_for w s' (last_hash l)]) ws'
  end.
Lemma honest_len : forall ws s l, length (snd (honest s l ws)) = (length l + length ws)%nat.
Proof. induction ws as [|w ws IH]; intros s l; cbn [honest length snd]; [lia|]. rewrite IH, app_length. cbn. lia. Qed.
Lemma honest_good bs p o : c_hash o = [] -> forall ws s l, good bs p o s l ->
  good bs p o (fst (honest s l ws)) (snd (honest s l ws)).
Proof. intros Ho. induction ws as [|w ws IH]; intros s l G; cbn [honest fst snd]; auto. apply IH. now apply good_step. Qed.
Lemma honest_ext : forall ws s l, exists l', snd (honest s l ws) = l ++ l'.
Proof.
  induction ws as [|w ws IH]; intros s l; cbn [honest snd]; [exists []; now rewrite app_nil_r|].
  destruct (IH (upd_for w s) (l ++ [rec_for w (upd_for w s) (last_hash l)])) as [l' ->].
  eexists. rewrite <- app_assoc. reflexivity.
Qed.
Lemma honest_srs_of p : forall ws T A B l, fst (honest (srs_of p T A B) l ws) =
  srs_of p (prodl (map (fun w => r_tau w) ws) * T) (prodl (map (fun w => r_alpha w) ws) * A) (prodl (map (fun w => r_beta w) ws) * B).
Proof.
  induction ws as [|w ws IH]; intros T A B l; cbn [honest fst map prodl fold_right].
  - f_equal; ring.
  - fold (prodl (map (fun w => r_tau w) ws)) (prodl (map (fun w => r_alpha w) ws)) (prodl (map (fun w => r_beta w) ws)).
    unfold upd_for at 1. rewrite upd_srs_of, IH. f_equal; ring.
Qed.

Lemma steps_honest bs p o : 2 <= bs -> 1 <= p <= 62 -> c_hash o = [] -> forall ws s l hs f,
  is_file1 f p s l -> good bs p o s l -> length l + length ws <= N.to_nat 65535 ->
  (ws = [] -> f = file1 p s l) ->
  exists hs', fold_left (step1 bs) ws (Ok (f, hs)) = Ok (file1 p (fst (honest s l ws)) (snd (honest s l ws)), hs ++ hs') /\
    map c_hash (snd (honest s l ws)) = map c_hash l ++ hs'.
Proof.
  intros B2 P1 Ho. induction ws as [|w ws IH]; intros s l hs f F G L W.
  - exists []. cbn [fold_left honest fst snd]. rewrite !app_nil_r. rewrite (W eq_refl). auto.
  - cbn [fold_left honest length] in *. unfold step1 at 2.
    pose proof G as [GS [GF _]].
    rewrite (contribute_exec bs w f [] p s l) by (auto; lia). cbn [ok_out fst snd].
    set (c := rec_for w (upd_for w s) (last_hash l)).
    pose proof (good_step bs p o s l w Ho G) as G'.
    destruct (IH (upd_for w s) (l ++ [c]) (hs ++ [c_hash c]) (file1 p (upd_for w s) (l ++ [c]))) as [hs' [H1 H2]]; auto.
    + destruct G' as [Q1 [Q2 [Q3 _]]]. rewrite <- (app_nil_r (file1 _ _ _)). apply file1_is; auto.
    + rewrite app_length. cbn [length]. lia.
    + exists (c_hash c :: hs'). fold c in H1, H2 |- *. rewrite H1, <- app_assoc. split; [reflexivity|].
      rewrite H2, map_app. cbn [map]. now rewrite <- app_assoc.
Qed.

(* ---- verdict on a readable file ---- *)
Definition origin_src (trans : option bool) (g : bytes) (o : contrib E) : Prop :=
  forall s, getr true s = opened g -> exists s', ev (default_contrib trans) s (Ok o) s' none.
Lemma origin_src_none g : origin_src None g origin_gen.
Proof. intros s _. exists s. apply ev_default_none. Qed.
Lemma origin_src_file q c0 c1 (s0 : srs E) t : 1 <= q <= 55 -> sized q s0 ->
  origin_src (Some true) (b8 (N.of_nat q) :: c0 :: c1 :: srs_bytes s0 ++ t) (origin_of s0).
Proof. intros Q Z s G. eapply ev_default_file; eauto. Qed.

Definition outcome (o : contrib E) (b2 : E) (l : list (contrib E)) : res (list bytes) :=
  match chain_err o l with
  | Some e => Err e
  | None => if feqb b2 (c_beta2 (last l zero_contrib)) then Ok (map c_hash l) else Err EBetaG2
  end.

(* any file whose parameter sections decode *)
Lemma verify_bytes bs (rho : nat -> nat -> nat -> E) trans f g p n (s : srs E) sb tail o :
  mexp_strict E -> 1 <= bs -> p <= 62 -> (n < 65536)%N -> sized p s -> is_srs sb s ->
  f = b8 (N.of_nat p) :: be16 n ++ sb ++ tail -> origin_src trans g o ->
  exec (verify bs rho trans) f g = (verdict (N.to_nat n) o (beta2 s) tail, []).
Proof.
  intros MS B1 P Hn SZ IS Ef OS.
  destruct (verify_ev bs rho trans f p n s sb tail o (opened f, opened g) (opened g) MS B1 P Hn SZ IS Ef eq_refl) as [s' D].
  - intros s1 Hs. destruct (OS s1 Hs) as [s2 H]. exists s2. split; auto. exact (uses_other true _ (uses_default trans) _ _ _ _ H).
  - reflexivity.
  - now apply ev_exec in D.
Qed.
Lemma verify_file bs (rho : nat -> nat -> nat -> E) trans f g p (s : srs E) l o :
  mexp_strict E -> 1 <= bs -> p <= 62 -> length l < N.to_nat 65536 -> is_file1 f p s l -> origin_src trans g o ->
  exec (verify bs rho trans) f g = (outcome o (beta2 s) l, []).
Proof.
  intros MS B1 P Hl [sb [rb [junk [Ef [SZ [IS AR]]]]]] OS.
  rewrite (verify_bytes bs rho trans f g p (N.of_nat (length l)) s sb (rb ++ junk) o); auto; [|lia].
  unfold verdict. rewrite Nat2N.id, (take_chain_is l rb zero_contrib junk AR). reflexivity.
Qed.

Lemma last_nonempty {X} (l : list X) d d' : l <> [] -> last l d = last l d'.
Proof. intros H. induction l as [|x [|y l] IH]; [congruence|reflexivity|]. cbn [last] in *. apply IH. discriminate. Qed.
Lemma good_outcome bs p o (s : srs E) l : l <> [] -> good bs p o s l -> outcome o (beta2 s) l = Ok (map c_hash l).
Proof.
  intros NE [_ [_ [_ [H4 H5]]]]. unfold outcome. rewrite H4, (last_nonempty l zero_contrib o NE).
  destruct H5 as [_ [_ [_ [_ ->]]]]. now rewrite feqb_refl.
Qed.

(* ---- one contribution to a well-formed file ---- *)
Lemma contribute_general bs w f g p (s : srs E) l : 2 <= bs -> 1 <= p <= 62 -> length l < N.to_nat 65536 ->
  is_file1 f p s l ->
  exists c, exec (contribute bs w) f g =
    (Ok (c_hash c), hdr1 p (N.to_nat ((N.of_nat (length l) + 1) mod 65536)) ++ srs_bytes (upd_for w s) ++ recs_bytes l ++ rec_bytes c)
    /\ length (c_hash c) = 32%nat /\ (firsts_ok bs s -> c = rec_for w (upd_for w s) (last_hash l)).
Proof.
  intros B2 P1 Ll F. assert (SZ : sized p s) by (destruct F as [? [? [? [_ [Q _]]]]]; exact Q).
  destruct (contribute_ev bs w f p s l (opened f, opened g) B2 P1 Ll F eq_refl) as [s1 [_ D]].
  apply ev_exec in D. eexists. rewrite D. split; [reflexivity|]. split; [apply sha_len|].
  intros FO. apply (first_rec_eq bs w _ p); auto using upd_sized, firsts_ok_upd; lia.
Qed.

Lemma good_init bs p : 1 <= p -> good bs p origin_gen (srs_of p (1 : E) 1 1) [].
Proof.
  intros P. split; [apply srs_of_sized|]. split; [apply firsts_ok_of|]. split; [intros ? []|]. split; [reflexivity|].
  assert (N2 : 2 <= 2 ^ p) by (pose proof (Nat.pow_le_mono_r 2 1 p); cbn in *; lia).
  unfold at_points, srs_of. cbn [tau1 alpha1 beta1 tau2 beta2 last].
  rewrite !nth_map_seq by lia. rewrite !fpow_1_l. repeat split; cbn; ring.
Qed.

(* C04, C05 *)
Lemma ceremony_result bs p ws : 2 <= bs -> 1 <= p <= 62 -> length ws <= N.to_nat 65535 ->
  let T := prodl (map (fun w => r_tau w) ws) in
  let A := prodl (map (fun w => r_alpha w) ws) in
  let B := prodl (map (fun w => r_beta w) ws) in
  exists l, ceremony1 bs p ws = Ok (file1 p (srs_of p T A B) l, map c_hash l) /\ length l = length ws /\
    good bs p origin_gen (srs_of p T A B) l.
Proof.
  intros B2 P L T A B. unfold ceremony1.
  pose proof (initialize_ev (E := E) p (opened [], opened []) ltac:(lia)) as I0. apply ev_exec in I0. rewrite I0.
  unfold on. cbn [Nat.eqb ok_out fst snd].
  set (s0 := srs_of p (1 : E) 1 1).
  destruct (steps_honest bs p origin_gen B2 P eq_refl ws s0 [] [] (file1 p s0 [])) as [hs' [H1 H2]].
  - rewrite <- (app_nil_r (file1 _ _ _)). apply file1_is; [apply srs_of_sized|intros ? []].
  - apply good_init. lia.
  - cbn [length]. lia.
  - auto.
  - exists (snd (honest s0 [] ws)). rewrite H1. cbn [app map] in *.
    assert (ES : fst (honest s0 [] ws) = srs_of p T A B).
    { unfold s0. rewrite honest_srs_of. unfold T, A, B. f_equal; ring. }
    rewrite ES, <- H2. split; [reflexivity|]. split; [now rewrite honest_len|].
    rewrite <- ES. apply (honest_good bs p origin_gen eq_refl). apply good_init. lia.
Qed.

Lemma idle_ok (prev : contrib E) xt xa xb t2 b2 :
  verify_contrib (idle_rec (xt * c_tau1 prev) (xa * c_alpha1 prev) (xb * c_beta1 prev) t2 b2
    (xt * chal 0 0 (c_hash prev) 1) (xa * chal 0 0 (c_hash prev) 2) (xb * chal 0 0 (c_hash prev) 3)) prev = None.
Proof.
  assert (V : forall b e (k : option err), b = true -> check b e k = k) by (intros ? ? ? ->; reflexivity).
  unfold verify_contrib. cbv zeta. change (@gen_sp E) with (@chal E). unfold same_ratio.
  rewrite !V; auto; try (apply feqb_ok; cbn [idle_rec c_kt c_ka c_kb kS kSX kSPX c_tau1 c_alpha1 c_beta1 c_tau2 c_beta2]; ring).
  apply bytes_eqb_eq. rewrite hash_vals. reflexivity.
Qed.


Lemma verify_inv (cur prev : contrib E) : verify_contrib cur prev = None ->
  kS (c_kt cur) * kSPX (c_kt cur) = kSX (c_kt cur) * chal (kS (c_kt cur)) (kSX (c_kt cur)) (c_hash prev) 1 /\
  kS (c_ka cur) * kSPX (c_ka cur) = kSX (c_ka cur) * chal (kS (c_ka cur)) (kSX (c_ka cur)) (c_hash prev) 2 /\
  kS (c_kb cur) * kSPX (c_kb cur) = kSX (c_kb cur) * chal (kS (c_kb cur)) (kSX (c_kb cur)) (c_hash prev) 3 /\
  c_tau1 cur * chal (kS (c_kt cur)) (kSX (c_kt cur)) (c_hash prev) 1 = c_tau1 prev * kSPX (c_kt cur) /\
  c_alpha1 cur * chal (kS (c_ka cur)) (kSX (c_ka cur)) (c_hash prev) 2 = c_alpha1 prev * kSPX (c_ka cur) /\
  c_beta1 cur * chal (kS (c_kb cur)) (kSX (c_kb cur)) (c_hash prev) 3 = c_beta1 prev * kSPX (c_kb cur) /\
  kS (c_kt cur) * c_tau2 cur = kSX (c_kt cur) * c_tau2 prev /\
  kS (c_kb cur) * c_beta2 cur = kSX (c_kb cur) * c_beta2 prev /\
  c_hash cur = sha E (enc_vals (rec_vals cur)).
Proof.
  assert (V : forall b e (k : option err), check b e k = None -> b = true /\ k = None) by (intros [] ? ? H; [auto|discriminate]).
  unfold verify_contrib. cbv zeta. change (@gen_sp E) with (@chal E). unfold same_ratio. intros H.
  apply V in H as [H1 H]. apply V in H as [H2 H]. apply V in H as [H3 H]. apply V in H as [H4 H].
  apply V in H as [H5 H]. apply V in H as [H6 H]. apply V in H as [H7 H]. apply V in H as [H8 H]. apply V in H as [H9 _].
  apply feqb_ok in H1, H2, H3, H4, H5, H6, H7, H8. apply bytes_eqb_eq in H9. rewrite hash_vals in H9.
  repeat split; assumption.
Qed.
Lemma cancel_l (a x y : E) : a <> 0 -> a * x = a * y -> x = y.
Proof. apply fmul_cancel_l. Qed.
Lemma g1_link (S0 SX SPX SP cur prev : E) : S0 <> 0 -> SP <> 0 ->
  S0 * SPX = SX * SP -> cur * SP = prev * SPX -> cur = SX / S0 * prev.
Proof.
  intros H1 H2 K U. apply (cancel_l (S0 * SP)).
  - intros X. apply fmul_0_iff in X. tauto.
  - replace (S0 * SP * cur) with (S0 * (cur * SP)) by ring. rewrite U.
    replace (S0 * (prev * SPX)) with (prev * (S0 * SPX)) by ring. rewrite K. field. auto.
Qed.
Lemma g2_link (S0 SX cur prev : E) : S0 <> 0 -> S0 * cur = SX * prev -> cur = SX / S0 * prev.
Proof. intros H1 U. apply (cancel_l S0); auto. rewrite U. field. auto. Qed.

Lemma accepted_linked (cur prev : contrib E) : verify_contrib cur prev = None -> keys_live cur (c_hash prev) ->
  exists xt xa xb, linked prev cur xt xa xb.
Proof.
  intros V [[K1 K2] [[K3 K4] [K5 K6]]]. apply verify_inv in V as [H1 [H2 [H3 [H4 [H5 [H6 [H7 [H8 _]]]]]]]].
  exists (kSX (c_kt cur) / kS (c_kt cur)), (kSX (c_ka cur) / kS (c_ka cur)), (kSX (c_kb cur) / kS (c_kb cur)).
  split; [exact (g1_link _ _ _ _ _ _ K1 K2 H1 H4)|]. split; [exact (g1_link _ _ _ _ _ _ K3 K4 H2 H5)|].
  split; [exact (g1_link _ _ _ _ _ _ K5 K6 H3 H6)|]. split; [exact (g2_link _ _ _ _ K1 H7)|exact (g2_link _ _ _ _ K5 H8)].
Qed.

Lemma chain_linked : forall l (o : contrib E), chain_err o l = None -> all_live o l -> all_linked o l.
Proof.
  induction l as [|c l IH]; intros o H L; [exact I|]. cbn [chain_err all_live all_linked] in *.
  destruct (verify_contrib c o) eqn:V; [discriminate|]. destruct L as [L1 L2].
  split; [now apply accepted_linked|auto].
Qed.
Lemma linked_total : forall l (o : contrib E), all_linked o l -> exists xt xa xb, linked o (last l o) xt xa xb.
Proof.
  induction l as [|c l IH]; intros o H.
  - exists 1, 1, 1. cbn [last]. repeat split; ring.
  - destruct H as [[xt [xa [xb [A1 [A2 [A3 [A4 A5]]]]]]] H]. destruct (IH c H) as [yt [ya [yb [B1 [B2 [B3 [B4 B5]]]]]]].
    exists (yt * xt), (ya * xa), (yb * xb).
    replace (last (c :: l) o) with (last l c).
    + repeat split; rewrite ?B1, ?B2, ?B3, ?B4, ?B5, ?A1, ?A2, ?A3, ?A4, ?A5; ring.
    + clear. destruct l as [|x l]; [reflexivity|]. cbn [last]. revert x. induction l as [|y l IHl]; intros x; [reflexivity|]. exact (IHl y).
Qed.

(* ---- the last hash commits to the records ---- *)
Lemma app_inv_len {X} (a b c d : list X) : length a = length c -> a ++ b = c ++ d -> a = c /\ b = d.
Proof.
  revert c. induction a as [|x a IH]; intros [|y c] L H; try discriminate; auto.
  injection H as -> H. apply IH in H as [-> ->]; auto.
Qed.
Lemma enc_vals_inj : forall l1 l2 : list (E + E), map (fun v => match v with inl _ => true | inr _ => false end) l1 = map (fun v => match v with inl _ => true | inr _ => false end) l2 ->
  enc_vals l1 = enc_vals l2 -> l1 = l2.
Proof.
  induction l1 as [|a l1 IH]; intros [|b l2] S0 H; try discriminate; auto.
  cbn [map] in S0. injection S0 as Sh S0. cbn [enc_vals flat_map] in H.
  destruct a as [x|x], b as [y|y]; try discriminate; cbn [enc_val] in H.
  - apply app_inv_len in H; [|now rewrite !g1c_len]. destruct H as [H1 H2]. apply g1c_inj in H1. subst. f_equal. auto.
  - apply app_inv_len in H; [|now rewrite !g2c_len]. destruct H as [H1 H2]. apply g2c_inj in H1. subst. f_equal. auto.
Qed.
Lemma rec_vals_inj (c1 c2 : contrib E) : rec_vals c1 = rec_vals c2 -> c_hash c1 = c_hash c2 -> c1 = c2.
Proof.
  destruct c1 as [? ? ? ? ? [] [] [] ?], c2 as [? ? ? ? ? [] [] [] ?]. cbn. intros H. injection H as -> -> -> -> -> -> -> -> -> -> -> -> -> ->. now intros ->.
Qed.


Lemma snoc_cases {X} (l : list X) : l = [] \/ exists l' x, l = l' ++ [x].
Proof. destruct l as [|y l] using rev_ind; [auto|right; eauto]. Qed.

Lemma hash_binds (o : contrib E) : forall n l1 l2, length l1 = n -> length l2 = n ->
  chain_err o l1 = None -> chain_err o l2 = None ->
  (forall c, In c l1 -> kS (c_kt c) <> 0 /\ kSX (c_kt c) <> 0) ->
  last_hash l1 = last_hash l2 -> l1 = l2 \/ exists i, collision_at o l1 l2 i.
Proof.
  induction n as [|n IH]; intros l1 l2 L1 L2 C1 C2 NZ H.
  - destruct l1, l2; try discriminate. now left.
  - destruct (snoc_cases l1) as [->|[m1 [c1 ->]]]; [discriminate|].
    destruct (snoc_cases l2) as [->|[m2 [c2 ->]]]; [discriminate|].
    rewrite app_length in L1, L2. cbn [length] in L1, L2.
    rewrite !last_hash_snoc in H. rewrite chain_err_app in C1, C2.
    destruct (chain_err o m1) eqn:D1; [discriminate|]. destruct (chain_err o m2) eqn:D2; [discriminate|].
    cbn [chain_err] in C1, C2.
    destruct (verify_contrib c1 (last m1 o)) eqn:V1; [discriminate|].
    destruct (verify_contrib c2 (last m2 o)) eqn:V2; [discriminate|]. clear C1 C2.
    apply verify_inv in V1 as [K1 [_ [_ [_ [_ [_ [_ [_ S1]]]]]]]].
    apply verify_inv in V2 as [K2 [_ [_ [_ [_ [_ [_ [_ S2]]]]]]]].
    assert (N1 : nth_error (m1 ++ [c1]) n = Some c1) by (rewrite nth_error_app2 by lia; replace (n - length m1)%nat with 0%nat by lia; reflexivity).
    assert (N2 : nth_error (m2 ++ [c2]) n = Some c2) by (rewrite nth_error_app2 by lia; replace (n - length m2)%nat with 0%nat by lia; reflexivity).
    assert (F1 : firstn n (m1 ++ [c1]) = m1) by (replace n with (length m1) by lia; apply firstn_app_exact).
    assert (F2 : firstn n (m2 ++ [c2]) = m2) by (replace n with (length m2) by lia; apply firstn_app_exact).
    destruct (bytes_eqb (enc_vals (rec_vals c1)) (enc_vals (rec_vals c2))) eqn:B.
    2:{ right. exists n, c1, c2. split; [auto|]. split; [auto|]. left. split; [|congruence].
        intros X. rewrite X, bytes_eqb_refl in B. discriminate. }
    apply bytes_eqb_eq in B. apply enc_vals_inj in B; [|reflexivity].
    assert (c1 = c2) by (apply rec_vals_inj; auto). subst c2. clear N2.
    destruct (NZ c1) as [Z1 Z2]; [apply in_or_app; right; now left|].
    assert (SPE : chal (kS (c_kt c1)) (kSX (c_kt c1)) (c_hash (last m1 o)) 1 = chal (kS (c_kt c1)) (kSX (c_kt c1)) (c_hash (last m2 o)) 1).
    { apply (cancel_l (kSX (c_kt c1))); auto. congruence. }
    destruct (bytes_eqb (c_hash (last m1 o)) (c_hash (last m2 o))) eqn:HB.
    + apply bytes_eqb_eq in HB.
      assert (LH : last_hash m1 = last_hash m2).
      { destruct (snoc_cases m1) as [->|[x1 [y1 ->]]], (snoc_cases m2) as [->|[x2 [y2 ->]]]; auto.
        - rewrite app_length in L2. cbn in L1, L2. lia.
        - rewrite app_length in L1. cbn in L1, L2. lia.
        - rewrite !last_last in HB. now rewrite !last_hash_snoc. }
      destruct (IH m1 m2) as [->|[i [d1 [d2 [E1 [E2 Q]]]]]]; auto; try lia.
      * intros c Hc. apply NZ. apply in_or_app. now left.
      * right. exists i, d1, d2.
        assert (I1 : i < length m1) by (apply nth_error_Some; congruence).
        assert (I2 : i < length m2) by (apply nth_error_Some; congruence).
        rewrite !nth_error_app1 by auto. split; [auto|]. split; [auto|].
        assert (FX : forall m x, i < length m -> firstn i (m ++ [x : contrib E]) = firstn i m).
        { intros m x Hi. rewrite firstn_app. replace (i - length m)%nat with 0%nat by lia. cbn. apply app_nil_r. }
        cbv beta zeta in Q |- *. rewrite !FX by auto. exact Q.
    + right. exists n, c1, c1. rewrite N1. split; [auto|]. split; [rewrite nth_error_app2 by lia; replace (n - length m2)%nat with 0%nat by lia; auto|].
      right. cbv beta zeta. rewrite F1, F2. split; [|exact SPE].
      intros X. apply app_inv_len in X; auto. destruct X as [_ X]. apply app_inv_len in X; auto. destruct X as [_ X].
      rewrite X, bytes_eqb_refl in HB. discriminate.
Qed.
End Facts.
