(* Phase1Claims.v -- the phase-1 properties assembled from the lemmas; stated in Prop1.v. *)
From Coq Require Import Ring Field Permutation.
From Verif Require Import Base Fld Conc Parallel IO Ext Spec1 Phase1 Phase1Io Phase1Verify Phase1Trans Phase1Facts Phase1Inv Phase1More.
Local Open Scope fld_scope.
Local Open Scope io_scope.

(* a program that writes nothing *)
Fixpoint quiet {X} (p : io X) : Prop :=
  match p with
  | Ret _ | Throw _ | Boom => True
  | Rd _ _ c => forall x, quiet (c x)
  | Seek _ _ c => forall x, quiet (c x)
  | Fwd _ _ c => quiet c
  | NewRd _ _ c => quiet c
  | NewWr _ _ c => quiet c
  | Flush _ c => forall x, quiet (c x)
  | Wr _ _ _ => False
  end.
Lemma quiet_run {X} (p : io X) : quiet p -> forall s, snd (run p s) = [].
Proof.
  induction p as [a|e| |h' k c IH|h' z c IH|h' n c IH|h' n c IH|o n c IH|o c IH|o b c IH]; intros U s; cbn [run quiet] in *; auto.
  - destruct (rd_read k (getr h' s)) as [x q]. auto.
  - destruct (z <? 0)%Z; auto.
  - contradiction.
Qed.
Lemma quiet_bind {X Y} (p : io X) (f : X -> io Y) : quiet p -> (forall x, quiet (f x)) -> quiet (bind p f).
Proof.
  induction p as [a|e| |h' k c IH|h' z c IH|h' n c IH|h' n c IH|o n c IH|o c IH|o b c IH]; cbn [bind quiet]; intros U F; auto.
Qed.
Lemma quiet_rf h : forall fuel k acc, quiet (rf_loop fuel k h acc).
Proof.
  induction fuel as [|fuel IH]; intros k acc; cbn [rf_loop quiet]; auto.
  intros [b|]; cbn; auto. destruct (length b =? k); cbn; auto.
Qed.
Lemma quiet_readfull h k : quiet (readfull h k).
Proof. unfold readfull. destruct (k =? 0); [exact I|apply quiet_rf]. Qed.

Section Claims.
Context {E : Ext}.
Add Field Kfld9 : (f_th E).

Lemma quiet_decode1 h : quiet (decode1 (E := E) h).
Proof.
  unfold decode1. apply quiet_bind; [apply quiet_readfull|]. intros b. destruct (compressed b).
  - destruct (g1dc b); exact I.
  - apply quiet_bind; [apply quiet_readfull|]. intros b2. destruct (g1dr _); exact I.
Qed.
Lemma quiet_decode2 h : quiet (decode2 (E := E) h).
Proof.
  unfold decode2. apply quiet_bind; [apply quiet_readfull|]. intros b. destruct (compressed b).
  - destruct (g2dc b); exact I.
  - apply quiet_bind; [apply quiet_readfull|]. intros b2. destruct (g2dr _); exact I.
Qed.
Lemma quiet_header h : quiet (read_header h).
Proof.
  unfold read_header. cbn. intros [[|pw b]|]; cbn; auto.
  intros [c|]; cbn; auto. now destruct (c ++ _) as [|c0 [|c1 t]].
Qed.
Lemma quiet_seek h z : quiet (seek h z).
Proof. unfold seek. cbn. intros []; exact I. Qed.
Lemma quiet_default trans : quiet (default_contrib (E := E) trans).
Proof.
  destruct trans as [[]|]; [|exact I|exact I]. unfold default_contrib.
  apply quiet_bind; [apply quiet_header|]. intros [pw n]. cbv zeta.
  apply quiet_bind; [apply quiet_seek|]; intros _. apply quiet_bind; [apply quiet_decode1|]; intros ?.
  apply quiet_bind; [apply quiet_seek|]; intros _. apply quiet_bind; [apply quiet_decode1|]; intros ?.
  apply quiet_bind; [apply quiet_seek|]; intros _. apply quiet_bind; [apply quiet_decode1|]; intros ?.
  apply quiet_bind; [apply quiet_seek|]; intros _. apply quiet_bind; [apply quiet_decode2|]; intros ?.
  apply quiet_bind; [apply quiet_seek|]; intros _. apply quiet_bind; [apply quiet_decode2|]; intros ?.
  exact I.
Qed.

(* the origin of the chain, read from the transformed file g *)
Definition origin_is (trans : option bool) (g : bytes) (o : contrib E) : Prop :=
  fst (exec (default_contrib trans) [] g) = Ok o.
Lemma origin_run trans g s : getr true s = opened g ->
  exists s', ev (default_contrib (E := E) trans) s (fst (exec (default_contrib trans) [] g)) s' none.
Proof.
  intros G. destruct (run (default_contrib (E := E) trans) (opened [], opened g)) as [[r s1] w] eqn:R.
  destruct (uses_same true _ (uses_default trans) (opened [], opened g) s r s1 w (eq_sym G) R) as [s2 [R2 _]].
  pose proof (quiet_run _ (quiet_default trans) s) as Q. rewrite R2 in Q. cbn in Q. subst w.
  exists s2. unfold exec. rewrite R. exists []. split; [exact R2|]. intros o. reflexivity.
Qed.
Lemma origin_is_src trans g o : origin_is trans g o -> origin_src trans g o.
Proof. intros H s G. destruct (origin_run trans g s G) as [s' D]. rewrite H in D. eauto. Qed.
Lemma origin_is_none g : origin_is None g origin_gen.
Proof. reflexivity. Qed.
Lemma origin_src_is trans g o : origin_src trans g o -> origin_is trans g o.
Proof.
  intros H. destruct (H (opened [], opened g) eq_refl) as [s' D]. apply ev_exec in D. unfold origin_is. now rewrite D.
Qed.
Lemma origin_is_file q c0 c1 (s0 : srs E) t : 1 <= q <= 55 -> sized q s0 ->
  origin_is (Some true) (b8 (N.of_nat q) :: c0 :: c1 :: srs_bytes s0 ++ t) (origin_of s0).
Proof. intros. apply origin_src_is. now apply origin_src_file. Qed.
Lemma verify_origin_fails bs (rho : nat -> nat -> nat -> E) trans f g p n (s : srs E) sb tail r :
  mexp_strict E -> 1 <= bs -> p <= 62 -> (n < 65536)%N -> sized p s -> is_srs sb s ->
  f = b8 (N.of_nat p) :: be16 n ++ sb ++ tail ->
  fst (exec (default_contrib (E := E) trans) [] g) = r -> (forall o, r <> Ok o) ->
  exec (verify bs rho trans) f g = (match r with Err e => Err e | _ => Panic end, []).
Proof.
  intros MS B1 P62 Hn [Z1 [Z2 [Z3 Z4]]] IS Ef OR NO.
  destruct IS as [b1 [b2 [b3 [b4 [b5 [-> [I1 [I2 [I3 [I4 I5]]]]]]]]]].
  set (s0 := (opened f, opened g)).
  assert (G : getr false s0 = at_ f 0 0 (b8 (N.of_nat p) :: be16 n ++ b1 ++ b2 ++ b3 ++ b4 ++ b5 ++ tail)).
  { unfold s0, opened. cbn [getr fst]. rewrite Ef at 2. rewrite <- !app_assoc. reflexivity. }
  pose proof bigBuf_big as BB.
  set (fin := setr false (at_ f bigBuf (0 + length b1 + length b2 + length b3 + length b4 + length b5) tail) s0).
  destruct (origin_run trans g fin eq_refl) as [s1 D1]. rewrite OR in D1.
  assert (X : exists s', ev (verify bs rho trans) s0 (match r with Err e => Err e | _ => Panic end) s' none).
  { exists s1. unfold verify. eapply evb; [eapply ev_read_header; exact G|]. cbv beta iota. rewrite be16_val by auto.
    cbv zeta. rewrite count_tau, pow2_small by auto.
    eapply ev_newrd0; [apply getr_setr|]. rewrite setr_setr.
    eapply evb; [eapply lincombG1_strict; [exact MS|exact B1|exact BB|now rewrite Z1|exact I1|apply getr_setr]|]. cbv beta iota. rewrite setr_setr.
    eapply evb; [eapply lincombG1_strict; [exact MS|exact B1|exact BB|now rewrite Z2|exact I2|apply getr_setr]|]. cbv beta iota. rewrite setr_setr.
    eapply evb; [eapply lincombG1_strict; [exact MS|exact B1|exact BB|now rewrite Z3|exact I3|apply getr_setr]|]. cbv beta iota. rewrite setr_setr.
    eapply evb; [eapply lincombG2_strict; [exact MS|exact B1|exact BB|now rewrite Z4|exact I4|apply getr_setr]|]. cbv beta iota. rewrite setr_setr.
    eapply evb; [eapply ev_decode2; [exact BB|exact I5|apply getr_setr]|]. cbv beta iota. rewrite setr_setr.
    fold fin. destruct r as [o|e|]; [exfalso; exact (NO o eq_refl)| |].
    - eapply ev_bind_err. exact D1.
    - eapply ev_bind_panic. exact D1. }
  destruct X as [s' X]. apply ev_exec in X. exact X.
Qed.

Lemma file1_is0 p (s : srs E) l : sized p s -> hashed32 l -> is_file1 (file1 p s l) p s l.
Proof. intros A B. rewrite <- (app_nil_r (file1 p s l)). now apply file1_is. Qed.

(* C01 *)
Lemma c01 p f g : p <= 62 ->
  let N := (2 ^ p)%nat in
  let out := hdr1 p 0 ++ concat (repeat (g1c (1 : E)) (2 * N - 1)) ++ concat (repeat (g1c (1 : E)) N) ++
    concat (repeat (g1c (1 : E)) N) ++ concat (repeat (g2c (1 : E)) N) ++ g2c (1 : E) in
  exec (initialize (E := E) (b8 (N.of_nat p))) f g = (Ok tt, out) /\ length out = (3 + 192 * N + 32)%nat.
Proof.
  intros H N out.
  assert (X : out = file1 p (srs_of p (1 : E) 1 1) []).
  { unfold out, file1, srs_bytes, srs_of, enc1, enc2. cbn [tau1 alpha1 beta1 tau2 beta2 length recs_bytes flat_map].
    rewrite app_nil_r.
    assert (M : forall (e : E -> bytes) (u : nat -> E) n, (forall i, u i = 1) -> flat_map e (map u (seq 0 n)) = concat (repeat (e 1) n)).
    { intros e u n Hu. rewrite flat_map_concat_map, map_map. f_equal. generalize 0%nat. induction n as [|n IH]; intros k; cbn [seq map repeat]; [auto|].
      now rewrite Hu, IH. }
    rewrite !M; [reflexivity|..]; intros i; rewrite fpow_1_l; ring. }
  split.
  - pose proof (initialize_ev (E := E) p (opened f, opened g) H) as D. apply ev_exec in D. rewrite D, X. reflexivity.
  - rewrite X. unfold file1. rewrite !app_length, hdr1_length, (srs_bytes_length p) by apply srs_of_sized. cbn [recs_bytes flat_map length]. unfold N. lia.
Qed.

(* C02 *)
Lemma c02 bs (w : @rnd1 E) f g p (s : srs E) l : 2 <= bs -> 1 <= p <= 62 -> length l < N.to_nat 65535 -> is_file1 f p s l ->
  let s' := upd_srs (r_tau w) (r_alpha w) (r_beta w) s in
  exists c, exec (contribute bs w) f g = (Ok (c_hash c), file1 p s' (l ++ [c])) /\ sized p s'.
Proof.
  intros B P L F s'. destruct (contribute_general bs w f g p s l B P ltac:(lia) F) as [c [H [Hc _]]]. exists c. split.
  - rewrite H. unfold file1. rewrite N.mod_small, app_length, N2Nat.inj_add, Nat2N.id by lia.
    unfold recs_bytes. rewrite flat_map_app. cbn [flat_map length]. rewrite app_nil_r. reflexivity.
  - destruct F as [? [? [? [_ [Q _]]]]]. now apply upd_sized.
Qed.

(* C03 *)
Lemma c03 bs (w : @rnd1 E) f g p (s : srs E) l : 2 <= bs -> 1 <= p <= 62 -> length l < N.to_nat 65535 -> is_file1 f p s l ->
  firsts_ok bs s ->
  let s' := upd_srs (r_tau w) (r_alpha w) (r_beta w) s in
  let c := new_rec (r_tau w) (r_alpha w) (r_beta w) (r_st w) (r_sa w) (r_sb w) s' (last_hash l) in
  exec (contribute bs w) f g = (Ok (c_hash c), hdr1 p (length l + 1) ++ srs_bytes s' ++ recs_bytes l ++ rec_bytes c).
Proof.
  intros B P L F FO s' c. destruct (contribute_general bs w f g p s l B P ltac:(lia) F) as [c' [H [_ Hc]]].
  rewrite H, (Hc FO). repeat f_equal. rewrite N.mod_small, N2Nat.inj_add, Nat2N.id by lia. reflexivity.
Qed.

(* C03: files with the identity at the position of [tau]_1 *)
Lemma nth_repeat0 n i : nth i (repeat (0 : E) n) 0 = 0.
Proof. revert i. induction n as [|n IH]; intros [|i]; cbn; auto. Qed.
Lemma c03_refuted bs (w : @rnd1 E) p g : 2 <= bs -> 1 <= p <= 62 -> bs + 2 <= 2 ^ p -> r_tau w <> 0 ->
  exists f (s : srs E) l1 (t : E) l2, is_file1 f p s [] /\
    exec (contribute bs w) f g = (Ok l1, hdr1 p 1 ++ srs_bytes (upd_srs (r_tau w) (r_alpha w) (r_beta w) s) ++ g1c t ++ l2) /\
    t <> 0 /\ nth 1 (tau1 (upd_srs (r_tau w) (r_alpha w) (r_beta w) s)) 0 = 0.
Proof.
  intros B P H T.
  set (L := repeat (0 : E) (bs + 1) ++ 1 :: repeat 0 (2 * 2 ^ p - bs - 3)).
  set (s := mkSrs L (repeat (0 : E) (2 ^ p)) (repeat 0 (2 ^ p)) (repeat 0 (2 ^ p)) 0).
  assert (LL : length L = (2 * 2 ^ p - 1)%nat) by (unfold L; rewrite app_length; cbn [length]; rewrite !repeat_length; lia).
  assert (SZ : sized p s) by (unfold sized, s; cbn [tau1 alpha1 beta1 tau2]; rewrite !repeat_length; auto).
  assert (F : is_file1 (file1 p s []) p s []) by (apply file1_is0; auto; intros ? []).
  destruct (contribute_ev bs w _ p s [] (opened (file1 p s []), opened g) B P ltac:(cbn [length]; lia) F eq_refl) as [s1 [_ D]].
  apply ev_exec in D. cbn [length] in D.
  set (s' := upd_srs (r_tau w) (r_alpha w) (r_beta w) s) in *.
  set (c := first_rec bs w s' (last_hash [])) in *.
  assert (NT : forall i, nth i (tau1 s') 0 = r_tau w ^ i * nth i L 0).
  { intros i. unfold s'. cbn [upd_srs tau1 s]. rewrite nth_mapi0 by ring. reflexivity. }
  assert (NL : forall i, nth i L 0 = if i =? bs + 1 then 1 else 0).
  { intros i. unfold L. destruct (Nat.ltb_spec i (bs + 1)) as [Q|Q].
    - rewrite app_nth1 by (rewrite repeat_length; lia). rewrite nth_repeat0. destruct (Nat.eqb_spec i (bs + 1)); [lia|auto].
    - rewrite app_nth2 by (rewrite repeat_length; lia). rewrite repeat_length.
      destruct (Nat.eqb_spec i (bs + 1)) as [->|X]; [now rewrite Nat.sub_diag|].
      destruct (i - (bs + 1))%nat eqn:Y; [lia|]. cbn [nth]. apply nth_repeat0. }
  exists (file1 p s []), s, (c_hash c), (c_tau1 c). unfold rec_bytes in D. cbn [rec_vals app enc_vals flat_map enc_val] in D.
  rewrite <- !app_assoc in D. eexists. split; [exact F|]. split; [exact D|]. split.
  - unfold c, first_rec, signed_rec. cbn [c_tau1].
    assert (LT : length (tau1 s') = (2 * 2 ^ p - 1)%nat) by (unfold s'; cbn [upd_srs tau1 s]; now rewrite mapi_length).
    rewrite LT. set (T1 := tau1 s') in *. destruct (2 * 2 ^ p - 1)%nat as [|[|m]] eqn:EM; [lia|lia|].
    destruct T1 as [|x T1'] eqn:ET; [discriminate|]. rewrite <- ET in *. 
    assert (Z1 : nth 1 (firstn bs T1) 0 = 0).
    { rewrite nth_nth_error, nth_error_firstn. destruct (Nat.ltb_spec 1 bs); [|reflexivity]. rewrite <- nth_nth_error.
      rewrite NT, NL. destruct (Nat.eqb_spec 1 (bs + 1)); [lia|ring]. }
    replace (firstnz 1 bs (S (S m)) T1) with (nth 1 (firstn bs (skipn bs T1)) 0).
    2:{ rewrite ET at 2. cbn [firstnz]. rewrite <- ET. rewrite Z1, feqb_refl.
        destruct (skipn bs T1) as [|y Y] eqn:EY; [exfalso|].
        - assert (length (skipn bs T1) = 0)%nat by now rewrite EY. rewrite skipn_length, LT in *. lia.
        - cbn [firstnz]. rewrite <- EY.
          replace (nth 1 (firstn bs (skipn bs T1)) 0) with (r_tau w ^ (bs + 1)).
          + rewrite (proj2 (feqb_neq E _ _)); [reflexivity|]. now apply fpow_neq0.
          + rewrite nth_nth_error, nth_error_firstn. destruct (Nat.ltb_spec 1 bs); [|lia].
            rewrite nth_error_skipn, <- nth_nth_error, NT, NL. rewrite Nat.eqb_refl. ring. }
    rewrite nth_nth_error, nth_error_firstn. destruct (Nat.ltb_spec 1 bs); [|lia].
    rewrite nth_error_skipn, <- nth_nth_error, NT, NL. rewrite Nat.eqb_refl.
    apply fmul_neq0; [now apply fpow_neq0|apply f1_neq_0].
  - rewrite NT, NL. destruct (Nat.eqb_spec 1 (bs + 1)); [lia|ring].
Qed.

(* C04 *)
Lemma prodl_perm (l l' : list E) : Permutation l l' -> prodl l = prodl l'.
Proof.
  induction 1 as [|x l l' _ IH|x y l|l1 l2 l3 _ IH1 _ IH2]; cbn [prodl fold_right] in *; auto.
  - fold (prodl l). fold (prodl l'). now rewrite IH.
  - ring.
  - congruence.
Qed.
Lemma c04 bs p (ws : list (@rnd1 E)) : 2 <= bs -> 1 <= p <= 62 -> length ws <= N.to_nat 65535 ->
  exists l, ceremony1 bs p ws =
      Ok (file1 p (srs_of p (prodl (map (fun w => r_tau w) ws)) (prodl (map (fun w => r_alpha w) ws))
                            (prodl (map (fun w => r_beta w) ws))) l, map c_hash l) /\
    length l = length ws.
Proof. intros B P L. destruct (ceremony_result bs p ws B P L) as [l [H [Hl _]]]. eauto. Qed.
Lemma c04_order bs p (ws ws' : list (@rnd1 E)) : 2 <= bs -> 1 <= p <= 62 -> length ws <= N.to_nat 65535 ->
  Permutation ws ws' ->
  exists sb r r' hs hs', length sb = (3 + 192 * 2 ^ p + 32)%nat /\ ceremony1 bs p ws = Ok (sb ++ r, hs) /\ ceremony1 bs p ws' = Ok (sb ++ r', hs').
Proof.
  intros B P L Pm. destruct (c04 bs p ws B P L) as [l [H Hl]].
  assert (L' : length ws' <= N.to_nat 65535) by (rewrite <- (Permutation_length Pm); auto).
  destruct (c04 bs p ws' B P L') as [l' [H' Hl']]. rewrite H, H'.
  rewrite (prodl_perm _ _ (Permutation_map (fun w => r_tau w) Pm)), (prodl_perm _ _ (Permutation_map (fun w => r_alpha w) Pm)),
    (prodl_perm _ _ (Permutation_map (fun w => r_beta w) Pm)).
  unfold file1. rewrite Hl, Hl', (Permutation_length Pm). eexists (hdr1 p _ ++ srs_bytes _), _, _, _, _. rewrite <- !app_assoc.
  split; [|split; reflexivity]. rewrite app_length, hdr1_length, (srs_bytes_length p) by apply srs_of_sized. lia.
Qed.

(* C05 *)
Lemma c05 bs p (ws : list (@rnd1 E)) : mexp_strict E -> 2 <= bs -> 1 <= p <= 62 -> ws <> [] -> length ws <= N.to_nat 65535 ->
  exists f hs, ceremony1 bs p ws = Ok (f, hs) /\ length hs = length ws /\
    forall bs' (rho : nat -> nat -> nat -> E) g, 1 <= bs' -> exec (verify bs' rho None) f g = (Ok hs, []).
Proof.
  intros MS B P NE L. destruct (ceremony_result bs p ws B P L) as [l [H [Hl G]]].
  eexists _, _. split; [exact H|]. split; [now rewrite map_length|]. intros bs' rho g B'.
  pose proof G as [SZ [_ [H32 _]]]. set (s1 := srs_of p _ _ _) in *.
  rewrite (verify_file bs' rho None _ g p s1 l origin_gen); auto using origin_src_none; try lia.
  - f_equal. eapply good_outcome; [|exact G]. intros ->. destruct ws; [congruence|discriminate].
  - apply file1_is0; auto.
Qed.

(* C06 *)
Lemma step1_last bs (ws : list (@rnd1 E)) w p : ceremony1 bs p (ws ++ [w]) = step1 bs (ceremony1 bs p ws) w.
Proof. unfold ceremony1. now rewrite fold_left_app. Qed.
Lemma c06 bs (w : @rnd1 E) f g p (s : srs E) l : 2 <= bs -> 1 <= p <= 62 -> length l = N.to_nat 65535 -> is_file1 f p s l ->
  exists h f', exec (contribute bs w) f g = (Ok h, hdr1 p 0 ++ f') /\
    (mexp_strict E -> r_beta w * beta2 s <> 0 -> forall bs' (rho : nat -> nat -> nat -> E) g', 1 <= bs' ->
       exec (verify bs' rho None) (hdr1 p 0 ++ f') g' = (Err EBetaG2, [])).
Proof.
  intros B P L F. destruct (contribute_general bs w f g p s l B P ltac:(lia) F) as [c [H _]].
  exists (c_hash c), (srs_bytes (upd_for w s) ++ recs_bytes l ++ rec_bytes c). split.
  - rewrite H, L. reflexivity.
  - intros MS NZ bs' rho g' B'. assert (SZ : sized p s) by (destruct F as [? [? [? [_ [Q _]]]]]; exact Q).
    rewrite (verify_bytes bs' rho None _ g' p 0 (upd_for w s) (srs_bytes (upd_for w s)) (recs_bytes l ++ rec_bytes c) origin_gen); auto using origin_src_none; try lia.
    + unfold verdict. cbn [N.to_nat take_chain chain_err last zero_contrib c_beta2]. unfold upd_for. cbn [upd_srs beta2].
      now rewrite (proj2 (feqb_neq E _ _) NZ).
    + apply upd_sized. exact SZ.
    + apply is_srs_bytes.
Qed.
Lemma c06_ceremony bs p (ws : list (@rnd1 E)) : 2 <= bs -> 1 <= p <= 62 -> length ws = N.to_nat 65536 ->
  exists f hs, ceremony1 bs p ws = Ok (f, hs) /\ length hs = length ws /\
    (mexp_strict E -> (forall w, In w ws -> r_beta w <> 0) -> forall bs' (rho : nat -> nat -> nat -> E) g, 1 <= bs' ->
       exec (verify bs' rho None) f g = (Err EBetaG2, [])).
Proof.
  intros B P L. destruct (snoc_cases ws) as [->|[ws0 [w ->]]]; [cbn [length] in L; lia|].
  rewrite app_length in L. cbn [length] in L. rewrite step1_last.
  destruct (ceremony_result bs p ws0 B P ltac:(lia)) as [l [H [Hl G]]]. rewrite H. cbn [step1].
  pose proof G as [SZ [_ [H32 _]]].
  destruct (c06 bs w _ [] p _ l B P ltac:(lia) (file1_is0 _ _ _ SZ H32)) as [h [f' [D V]]]. rewrite D. cbn [ok_out fst snd].
  eexists _, _. split; [reflexivity|]. split; [rewrite !app_length, map_length; cbn [length]; lia|].
  intros MS NZ bs' rho g B'. apply V; auto. cbn [srs_of beta2]. apply fmul_neq0; [apply NZ, in_or_app; right; now left|].
  apply prodl_neq0. intros x Hx. apply in_map_iff in Hx as [w' [<- Hw]]. apply NZ, in_or_app. now left.
Qed.

(* C07 *)
Lemma c07 bs (rho : nat -> nat -> nat -> E) trans g p n (s s' : srs E) sb sb' tail :
  mexp_strict E -> 1 <= bs -> p <= 62 -> (n < 65536)%N ->
  sized p s -> is_srs sb s -> sized p s' -> is_srs sb' s' -> beta2 s = beta2 s' ->
  exec (verify bs rho trans) (b8 (N.of_nat p) :: be16 n ++ sb ++ tail) g =
  exec (verify bs rho trans) (b8 (N.of_nat p) :: be16 n ++ sb' ++ tail) g.
Proof.
  intros MS B P Hn Z I Z' I' EB. destruct (fst (exec (default_contrib (E := E) trans) [] g)) as [o|e|] eqn:O.
  - rewrite (verify_bytes bs rho trans _ g p n s sb tail o), (verify_bytes bs rho trans _ g p n s' sb' tail o);
      auto using origin_is_src. now rewrite EB.
  - rewrite (verify_origin_fails bs rho trans _ g p n s sb tail (Err e)), (verify_origin_fails bs rho trans _ g p n s' sb' tail (Err e));
      auto; discriminate.
  - rewrite (verify_origin_fails bs rho trans _ g p n s sb tail Panic), (verify_origin_fails bs rho trans _ g p n s' sb' tail Panic);
      auto; discriminate.
Qed.
Lemma c07_garbage bs bs' p (ws : list (@rnd1 E)) (rho : nat -> nat -> nat -> E) g : mexp_strict E -> 2 <= bs -> 1 <= bs' -> 1 <= p <= 62 -> ws <> [] -> length ws <= N.to_nat 65535 ->
  exists (s : srs E) l, ceremony1 bs p ws = Ok (file1 p s l, map c_hash l) /\
    forall s' : srs E, sized p s' -> beta2 s' = beta2 s -> exec (verify bs' rho None) (file1 p s' l) g = (Ok (map c_hash l), []).
Proof.
  intros MS B B' P NE L. destruct (ceremony_result bs p ws B P L) as [l [H [Hl G]]].
  eexists _, l. split; [exact H|]. intros s' SZ' EB. pose proof G as [SZ [_ [H32 _]]].
  rewrite (verify_file bs' rho None _ g p s' l origin_gen); auto using origin_src_none; try lia.
  - rewrite EB. f_equal. eapply good_outcome; [|exact G]. intros ->. destruct ws; [congruence|discriminate].
  - apply file1_is0; auto.
Qed.

(* C09 *)
Lemma last_cons_d {X} (l : list X) d c : last (c :: l) d = last l c.
Proof. destruct l as [|x l]; [reflexivity|]. cbn [last]. revert x. induction l as [|y l IHl]; intros x; [reflexivity|]. exact (IHl y). Qed.
Lemma c09 bs (rho : nat -> nat -> nat -> E) trans f g p (s : srs E) l o hs : mexp_strict E -> 1 <= bs -> p <= 62 ->
  length l < N.to_nat 65536 -> is_file1 f p s l -> origin_is trans g o ->
  fst (exec (verify bs rho trans) f g) = Ok hs -> all_live o l ->
  hs = map c_hash l /\ all_linked o l /\ beta2 s = c_beta2 (last l zero_contrib) /\
  exists xt xa xb, linked o (last l o) xt xa xb.
Proof.
  intros MS B P Hl F O H AL. rewrite (verify_file bs rho trans f g p s l o) in H by (auto using origin_is_src).
  cbn [fst] in H. unfold outcome in H. destruct (chain_err o l) eqn:C; [discriminate|].
  destruct (feqb (beta2 s) (c_beta2 (last l zero_contrib))) eqn:Q; [|discriminate]. injection H as <-.
  apply feqb_ok in Q. assert (LK : all_linked o l) by (apply chain_linked; auto). split; [auto|]. split; [exact LK|].
  split; [exact Q|]. now apply linked_total.
Qed.
Lemma c09_bytes bs (rho : nat -> nat -> nat -> E) trans f g hs : 1 <= bs ->
  fst (exec (verify bs rho trans) f g) = Ok hs ->
  exists p n (s : srs E) sb tail o, p <= 62 /\ (n < 65536)%N /\ f = b8 (N.of_nat p) :: be16 n ++ sb ++ tail /\
    sized p s /\ is_srs sb s /\ origin_is trans g o /\
    let cs := take_chain (N.to_nat n) zero_contrib tail in
    hs = map c_hash cs /\ beta2 s = c_beta2 (last cs zero_contrib) /\
    (all_live o cs -> all_linked o cs /\ exists xt xa xb, linked o (last cs o) xt xa xb).
Proof.
  intros B H. destruct (exec (verify bs rho trans) f g) as [r out0] eqn:X. cbn [fst] in H. subst r.
  destruct (verify_ok_inv bs rho trans f g hs out0 B X) as [p [n [s [sb [tail [o [H1 [H2 [H3 [H4 [H5 [H6 H7]]]]]]]]]]]].
  exists p, n, s, sb, tail, o. cbv zeta in H7 |- *. destruct H7 as [C [-> Eb]].
  do 5 (split; [assumption|]). split; [exact H6|]. split; [reflexivity|]. split; [exact Eb|].
  intros AL. assert (LK := chain_linked _ _ C AL). split; [exact LK|]. now apply linked_total.
Qed.

(* C10 *)
Definition set_beta2 (s : srs E) (b : E) : srs E := mkSrs (tau1 s) (alpha1 s) (beta1 s) (tau2 s) b.
Lemma c10 bs (rho : nat -> nat -> nat -> E) trans f g p (s : srs E) l o hs : mexp_strict E -> 1 <= bs -> p <= 62 ->
  length l < N.to_nat 65535 -> is_file1 f p s l -> hashed32 l -> origin_is trans g o -> l <> [] ->
  fst (exec (verify bs rho trans) f g) = Ok hs ->
  forall xt xa xb t2 b2, exists c,
    c_tau1 c = xt * c_tau1 (last l o) /\ c_alpha1 c = xa * c_alpha1 (last l o) /\ c_beta1 c = xb * c_beta1 (last l o) /\
    c_tau2 c = t2 /\ c_beta2 c = b2 /\
    fst (exec (verify bs rho trans) (file1 p (set_beta2 s b2) (l ++ [c])) g) = Ok (hs ++ [c_hash c]).
Proof.
  intros MS B P Hl F H32 O NE H xt xa xb t2 b2. rewrite (verify_file bs rho trans f g p s l o) in H by (auto using origin_is_src; lia).
  cbn [fst] in H. unfold outcome in H. destruct (chain_err o l) eqn:C; [discriminate|].
  destruct (feqb (beta2 s) (c_beta2 (last l zero_contrib))); [|discriminate]. injection H as <-.
  set (prev := last l o).
  set (c := idle_rec (xt * c_tau1 prev) (xa * c_alpha1 prev) (xb * c_beta1 prev) t2 b2
    (xt * chal 0 0 (c_hash prev) 1) (xa * chal 0 0 (c_hash prev) 2) (xb * chal 0 0 (c_hash prev) 3)).
  assert (SZ : sized p s) by (destruct F as [? [? [? [_ [Q _]]]]]; exact Q).
  exists c. do 5 (split; [reflexivity|]).
  rewrite (verify_file bs rho trans _ g p (set_beta2 s b2) (l ++ [c]) o); auto using origin_is_src.
  - cbn [fst]. unfold outcome. rewrite chain_err_app, C. fold prev. cbn [chain_err]. unfold c at 1. rewrite idle_ok.
    rewrite last_last. cbn [set_beta2 beta2]. unfold c at 1. cbn [idle_rec c_beta2]. rewrite feqb_refl.
    now rewrite map_app.
  - rewrite app_length. cbn [length]. lia.
  - apply file1_is0; [exact SZ|]. apply hashed_snoc; auto. apply sha_len.
Qed.

(* C11 *)
Lemma c11 bs bs' (rho rho' : nat -> nat -> nat -> E) trans f f' g p p' (s s' : srs E) l l' o hs hs' : mexp_strict E ->
  1 <= bs -> 1 <= bs' -> p <= 62 -> p' <= 62 -> length l < N.to_nat 65536 -> length l' = length l ->
  is_file1 f p s l -> is_file1 f' p' s' l' -> origin_is trans g o ->
  fst (exec (verify bs rho trans) f g) = Ok hs -> fst (exec (verify bs' rho' trans) f' g) = Ok hs' ->
  (forall c, In c l -> kS (c_kt c) <> 0 /\ kSX (c_kt c) <> 0) ->
  last hs [] = last hs' [] -> l = l' \/ exists i, collision_at o l l' i.
Proof.
  intros MS B B' P P' L1 L2 F F' O H H' NZ EH.
  rewrite (verify_file bs rho trans f g p s l o) in H by (auto using origin_is_src).
  rewrite (verify_file bs' rho' trans f' g p' s' l' o) in H' by (auto using origin_is_src; lia).
  cbn [fst] in H, H'. unfold outcome in H, H'.
  destruct (chain_err o l) eqn:C; [discriminate|]. destruct (feqb (beta2 s) _) eqn:Q; [|discriminate]. injection H as <-.
  destruct (chain_err o l') eqn:C'; [discriminate|]. destruct (feqb (beta2 s') _) eqn:Q'; [|discriminate]. injection H' as <-.
  eapply hash_binds; eauto.
Qed.

(* C12 *)
Lemma c12 bs (rho : nat -> nat -> nat -> E) trans f g p (s : srs E) o : mexp_strict E -> 1 <= bs -> p <= 62 ->
  is_file1 f p s [] -> origin_is trans g o ->
  exec (verify bs rho trans) f g = (if feqb (beta2 s) 0 then Ok [] else Err EBetaG2, []).
Proof.
  intros MS B P F O. rewrite (verify_file bs rho trans f g p s [] o); auto using origin_is_src. cbn [length]; lia.
Qed.

(* C13 *)
Lemma c13 h p n t s : getr h s = opened (hdr1 p n ++ t) -> p < 256 -> n < N.to_nat 65536 ->
  ev (read_header h) s (Ok (b8 (N.of_nat p), N.of_nat n)) (setr h (at_ (hdr1 p n ++ t) 0 0 t) s) none.
Proof.
  intros G P Hn. rewrite <- (be16_val (N.of_nat n)) at 1 by lia. apply ev_read_header with (p := 0%nat). rewrite G. reflexivity.
Qed.
Lemma c13_run p n t g : p < 256 -> n < N.to_nat 65536 ->
  run (read_header false) (opened (hdr1 p n ++ t), opened g) =
    (Ok (b8 (N.of_nat p), N.of_nat n), (mkRd (hdr1 p n ++ t) t 0 0, opened g), []).
Proof.
  intros P Hn. destruct (c13 false p n t (opened (hdr1 p n ++ t), opened g) eq_refl P Hn) as [w [R W]]. rewrite R.
  pose proof (quiet_run _ (quiet_header false) (opened (hdr1 p n ++ t), opened g)) as Q. rewrite R in Q. cbn [snd] in Q. subst w.
  reflexivity.
Qed.
Lemma c13_short a b g : fst (exec (read_header false) [a; b] g) = Ok (a, (bN b * 256)%N).
Proof. unfold exec. cbn. f_equal. f_equal. lia. Qed.

(* C15 *)
Lemma c15 a b h (s : srs E) junk g : b <= a <= 54 -> sized a s -> length h = 64%nat ->
  exec (transform (E := E) (b8 (N.of_nat a)) (b8 (N.of_nat b))) (ppot h s junk) g = (Ok tt, file1 b (cut b s) []).
Proof.
  intros H SZ Lh. destruct (transform_ev a b h s junk (opened (ppot h s junk), opened g) H SZ Lh eq_refl) as [s' D].
  apply ev_exec in D. exact D.
Qed.

(* C16 *)
Lemma good_origin bs b (s : srs E) : 1 <= b -> sized b s -> firsts_ok bs s -> good bs b (origin_of s) s [].
Proof.
  intros P SZ FO. split; [exact SZ|]. split; [exact FO|]. split; [intros ? []|]. split; [reflexivity|]. now repeat split.
Qed.
Lemma c16 bs a b h (s : srs E) junk (ws : list (@rnd1 E)) : mexp_strict E -> 2 <= bs -> 1 <= b <= a -> a <= 54 -> sized a s -> length h = 64%nat ->
  firsts_ok bs (cut b s) -> ws <> [] -> length ws <= N.to_nat 65535 ->
  exists g f hs, exec (transform (E := E) (b8 (N.of_nat a)) (b8 (N.of_nat b))) (ppot h s junk) [] = (Ok tt, g) /\
    continue1 bs g ws = Ok (f, hs) /\ length hs = length ws /\
    forall bs' (rho : nat -> nat -> nat -> E), 1 <= bs' -> exec (verify bs' rho (Some true)) f g = (Ok hs, []).
Proof.
  intros MS B [P1 P2] P3 SZ Lh FO NE L. rewrite c15 by (auto; lia).
  pose proof (cut_sized a b s P2 SZ) as CZ. set (s0 := cut b s) in *. set (g := file1 b s0 []).
  pose proof (good_origin bs b s0 P1 CZ FO) as G.
  assert (F : is_file1 g b s0 []) by (apply file1_is0; auto; intros ? []).
  destruct (steps_honest bs b (origin_of s0) B ltac:(lia) eq_refl ws s0 [] [] g F G ltac:(cbn [length]; lia)
    ltac:(intros ->; reflexivity)) as [hs' [H Hh]].
  eexists g, _, _. split; [reflexivity|]. split; [exact H|].
  pose proof (honest_len ws s0 []) as HL. cbn [length Nat.add] in HL. cbn [app map] in Hh |- *.
  split. { rewrite <- Hh, map_length. exact HL. }
  intros bs' rho B'. pose proof (honest_good bs b (origin_of s0) eq_refl ws s0 [] G) as G'. pose proof G' as [SZ' [_ [H32 _]]].
  rewrite (verify_file bs' rho (Some true) _ g b (fst (honest s0 [] ws)) (snd (honest s0 [] ws)) (origin_of s0)); auto; try lia.
  - f_equal. rewrite <- Hh. eapply good_outcome; [|exact G'].
    intros X. rewrite X in HL. destruct ws; [congruence|discriminate].
  - apply file1_is0; auto.
  - unfold g, file1, hdr1. cbn [length recs_bytes flat_map]. apply origin_src_file; auto; lia.
Qed.

(* C17 *)
Lemma flat_inj (e : E -> bytes) k : (forall x, length (e x) = k) -> (forall x y, e x = e y -> x = y) ->
  forall l l', length l = length l' -> flat_map e l = flat_map e l' -> l = l'.
Proof.
  intros Hk HI. induction l as [|x l IH]; intros [|y l'] L H; try discriminate; auto.
  cbn [flat_map] in H. apply app_inv_len in H as [H1 H2]; [|now rewrite !Hk]. apply HI in H1 as ->. f_equal. apply IH; auto.
Qed.
Lemma g1c_inj (x y : E) : g1c x = g1c y -> x = y.
Proof. intros H. pose proof (g1c_dec E x) as A. rewrite H, g1c_dec in A. now injection A. Qed.
Lemma g2c_inj (x y : E) : g2c x = g2c y -> x = y.
Proof. intros H. pose proof (g2c_dec E x) as A. rewrite H, g2c_dec in A. now injection A. Qed.
Lemma srs_bytes_inj p (s s' : srs E) t t' : sized p s -> sized p s' -> srs_bytes s ++ t = srs_bytes s' ++ t' -> s = s' /\ t = t'.
Proof.
  intros [Z1 [Z2 [Z3 Z4]]] [Y1 [Y2 [Y3 Y4]]] H. unfold srs_bytes in H. repeat rewrite <- app_assoc in H.
  assert (L1 : forall l l' : list E, length l = length l' -> length (enc1 l) = length (enc1 l')) by (intros l l' X; rewrite !enc1_length; lia).
  assert (L2 : forall l l' : list E, length l = length l' -> length (enc2 l) = length (enc2 l')) by (intros l l' X; rewrite !enc2_length; lia).
  apply app_inv_len in H as [H1 H]; [|apply L1; lia]. apply app_inv_len in H as [H2 H]; [|apply L1; lia].
  apply app_inv_len in H as [H3 H]; [|apply L1; lia]. apply app_inv_len in H as [H4 H]; [|apply L2; lia].
  apply app_inv_len in H as [H5 H]; [|now rewrite !g2c_len].
  apply (flat_inj g1c 32 (g1c_len E) g1c_inj) in H1; [|lia]. apply (flat_inj g1c 32 (g1c_len E) g1c_inj) in H2; [|lia].
  apply (flat_inj g1c 32 (g1c_len E) g1c_inj) in H3; [|lia]. apply (flat_inj g2c 64 (g2c_len E) g2c_inj) in H4; [|lia].
  apply g2c_inj in H5. split; [|exact H]. destruct s, s'; cbn in *; now subst.
Qed.
Lemma file1_inj p (s s' : srs E) l l' : sized p s -> sized p s' -> file1 p s l = file1 p s' l' -> s = s'.
Proof.
  intros Z Y H. unfold file1 in H. apply app_inv_len in H as [_ H]; [|now rewrite !hdr1_length].
  eapply srs_bytes_inj in H; eauto. tauto.
Qed.
Lemma srs_of_inj p (T A B T' A' B' : E) : 1 <= p -> srs_of p T A B = srs_of p T' A' B' -> T = T' /\ A = A' /\ B = B'.
Proof.
  intros P H. assert (N2 : 2 <= 2 ^ p) by (pose proof (Nat.pow_le_mono_r 2 1 p); cbn in *; lia).
  split; [|split].
  - apply (f_equal (fun s => nth 1 (tau1 s) 0)) in H. cbn [srs_of tau1] in H. rewrite !nth_map_seq in H by lia. now rewrite !fpow_1 in H.
  - apply (f_equal (fun s => nth 0 (alpha1 s) 0)) in H. cbn [srs_of alpha1] in H. rewrite !nth_map_seq in H by lia. rewrite !fpow_0 in H.
    replace A with (A * 1) by ring. rewrite H. ring.
  - now apply (f_equal beta2) in H.
Qed.

(* the final secrets of a ceremony, read off the parameters in its file *)
Definition ends_with (bs p : nat) (ws : list (@rnd1 E)) (T A B : E) : Prop :=
  exists l hs, ceremony1 bs p ws = Ok (file1 p (srs_of p T A B) l, hs).
Lemma ends_with_iff bs p ws T A B : 2 <= bs -> 1 <= p <= 62 -> length ws <= N.to_nat 65535 ->
  (ends_with bs p ws T A B <-> T = prodl (map (fun w => r_tau w) ws) /\ A = prodl (map (fun w => r_alpha w) ws) /\ B = prodl (map (fun w => r_beta w) ws)).
Proof.
  intros Bb P L. destruct (c04 bs p ws Bb P L) as [l [H Hl]]. split.
  - intros [l' [hs H']]. rewrite H in H'.
    apply (f_equal (fun r => match r with Ok (x, _) => x | _ => [] end)) in H'. apply file1_inj in H'; auto using srs_of_sized.
    apply srs_of_inj in H'; [|lia]. destruct H' as [-> [-> ->]]. auto.
  - intros [-> [-> ->]]. exists l, (map c_hash l). exact H.
Qed.
Definition with_secrets (w : @rnd1 E) (t a b : E) : @rnd1 E := mkRnd1 t a b (r_st w) (r_sa w) (r_sb w).
Lemma c17 bs p (ws1 ws2 : list (@rnd1 E)) w : 2 <= bs -> 1 <= p <= 62 -> length ws1 + length ws2 < N.to_nat 65535 ->
  (forall v, In v (ws1 ++ ws2) -> r_tau v <> 0 /\ r_alpha v <> 0 /\ r_beta v <> 0) ->
  forall T A B, T <> 0 -> A <> 0 -> B <> 0 ->
  exists! x, let '(t, a, b) := x in t <> 0 /\ a <> 0 /\ b <> 0 /\ ends_with bs p (ws1 ++ [with_secrets w t a b] ++ ws2) T A B.
Proof.
  intros Bb P L NZ T A B HT HA HB.
  assert (Q : forall (f : @rnd1 E -> E) y, (forall v, In v (ws1 ++ ws2) -> f v <> 0) -> y <> 0 ->
    exists! x, x <> 0 /\ prodl (map f ws1 ++ [x] ++ map f ws2) = y).
  { intros f y Hf Hy. apply prodl_bij; auto. intros x Hx. rewrite <- map_app in Hx. apply in_map_iff in Hx as [v [<- Hv]]. auto. }
  destruct (Q (fun w => r_tau w) T) as [t [[Nt Et] Ut]]; [intros v Hv; apply NZ; auto|auto|].
  destruct (Q (fun w => r_alpha w) A) as [a [[Na Ea] Ua]]; [intros v Hv; apply NZ; auto|auto|].
  destruct (Q (fun w => r_beta w) B) as [b [[Nb Eb] Ub]]; [intros v Hv; apply NZ; auto|auto|].
  assert (LL : forall t a b, length (ws1 ++ [with_secrets w t a b] ++ ws2) <= N.to_nat 65535).
  { intros. rewrite !app_length. cbn [length]. lia. }
  exists (t, a, b). split.
  - do 3 (split; [assumption|]). apply ends_with_iff; auto. rewrite !map_app. cbn [map with_secrets r_tau r_alpha r_beta]. auto.
  - intros [[t' a'] b'] [Nt' [Na' [Nb' EW]]]. apply ends_with_iff in EW; auto. rewrite !map_app in EW. cbn [map with_secrets r_tau r_alpha r_beta] in EW.
    destruct EW as [E1 [E2 E3]]. rewrite (Ut t'), (Ua a'), (Ub b'); auto.
Qed.
End Claims.
Lemma c13_both p n t f g : p < 256 -> n < N.to_nat 65536 ->
  exec (write_header 0 (b8 (N.of_nat p)) (N.of_nat n)) f g = (Ok tt, hdr1 p n) /\
  run (read_header false) (opened (hdr1 p n ++ t), opened g) =
    (Ok (b8 (N.of_nat p), N.of_nat n), (mkRd (hdr1 p n ++ t) t 0 0, opened g), []).
Proof. intros P N. split; [reflexivity|now apply c13_run]. Qed.
