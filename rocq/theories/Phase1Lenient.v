(* Phase1Lenient.v -- p1v if MultiExp combined the common prefix of its arguments: the linear
   combinations over all batches, and what accepting means.  Stated in Prop1.v (C08) and Prop15.v. *)
From Coq Require Import Ring Field Permutation.
From Verif Require Import Base Fld Conc Parallel IO Ext Spec1 Spec12 Phase1 Phase1Io Phase1Verify Phase1Trans Phase1Facts Phase1Inv Phase1More Phase1Claims.
Local Open Scope fld_scope.
Local Open Scope io_scope.

Lemma pairs_in bs N i : In i (pairs bs N) <-> S i < N /\ S i mod bs <> 0%nat.
Proof.
  unfold pairs. rewrite filter_In, in_seq. destruct (Nat.eqb_spec (S i mod bs) 0) as [Q|Q]; cbn [negb]; split; intros [A B]; split; auto; try lia; try discriminate; congruence.
Qed.
Lemma pairs_nodup bs N : NoDup (pairs bs N).
Proof. apply NoDup_filter, seq_NoDup. Qed.
Lemma filter_all {X} (f : X -> bool) l : (forall x, In x l -> f x = true) -> filter f l = l.
Proof.
  induction l as [|x l IH]; intros H; [reflexivity|]. cbn [filter]. rewrite (H x (or_introl eq_refl)), IH; auto.
  intros y Hy. apply H. now right.
Qed.
Lemma pairs_one bs N : 1 <= bs -> N <= bs -> pairs bs N = seq 0 (N - 1).
Proof.
  intros B H. unfold pairs. apply filter_all. intros i Hi. apply in_seq in Hi.
  rewrite Nat.mod_small by lia. reflexivity.
Qed.
Lemma pairs_more bs m : 1 <= bs -> 1 <= m -> pairs bs (bs + m) = seq 0 (bs - 1) ++ map (fun i => bs + i)%nat (pairs bs m).
Proof.
  intros B M. unfold pairs. replace (bs + m - 1)%nat with ((bs - 1) + (1 + (m - 1)))%nat by lia.
  rewrite seq_app, filter_app. f_equal.
  - apply filter_all. intros i Hi. apply in_seq in Hi. rewrite Nat.mod_small by lia. reflexivity.
  - rewrite seq_app, filter_app. cbn [seq filter].
    replace (S (0 + (bs - 1))) with bs by lia. rewrite Nat.mod_same by lia. cbn [Nat.eqb negb app].
    replace (0 + (bs - 1) + 1)%nat with bs by lia.
    generalize (m - 1)%nat. intros k. replace (seq bs k) with (map (fun i => bs + i)%nat (seq 0 k)).
    2:{ apply list_ext. intros i. rewrite nth_error_map_seq, nth_error_seq. reflexivity. }
    induction (seq 0 k) as [|i l IH]; [reflexivity|]. cbn [map filter].
    replace (S (bs + i) mod bs)%nat with (S i mod bs)%nat.
    2:{ replace (S (bs + i)) with (S i + 1 * bs)%nat by lia. now rewrite Nat.mod_add by lia. }
    destruct (negb _); cbn [map]; now rewrite IH.
Qed.
Lemma scalar_more {K : Fld} (rho : nat -> nat -> K) bs m i : 1 <= bs -> scalar rho bs (bs + m) (bs + i) = scalar rho bs m i.
Proof.
  intros B. unfold scalar. replace (bs + i)%nat with (i + 1 * bs)%nat by lia. rewrite Nat.div_add, Nat.mod_add by lia.
  f_equal. lia.
Qed.
Lemma scalar_first {K : Fld} (rho : nat -> nat -> K) bs n i : i < bs -> scalar rho bs n i = rho n i.
Proof. intros B. unfold scalar. rewrite Nat.div_small, Nat.mod_small by lia. f_equal. lia. Qed.

Section Lenient.
Context {E : Ext}.
Add Field KfldL : (f_th E).

(* one batch is a dot product *)
Lemma dot_firstn (a r : list E) n : length a = n -> n <= length r -> dot a r = fsum (map (fun i => nth i a 0 * nth i r 0) (seq 0 n)).
Proof.
  revert r n. induction a as [|x a IH]; intros r n <- L; [reflexivity|].
  destruct r as [|y r]; [cbn in L; lia|]. rewrite dot_cons. cbn [length seq map fsum fold_right nth].
  rewrite (IH r (length a) eq_refl) by (cbn in L; lia). rewrite <- seq_shift, map_map. reflexivity.
Qed.
Lemma lower_step (rho : nat -> nat -> E) bs l1 l2 : length l1 = bs -> 1 <= bs -> l2 <> [] ->
  lower rho bs (l1 ++ l2) = fsum (map (fun i => nth i l1 0 * rho (length (l1 ++ l2)) i) (seq 0 (bs - 1))) + lower rho bs l2.
Proof.
  intros L1 B NE. assert (1 <= length l2) by (destruct l2; [congruence|cbn; lia]).
  unfold lower. rewrite app_length, L1, pairs_more, map_app, fsum_app, map_map by auto. f_equal; f_equal.
  - apply map_ext_in. intros i Hi. apply in_seq in Hi. rewrite app_nth1 by lia. now rewrite scalar_first by lia.
  - apply map_ext_in. intros i Hi. rewrite app_nth2 by lia. rewrite L1. replace (bs + i - bs)%nat with i by lia.
    now rewrite scalar_more by lia.
Qed.
Lemma upper_step (rho : nat -> nat -> E) bs l1 l2 : length l1 = bs -> 1 <= bs -> l2 <> [] ->
  upper rho bs (l1 ++ l2) = fsum (map (fun i => nth (S i) l1 0 * rho (length (l1 ++ l2)) i) (seq 0 (bs - 1))) + upper rho bs l2.
Proof.
  intros L1 B NE. assert (1 <= length l2) by (destruct l2; [congruence|cbn; lia]).
  unfold upper. rewrite app_length, L1, pairs_more, map_app, fsum_app, map_map by auto. f_equal; f_equal.
  - apply map_ext_in. intros i Hi. apply in_seq in Hi. rewrite app_nth1 by lia. now rewrite scalar_first by lia.
  - apply map_ext_in. intros i Hi. rewrite app_nth2 by lia. rewrite L1. replace (S (bs + i) - bs)%nat with (S i) by lia.
    now rewrite scalar_more by lia.
Qed.
Lemma lower_one (rho : nat -> nat -> E) bs l : 1 <= bs -> length l <= bs ->
  lower rho bs l = fsum (map (fun i => nth i l 0 * rho (length l) i) (seq 0 (length l - 1))).
Proof.
  intros B L. unfold lower. rewrite pairs_one by auto. f_equal. apply map_ext_in. intros i Hi. apply in_seq in Hi.
  now rewrite scalar_first by lia.
Qed.
Lemma upper_one (rho : nat -> nat -> E) bs l : 1 <= bs -> length l <= bs ->
  upper rho bs l = fsum (map (fun i => nth (S i) l 0 * rho (length l) i) (seq 0 (length l - 1))).
Proof.
  intros B L. unfold upper. rewrite pairs_one by auto. f_equal. apply map_ext_in. intros i Hi. apply in_seq in Hi.
  now rewrite scalar_first by lia.
Qed.

Lemma lincomb_lenient bs dec P h file cap (rho : nat -> nat -> E) : mexp_lenient E -> 1 <= bs ->
  (forall l b p t s, parses P b l -> getr h s = at_ file cap p (b ++ t) ->
     ev (dec (length l)) s (Ok l) (setr h (at_ file cap (p + length b) t) s) none) ->
  forall fuel (l : list E) b p t s r L1 L2 t1 t2, length l <= fuel -> Nat.min (length l) bs <= length r ->
  parses P b l -> getr h s = at_ file cap p (b ++ t) ->
  ev (lincomb_loop bs dec rho fuel (length l) r L1 L2 t1 t2) s (Ok (L1 + lower rho bs l, L2 + upper rho bs l))
     (setr h (at_ file cap (p + length b) t) s) none.
Proof.
  intros ML B1 D. induction fuel as [|fuel IH]; intros l b p t s r L1 L2 t1 t2 Lf Lr A G.
  - destruct l; [|cbn in Lf; lia]. inversion A; subst. cbn [lincomb_loop length app] in *.
    rewrite Nat.add_0_r, <- G, setr_getr. cbn [lower upper]. unfold lower, upper. cbn [length pairs seq filter Nat.sub map fsum fold_right].
    replace (L1 + 0) with L1 by ring. replace (L2 + 0) with L2 by ring. apply ev_ret.
  - destruct (length l) as [|m] eqn:El.
    { destruct l; [|discriminate]. inversion A; subst. cbn [lincomb_loop length app] in *.
      rewrite Nat.add_0_r, <- G, setr_getr. unfold lower, upper. cbn [length pairs seq filter Nat.sub map fsum fold_right].
      replace (L1 + 0) with L1 by ring. replace (L2 + 0) with L2 by ring. apply ev_ret. }
    cbn [lincomb_loop]. rewrite <- El in *.
    set (n := Nat.min (length l) bs) in *. assert (Hn : 1 <= n <= length l) by lia.
    assert (Hl : l = firstn n l ++ skipn n l) by now rewrite firstn_skipn.
    set (l1 := firstn n l) in *. set (l2 := skipn n l) in *.
    assert (Ln1 : length l1 = n) by (unfold l1; rewrite firstn_length; lia).
    assert (Ln2 : length l2 = (length l - n)%nat) by (unfold l2; apply skipn_length).
    assert (A0 := A). rewrite Hl in A0. apply parses_app_inv in A0. destruct A0 as [b1 [b2 [-> [A1 A2]]]].
    rewrite <- app_assoc in G.
    pose proof (D l1 b1 p (b2 ++ t) s A1 G) as D1. rewrite Ln1 in D1.
    eapply evb; [exact D1|]. clear D1. cbv beta.
    unfold randomize. rewrite par_cells_spec by apply ncpu_pos. cbn [orBoom].
    set (r' := mapi _ r). assert (Lr' : length r' = length r) by apply mapi_length.
    assert (Nr : forall i, i < n -> nth i r' 0 = rho (length l) i).
    { intros i Hi. rewrite nth_nth_error. unfold r'. rewrite nth_error_mapi.
      destruct (nth_error r i) eqn:Q; [|apply nth_error_None in Q; lia].
      destruct (Nat.ltb_spec i (length r)); [reflexivity|lia]. }
    rewrite !ML.
    rewrite (dot_firstn (firstn (n - 1) l1) r' (n - 1)) by (rewrite ?firstn_length; lia).
    rewrite (dot_firstn (skipn 1 l1) r' (n - 1)) by (rewrite ?skipn_length; lia).
    assert (Q1 : fsum (map (fun i => nth i (firstn (n - 1) l1) 0 * nth i r' 0) (seq 0 (n - 1))) =
                 fsum (map (fun i => nth i l1 0 * rho (length l) i) (seq 0 (n - 1)))).
    { f_equal. apply map_ext_in. intros i Hi. apply in_seq in Hi. rewrite Nr by lia. f_equal.
      rewrite <- (firstn_skipn (n - 1) l1) at 2. rewrite app_nth1; [reflexivity|]. rewrite firstn_length. lia. }
    assert (Q2 : fsum (map (fun i => nth i (skipn 1 l1) 0 * nth i r' 0) (seq 0 (n - 1))) =
                 fsum (map (fun i => nth (S i) l1 0 * rho (length l) i) (seq 0 (n - 1)))).
    { f_equal. apply map_ext_in. intros i Hi. apply in_seq in Hi. rewrite Nr by lia. f_equal.
      destruct l1; [cbn in Ln1; lia|reflexivity]. }
    rewrite Q1, Q2. rewrite app_length, Nat.add_assoc, <- Ln2. apply ev_set2.
    assert (X : forall V1 V2 W1 W2 : E, V1 = W1 -> V2 = W2 -> forall q s s',
      ev q s (Ok (V1, V2)) s' none -> ev q s (Ok (W1, W2)) s' none) by (intros ? ? ? ? -> ->; auto).
    eapply X; [| |apply IH; auto using getr_setr; lia].
    + destruct (Nat.le_gt_cases (length l) bs) as [C|C].
      * assert (l2 = []) as Z by (apply length_zero_iff_nil; lia). rewrite Z in *. rewrite app_nil_r in Hl. rewrite <- Hl.
        rewrite (lower_one rho bs l) by auto. unfold lower at 1. cbn [length pairs seq filter Nat.sub map fsum fold_right].
        replace n with (length l) by lia. ring.
      * transitivity (L1 + lower rho bs (l1 ++ l2)); [|now rewrite <- Hl]. rewrite (lower_step rho bs l1 l2); [|lia|lia|intros Z; rewrite Z in Ln2; cbn in Ln2; lia].
        rewrite <- Hl. replace n with bs by lia. ring.
    + destruct (Nat.le_gt_cases (length l) bs) as [C|C].
      * assert (l2 = []) as Z by (apply length_zero_iff_nil; lia). rewrite Z in *. rewrite app_nil_r in Hl. rewrite <- Hl.
        rewrite (upper_one rho bs l) by auto. unfold upper at 1. cbn [length pairs seq filter Nat.sub map fsum fold_right].
        replace n with (length l) by lia. ring.
      * transitivity (L2 + upper rho bs (l1 ++ l2)); [|now rewrite <- Hl]. rewrite (upper_step rho bs l1 l2); [|lia|lia|intros Z; rewrite Z in Ln2; cbn in Ln2; lia].
        rewrite <- Hl. replace n with bs by lia. ring.
Qed.

Lemma lincombG1_lenient bs h file cap (rho : nat -> nat -> E) (l : list E) b p t s N : mexp_lenient E -> 1 <= bs -> bigcap cap ->
  N = Z.of_nat (length l) -> are1 b l -> getr h s = at_ file cap p (b ++ t) ->
  ev (linearCombinationG1 bs h rho N) s (Ok (lower rho bs l, upper rho bs l)) (setr h (at_ file cap (p + length b) t) s) none.
Proof.
  intros MS B1 Hc -> A G. unfold linearCombinationG1, lincomb.
  destruct (Z.ltb_spec (Z.of_nat (length l)) 0); [lia|]. rewrite Nat2Z.id.
  replace (lower rho bs l) with (0 + lower rho bs l) by ring. replace (upper rho bs l) with (0 + upper rho bs l) by ring.
  eapply lincomb_lenient; eauto.
  - intros. eapply ev_decodes1; eauto.
  - rewrite repeat_length. lia.
Qed.
Lemma lincombG2_lenient bs h file cap (rho : nat -> nat -> E) (l : list E) b p t s N : mexp_lenient E -> 1 <= bs -> bigcap cap ->
  N = Z.of_nat (length l) -> are2 b l -> getr h s = at_ file cap p (b ++ t) ->
  ev (linearCombinationG2 bs h rho N) s (Ok (lower rho bs l, upper rho bs l)) (setr h (at_ file cap (p + length b) t) s) none.
Proof.
  intros MS B1 Hc -> A G. unfold linearCombinationG2, lincomb.
  destruct (Z.ltb_spec (Z.of_nat (length l)) 0); [lia|]. rewrite Nat2Z.id.
  replace (lower rho bs l) with (0 + lower rho bs l) by ring. replace (upper rho bs l) with (0 + upper rho bs l) by ring.
  eapply lincomb_lenient; eauto.
  - intros. eapply ev_decodes2; eauto.
  - rewrite repeat_length. lia.
Qed.

(* the four parameter checks *)
Definition fits (bs : nat) (rho : nat -> nat -> nat -> E) (t1 t2 : E) (s : srs E) : bool :=
  feqb (upper (rho 0%nat) bs (tau1 s)) (t2 * lower (rho 0%nat) bs (tau1 s)) &&
  feqb (upper (rho 1%nat) bs (alpha1 s)) (t2 * lower (rho 1%nat) bs (alpha1 s)) &&
  feqb (upper (rho 2%nat) bs (beta1 s)) (t2 * lower (rho 2%nat) bs (beta1 s)) &&
  feqb (lower (rho 3%nat) bs (tau2 s)) (t1 * upper (rho 3%nat) bs (tau2 s)).
Lemma ratio_lo (a b t : E) : same_ratio a b t 1 = feqb b (t * a).
Proof.
  apply Bool.eq_iff_eq_true. unfold same_ratio. rewrite !feqb_ok. split; intros H.
  - transitivity (b * 1); [ring|]. rewrite <- H. ring.
  - rewrite H. ring.
Qed.
Lemma ratio_hi (a b t : E) : same_ratio 1 t a b = feqb a (t * b).
Proof.
  apply Bool.eq_iff_eq_true. unfold same_ratio. rewrite !feqb_ok. split; intros H.
  - transitivity (1 * a); [ring|]. rewrite H. ring.
  - rewrite H. ring.
Qed.

Lemma verify_lenient_ev bs (rho : nat -> nat -> nat -> E) f g p (s : srs E) l : mexp_lenient E ->
  1 <= bs -> p <= 62 -> length l < N.to_nat 65536 -> is_file1 f p s l -> chain_err origin_gen l = None ->
  let c := last l zero_contrib in
  exec (verify bs rho None) f g =
    (if fits bs rho (c_tau1 c) (c_tau2 c) s then if feqb (beta2 s) (c_beta2 c) then Ok (map c_hash l) else Err EBetaG2
     else Err EPairing, []).
Proof.
  intros ML B1 P62 Ll [sb [rb [junk [Ef [SZ [IS AR]]]]]] CE c.
  destruct IS as [b1 [b2 [b3 [b4 [b5 [-> [I1 [I2 [I3 [I4 I5]]]]]]]]]].
  destruct SZ as [Z1 [Z2 [Z3 Z4]]].
  pose proof bigBuf_big as BB.
  set (n := N.of_nat (length l)). assert (Hn : (n < 65536)%N) by (unfold n; lia).
  set (s0 := (opened f, opened g)).
  assert (G : getr false s0 = at_ f 0 0 (b8 (N.of_nat p) :: be16 n ++ b1 ++ b2 ++ b3 ++ b4 ++ b5 ++ rb ++ junk)).
  { unfold s0, opened. cbn [getr fst]. rewrite Ef at 2. unfold hdr1. fold n. rewrite <- !app_assoc. reflexivity. }
  set (pos := (0 + length b1 + length b2 + length b3 + length b4 + length b5)%nat).
  assert (AL : al pos (rb ++ junk)).
  { left. unfold pos. repeat apply mod32_add; eauto using are1_mod, are2_mod, is2_mod. }
  destruct (ev_verify_chain (E := E) f bigBuf BB bigBuf_32 (N.to_nat n) zero_contrib origin_gen pos (rb ++ junk) (setr false (at_ f bigBuf pos (rb ++ junk)) s0) AL (getr_setr _ _ _)) as [s2 V].
  cbv zeta in V. assert (En : N.to_nat n = length l) by (unfold n; apply Nat2N.id). rewrite En in V. rewrite (take_chain_is l rb zero_contrib junk AR), CE in V.
  fold c in V.
  match goal with |- _ = (?R, _) => assert (EX : exists s', ev (verify bs rho None) s0 R s' none) end.
  { eexists. unfold verify. eapply evb; [eapply ev_read_header; exact G|]. cbv beta iota. rewrite be16_val by auto.
    cbv zeta. rewrite count_tau, pow2_small by auto.
    eapply ev_newrd0; [apply getr_setr|]. rewrite setr_setr.
    eapply evb; [eapply lincombG1_lenient; [exact ML|exact B1|exact BB|now rewrite Z1|exact I1|apply getr_setr]|]. cbv beta iota. rewrite setr_setr.
    eapply evb; [eapply lincombG1_lenient; [exact ML|exact B1|exact BB|now rewrite Z2|exact I2|apply getr_setr]|]. cbv beta iota. rewrite setr_setr.
    eapply evb; [eapply lincombG1_lenient; [exact ML|exact B1|exact BB|now rewrite Z3|exact I3|apply getr_setr]|]. cbv beta iota. rewrite setr_setr.
    eapply evb; [eapply lincombG2_lenient; [exact ML|exact B1|exact BB|now rewrite Z4|exact I4|apply getr_setr]|]. cbv beta iota. rewrite setr_setr.
    eapply evb; [eapply ev_decode2; [exact BB|exact I5|apply getr_setr]|]. cbv beta iota. rewrite setr_setr. fold pos.
    eapply evb; [apply ev_default_none|]. cbv beta.
    rewrite En. eapply evb; [exact V|]. cbv beta iota. rewrite !ratio_lo, ratio_hi. unfold fits.
    destruct (feqb (upper (rho 0%nat) bs (tau1 s)) _); cbn [andb require bind]; [|apply ev_throw].
    destruct (feqb (upper (rho 1%nat) bs (alpha1 s)) _); cbn [andb require bind]; [|apply ev_throw].
    destruct (feqb (upper (rho 2%nat) bs (beta1 s)) _); cbn [andb require bind]; [|apply ev_throw].
    destruct (feqb (lower (rho 3%nat) bs (tau2 s)) _); cbn [andb require bind]; [|apply ev_throw].
    destruct (feqb (beta2 s) _); cbn [require bind]; [apply ev_ret|apply ev_throw]. }
  destruct EX as [s' D]. apply ev_exec in D. unfold s0 in D. exact D.
Qed.

(* files with the records of a ceremony and any parameters *)
Lemma ceremony_lenient bs bs' p (ws : list (@rnd1 E)) : mexp_lenient E -> 2 <= bs -> 1 <= bs' -> 1 <= p <= 62 ->
  ws <> [] -> length ws <= N.to_nat 65535 ->
  let T := prodl (map (fun w => r_tau w) ws) in
  let A := prodl (map (fun w => r_alpha w) ws) in
  let B := prodl (map (fun w => r_beta w) ws) in
  exists l, ceremony1 bs p ws = Ok (file1 p (srs_of p T A B) l, map c_hash l) /\
    forall (s : srs E) (rho : nat -> nat -> nat -> E) g, sized p s ->
    exec (verify bs' rho None) (file1 p s l) g =
      (if fits bs' rho T T s then if feqb (beta2 s) B then Ok (map c_hash l) else Err EBetaG2 else Err EPairing, []).
Proof.
  intros ML B2 B1 P NE L T A B. destruct (ceremony_result bs p ws B2 P L) as [l [H [Hl G]]]. exists l. split; [exact H|].
  intros s rho g SZ. pose proof G as [_ [_ [H32 [CE AP]]]].
  assert (NEl : l <> []) by (intros ->; destruct ws; [congruence|discriminate]).
  assert (N2 : 2 <= 2 ^ p) by (pose proof (Nat.pow_le_mono_r 2 1 p); cbn in *; lia).
  rewrite (verify_lenient_ev bs' rho _ g p s l); auto; try lia; [|now apply file1_is0].
  rewrite (last_nonempty l zero_contrib origin_gen NEl).
  destruct AP as [A1 [A2 [A3 [A4 A5]]]]. rewrite A1, A4, A5. cbn [srs_of tau1 tau2 beta2].
  rewrite !nth_map_seq by lia. rewrite !fpow_1. reflexivity.
Qed.

(* honest parameters *)
Lemma upper_pows (rho : nat -> nat -> E) bs n (m T : E) :
  upper rho bs (map (fun i => m * T ^ i) (seq 0 n)) = T * lower rho bs (map (fun i => m * T ^ i) (seq 0 n)).
Proof.
  unfold upper, lower. rewrite <- fsum_map_scal, map_length, seq_length. f_equal. apply map_ext_in. intros i Hi. apply pairs_in in Hi as [Hi _].
  rewrite !nth_map_seq by lia. cbn [Nat.add]. rewrite fpow_S. ring.
Qed.
Lemma pows1 (T : E) n : map (fun i => T ^ i) (seq 0 n) = map (fun i => 1 * T ^ i) (seq 0 n).
Proof. apply map_ext. intros. ring. Qed.

(* C08 *)
Lemma c08_all bs bs' p (ws : list (@rnd1 E)) (rho : nat -> nat -> nat -> E) g : mexp_lenient E -> 2 <= bs -> 1 <= p <= 62 -> 1 <= bs' ->
  ws <> [] -> length ws <= N.to_nat 65535 ->
  let T := prodl (map (fun w => r_tau w) ws) in
  let comb := fsum (map (fun i => T ^ i * scalar (rho 3%nat) bs' (2 ^ p) i) (pairs bs' (2 ^ p))) in
  exists f hs, ceremony1 bs p ws = Ok (f, hs) /\
    (fst (exec (verify bs' rho None) f g) = Ok hs \/ fst (exec (verify bs' rho None) f g) = Err EPairing) /\
    (fst (exec (verify bs' rho None) f g) = Ok hs <-> T * T = 1 \/ comb = 0).
Proof.
  intros ML B P HB NE L T comb. destruct (ceremony_lenient bs bs' p ws ML B HB P NE L) as [l [H V]]. fold T in H, V.
  eexists _, _. split; [exact H|]. rewrite (V _ rho g (srs_of_sized _ _ _ _)). cbn [fst].
  assert (LC : lower (rho 3%nat) bs' (tau2 (srs_of p T (prodl (map (fun w => r_alpha w) ws)) (prodl (map (fun w => r_beta w) ws)))) = comb).
  { cbn [srs_of tau2]. unfold lower, comb. rewrite map_length, seq_length. f_equal. apply map_ext_in. intros i Hi.
    apply pairs_in in Hi as [Hi _]. now rewrite nth_map_seq by lia. }
  assert (UC : upper (rho 3%nat) bs' (tau2 (srs_of p T (prodl (map (fun w => r_alpha w) ws)) (prodl (map (fun w => r_beta w) ws)))) = T * comb).
  { rewrite <- LC. cbn [srs_of tau2]. rewrite (pows1 T (2 ^ p)). apply upper_pows. }
  unfold fits. rewrite LC, UC. cbn [srs_of tau1 alpha1 beta1 beta2].
  rewrite (pows1 T (2 * 2 ^ p - 1)), !upper_pows, !feqb_refl. cbn [andb].
  destruct (feqb comb (T * (T * comb))) eqn:Q.
  - apply feqb_ok in Q. split; [now left|]. split; [intros _|reflexivity].
    destruct (feq_dec E comb 0) as [Z|Z]; [now right|left].
    apply (fmul_cancel_r _ comb); auto. rewrite Q at 2. ring.
  - split; [now right|]. split; [discriminate|]. intros X. exfalso.
    assert (comb = T * (T * comb)) as Y. { destruct X as [X| ->]; [|ring]. transitivity (T * T * comb); [rewrite X|]; ring. }
    apply feqb_ok in Y. congruence.
Qed.

(* ---- what accepting means (C77) ---- *)
Definition accepts bs (rho : nat -> nat -> nat -> E) (f : bytes) (hs : list bytes) : Prop :=
  forall g, exec (verify bs rho None) f g = (Ok hs, []).
Lemma fits_ok bs (rho : nat -> nat -> nat -> E) t1 t2 (s : srs E) : fits bs rho t1 t2 s = true <->
  upper (rho 0%nat) bs (tau1 s) = t2 * lower (rho 0%nat) bs (tau1 s) /\
  upper (rho 1%nat) bs (alpha1 s) = t2 * lower (rho 1%nat) bs (alpha1 s) /\
  upper (rho 2%nat) bs (beta1 s) = t2 * lower (rho 2%nat) bs (beta1 s) /\
  lower (rho 3%nat) bs (tau2 s) = t1 * upper (rho 3%nat) bs (tau2 s).
Proof. unfold fits. rewrite !Bool.andb_true_iff, !feqb_ok. tauto. Qed.

Lemma fsum_single {X} (f : X -> E) l k : NoDup l -> In k l -> (forall i, In i l -> i <> k -> f i = 0) -> fsum (map f l) = f k.
Proof.
  induction l as [|x l IH]; intros N I Z; [destruct I|]. inversion N; subst. cbn [map fsum fold_right].
  destruct I as [->|I].
  - change (fold_right fadd 0 (map f l)) with (fsum (map f l)).
    rewrite fsum_map_0; [ring|]. intros a Ha. apply Z; [now right|]. intros ->. contradiction.
  - change (fold_right fadd 0 (map f l)) with (fsum (map f l)).
    rewrite IH; auto; [|intros; apply Z; auto; now right]. rewrite (Z x); [ring|now left|]. intros ->. contradiction.
Qed.
Lemma same_slot bs N i i' : 1 <= bs -> i < N -> i' < N -> (N - i / bs * bs = N - i' / bs * bs)%nat -> (i mod bs = i' mod bs)%nat -> i = i'.
Proof.
  intros B A A' H M. pose proof (Nat.div_mod i bs ltac:(lia)). pose proof (Nat.div_mod i' bs ltac:(lia)). nia.
Qed.
Lemma diff_form (rho : nat -> nat -> E) bs (T : E) l :
  upper rho bs l - T * lower rho bs l = fsum (map (fun i => (nth (S i) l 0 - T * nth i l 0) * scalar rho bs (length l) i) (pairs bs (length l))).
Proof.
  unfold upper, lower. rewrite <- fsum_map_scal, <- fsum_map_sub. f_equal. apply map_ext. intros. ring.
Qed.
Lemma diff_form' (rho : nat -> nat -> E) bs (T : E) l :
  lower rho bs l - T * upper rho bs l = fsum (map (fun i => (nth i l 0 - T * nth (S i) l 0) * scalar rho bs (length l) i) (pairs bs (length l))).
Proof.
  unfold upper, lower. rewrite <- fsum_map_scal, <- fsum_map_sub. f_equal. apply map_ext. intros. ring.
Qed.
Lemma sub0 (a b : E) : a = b <-> a - b = 0.
Proof. split; intros H; [rewrite H; ring|]. transitivity (a - b + b); [ring|]. rewrite H. ring. Qed.

Lemma form_zero bs N (D : nat -> E) : (forall i, In i (pairs bs N) -> D i = 0) ->
  forall rho, fsum (map (fun i => D i * scalar rho bs N i) (pairs bs N)) = 0.
Proof. intros H rho. apply fsum_map_0. intros i Hi. rewrite (H i Hi). ring. Qed.
Lemma form_one bs N (D : nat -> E) i rho rho' : 1 <= bs -> In i (pairs bs N) ->
  (forall r j, r <> (N - i / bs * bs)%nat \/ j <> (i mod bs)%nat -> rho r j = rho' r j) ->
  fsum (map (fun i => D i * scalar rho bs N i) (pairs bs N)) - fsum (map (fun i => D i * scalar rho' bs N i) (pairs bs N)) =
  D i * (scalar rho bs N i - scalar rho' bs N i).
Proof.
  intros B I S. rewrite <- fsum_map_sub, (fsum_single _ _ i (pairs_nodup _ _) I); [ring|].
  intros i' I' NE. apply pairs_in in I as [I _], I' as [I' _]. unfold scalar. rewrite S; [ring|].
  destruct (Nat.eq_dec (N - i' / bs * bs) (N - i / bs * bs)) as [Q1|Q1]; [|now left].
  destruct (Nat.eq_dec (i' mod bs) (i mod bs)) as [Q2|Q2]; [|now right].
  exfalso. apply NE. apply (same_slot bs N); auto; lia.
Qed.
(* the randomness that picks one entry *)
Definition pick (bs N i : nat) : nat -> nat -> E := fun r j => if (r =? N - i / bs * bs)%nat && (j =? i mod bs)%nat then 1 else 0.
Lemma form_pick bs N (D : nat -> E) i : 1 <= bs -> In i (pairs bs N) ->
  fsum (map (fun j => D j * scalar (pick bs N i) bs N j) (pairs bs N)) = D i.
Proof.
  intros B I. assert (Z : fsum (map (fun j => D j * scalar (fun _ _ => 0 : E) bs N j) (pairs bs N)) = 0).
  { apply fsum_map_0. intros. unfold scalar. ring. }
  pose proof (form_one bs N D i (pick bs N i) (fun _ _ => 0) B I) as F. rewrite Z in F.
  transitivity (D i * (scalar (pick bs N i) bs N i - scalar (fun _ _ => 0) bs N i)).
  - rewrite <- F; [ring|]. intros r j H. unfold pick. destruct (Nat.eqb_spec r (N - i / bs * bs)) as [Q|Q]; [|reflexivity].
    destruct (Nat.eqb_spec j (i mod bs)) as [Q'|Q']; [|reflexivity]. destruct H; contradiction.
  - unfold scalar, pick. rewrite !Nat.eqb_refl. cbn [andb]. ring.
Qed.

Section Cer.
Variables (bs bs' p : nat) (ws : list (@rnd1 E)).
Hypotheses (ML : mexp_lenient E) (B2 : 2 <= bs) (B1 : 1 <= bs') (P : 1 <= p <= 62) (NE : ws <> []) (L : length ws <= N.to_nat 65535).
Let T := prodl (map (fun w => r_tau w) ws).
Let B := prodl (map (fun w => r_beta w) ws).
Lemma c77_checks :
  exists s0 l, ceremony1 bs p ws = Ok (file1 p s0 l, map c_hash l) /\
    forall (s : srs E) rho, sized p s ->
    (accepts bs' rho (file1 p s l) (map c_hash l) <->
     beta2 s = B /\
     upper (rho 0%nat) bs' (tau1 s) = T * lower (rho 0%nat) bs' (tau1 s) /\
     upper (rho 1%nat) bs' (alpha1 s) = T * lower (rho 1%nat) bs' (alpha1 s) /\
     upper (rho 2%nat) bs' (beta1 s) = T * lower (rho 2%nat) bs' (beta1 s) /\
     lower (rho 3%nat) bs' (tau2 s) = T * upper (rho 3%nat) bs' (tau2 s)).
Proof.
  destruct (ceremony_lenient bs bs' p ws ML B2 B1 P NE L) as [l [H V]]. fold T B in H, V. eexists _, l. split; [exact H|].
  intros s rho SZ. rewrite <- fits_ok. unfold accepts. split.
  - intros X. specialize (X []). rewrite (V s rho [] SZ) in X. destruct (fits bs' rho T T s); [|discriminate].
    destruct (feqb (beta2 s) B) eqn:Q; [|discriminate]. apply feqb_ok in Q. auto.
  - intros [X Y] g. rewrite (V s rho g SZ), Y, X, feqb_refl. reflexivity.
Qed.
Lemma c77_every :
  exists s0 l, ceremony1 bs p ws = Ok (file1 p s0 l, map c_hash l) /\
    forall s : srs E, sized p s ->
    ((forall rho, accepts bs' rho (file1 p s l) (map c_hash l)) <->
     beta2 s = B /\ rising bs' T (tau1 s) /\ rising bs' T (alpha1 s) /\ rising bs' T (beta1 s) /\ falling bs' T (tau2 s)).
Proof.
  destruct c77_checks as [s0 [l [H V]]]. exists s0, l. split; [exact H|]. intros s SZ. split.
  - intros X.
    assert (R : forall l0 : list E, (forall rho, upper rho bs' l0 = T * lower rho bs' l0) -> rising bs' T l0).
    { intros l0 Q i H1 H2. apply (proj2 (sub0 _ _)). assert (I : In i (pairs bs' (length l0))) by (apply pairs_in; split; assumption).
      rewrite <- (form_pick bs' (length l0) (fun i => nth (S i) l0 0 - T * nth i l0 0) i B1 I).
      rewrite <- diff_form. apply (proj1 (sub0 _ _)), Q. }
    assert (F : forall l0 : list E, (forall rho, lower rho bs' l0 = T * upper rho bs' l0) -> falling bs' T l0).
    { intros l0 Q i H1 H2. apply (proj2 (sub0 _ _)). assert (I : In i (pairs bs' (length l0))) by (apply pairs_in; split; assumption).
      rewrite <- (form_pick bs' (length l0) (fun i => nth i l0 0 - T * nth (S i) l0 0) i B1 I).
      rewrite <- diff_form'. apply (proj1 (sub0 _ _)), Q. }
    split; [exact (proj1 (proj1 (V s (fun _ _ _ => 0) SZ) (X _)))|].
    split; [apply R; intros rho; apply (proj1 (V s (fun _ => rho) SZ) (X _))|].
    split; [apply R; intros rho; apply (proj1 (V s (fun _ => rho) SZ) (X _))|].
    split; [apply R; intros rho; apply (proj1 (V s (fun _ => rho) SZ) (X _))|].
    apply F; intros rho; apply (proj1 (V s (fun _ => rho) SZ) (X _)).
  - intros [X0 [X1 [X2 [X3 X4]]]] rho. apply (V s rho SZ).
    assert (R : forall (l0 : list E) rho, rising bs' T l0 -> upper rho bs' l0 = T * lower rho bs' l0).
    { intros l0 rho' Q. apply (proj2 (sub0 _ _)). rewrite diff_form. apply form_zero. intros i I. apply pairs_in in I as [I1 I2]. apply (proj1 (sub0 _ _)), Q; assumption. }
    assert (F : forall (l0 : list E) rho, falling bs' T l0 -> lower rho bs' l0 = T * upper rho bs' l0).
    { intros l0 rho' Q. apply (proj2 (sub0 _ _)). rewrite diff_form'. apply form_zero. intros i I. apply pairs_in in I as [I1 I2]. apply (proj1 (sub0 _ _)), Q; assumption. }
    auto 10.
Qed.
Lemma c77_one_scalar :
  exists s0 l, ceremony1 bs p ws = Ok (file1 p s0 l, map c_hash l) /\
    forall (s : srs E) k i rho rho', sized p s -> k <= 3 -> off bs' k T s i -> same_but bs' k s i rho rho' ->
    accepts bs' rho (file1 p s l) (map c_hash l) -> accepts bs' rho' (file1 p s l) (map c_hash l) -> forall k' r j, rho k' r j = rho' k' r j.
Proof.
  destruct c77_checks as [s0 [l [H V]]]. exists s0, l. split; [exact H|]. intros s k i rho rho' SZ K [O1 [O2 O3]] S A A'.
  apply (V s rho SZ) in A as [_ [Q0 [Q1 [Q2 Q3]]]]. apply (V s rho' SZ) in A' as [_ [Q0' [Q1' [Q2' Q3']]]].
  assert (I : In i (pairs bs' (length (sect k s)))) by (apply pairs_in; split; assumption).
  assert (SK : forall r j, r <> (length (sect k s) - i / bs' * bs')%nat \/ j <> (i mod bs')%nat -> rho k r j = rho' k r j).
  { intros r j X. apply S. now right. }
  assert (FIN : scalar (rho k) bs' (length (sect k s)) i = scalar (rho' k) bs' (length (sect k s)) i -> forall k r j, rho k r j = rho' k r j).
  { intros Q k' r j. destruct (Nat.eq_dec k' k) as [->|]; [|apply S; now left].
    destruct (Nat.eq_dec r (length (sect k s) - i / bs' * bs')) as [->|]; [|apply S; auto].
    destruct (Nat.eq_dec j (i mod bs')) as [->|]; [|apply S; auto]. exact Q. }
  apply FIN. clear FIN S.
  assert (C : forall D : nat -> E, D i <> 0 ->
    fsum (map (fun i => D i * scalar (rho k) bs' (length (sect k s)) i) (pairs bs' (length (sect k s)))) = 0 ->
    fsum (map (fun i => D i * scalar (rho' k) bs' (length (sect k s)) i) (pairs bs' (length (sect k s)))) = 0 ->
    scalar (rho k) bs' (length (sect k s)) i = scalar (rho' k) bs' (length (sect k s)) i).
  { intros D NZ Z Z'. pose proof (form_one bs' _ D i (rho k) (rho' k) B1 I SK) as F. rewrite Z, Z' in F.
    apply (proj2 (sub0 _ _)). destruct (feq_dec E (scalar (rho k) bs' (length (sect k s)) i - scalar (rho' k) bs' (length (sect k s)) i) 0) as [Y|Y]; [exact Y|].
    exfalso. apply (fmul_neq0 E _ _ NZ Y). rewrite <- F. ring. }
  destruct k as [|[|[|[|k]]]]; [| | | |lia]; cbn [sect] in *.
  - apply (C (fun i => nth (S i) (tau1 s) 0 - T * nth i (tau1 s) 0)); [rewrite <- sub0; exact O3|rewrite <- diff_form; apply (proj1 (sub0 _ _)); assumption..].
  - apply (C (fun i => nth (S i) (alpha1 s) 0 - T * nth i (alpha1 s) 0)); [rewrite <- sub0; exact O3|rewrite <- diff_form; apply (proj1 (sub0 _ _)); assumption..].
  - apply (C (fun i => nth (S i) (beta1 s) 0 - T * nth i (beta1 s) 0)); [rewrite <- sub0; exact O3|rewrite <- diff_form; apply (proj1 (sub0 _ _)); assumption..].
  - apply (C (fun i => nth i (tau2 s) 0 - T * nth (S i) (tau2 s) 0)); [rewrite <- sub0; exact O3|rewrite <- diff_form'; apply (proj1 (sub0 _ _)); assumption..].
Qed.
Lemma same_batch i : S i mod bs' <> 0%nat -> (S i / bs' = i / bs')%nat.
Proof.
  intros H. pose proof (Nat.div_mod i bs' ltac:(lia)) as D. pose proof (Nat.mod_upper_bound i bs' ltac:(lia)) as U.
  destruct (Nat.eq_dec (S (i mod bs')) bs') as [Q|Q].
  - exfalso. apply H. replace (S i) with (0 + (S (i / bs')) * bs')%nat by nia. rewrite Nat.mod_add by lia. apply Nat.mod_small. lia.
  - symmetry. apply (Nat.div_unique (S i) bs' (i / bs') (S (i mod bs'))); lia.
Qed.
Lemma c77_not_powers : T <> 0 ->
  exists s0 l, ceremony1 bs p ws = Ok (file1 p s0 l, map c_hash l) /\
    forall k0 k1 k2 k3 : nat -> E, let N := (2 ^ p)%nat in
    let s := mkSrs (piecewise bs' (2 * N - 1) k0 T) (piecewise bs' N k1 T) (piecewise bs' N k2 T) (piecewise bs' N k3 (1 / T)) B in
    forall rho, accepts bs' rho (file1 p s l) (map c_hash l).
Proof.
  intros NZ. destruct c77_every as [s0 [l [H V]]]. exists s0, l. split; [exact H|]. intros k0 k1 k2 k3 N s.
  assert (R : forall n k, rising bs' T (piecewise bs' n k T)).
  { intros n k i H1 H2. unfold piecewise in *. rewrite map_length, seq_length in H1. rewrite !nth_map_seq by lia. cbn [Nat.add].
    rewrite same_batch by auto. rewrite fpow_S. ring. }
  apply V.
  - unfold sized, s. cbn [tau1 alpha1 beta1 tau2]. unfold piecewise. rewrite !map_length, !seq_length. auto.
  - unfold s. cbn [tau1 alpha1 beta1 tau2 beta2]. split; [reflexivity|]. repeat split; auto.
    intros i H1 H2. unfold piecewise in *. rewrite map_length, seq_length in H1. rewrite !nth_map_seq by lia. cbn [Nat.add].
    rewrite same_batch by auto. rewrite fpow_S. field. exact NZ.
Qed.
End Cer.
End Lenient.
