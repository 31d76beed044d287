(* Safe.v -- which inputs make a command panic.  [safe Q p]: whatever is read and whichever writes
   fail, p does not panic, and what it returns satisfies Q. *)
From Coq Require String.
From Coq Require Import ZifyBool ZifyNat ZifyN.
From Verif Require Import Base Fld Conc Parallel IO Ext Spec1 Phase1 Phase1Io Phase1Verify Phase1Claims Phase1More Phase1Inv
  Gob Circuit Spec2 Phase2 Fs Init2 Keys Live LiveCmd LiveLemmas.
Local Open Scope fld_scope.
Local Open Scope io_scope.

Fixpoint safe {X} (Q : X -> Prop) (p : io X) : Prop :=
  match p with
  | Ret a => Q a
  | Throw _ => True
  | Boom => False
  | Rd _ _ c => forall x, safe Q (c x)
  | Seek _ _ c => forall b, safe Q (c b)
  | Fwd _ _ c | NewRd _ _ c | NewWr _ _ c => safe Q c
  | Flush _ c => forall b, safe Q (c b)
  | Wr _ _ c => forall b, safe Q (c b)
  end.
Definition any {X} (x : X) : Prop := True.

Ltac io_ind p := induction p as [a|e| |h k c IH|h z c IH|h n c IH|h n c IH|o n c IH|o c IH|o d c IH].

Lemma safe_bind {X Y} (P : X -> Prop) (Q : Y -> Prop) (p : io X) (f : X -> io Y) :
  safe P p -> (forall a, P a -> safe Q (f a)) -> safe Q (bind p f).
Proof. intros H F. io_ind p; cbn [safe bind] in *; auto. Qed.
Lemma safe_imp {X} (P Q : X -> Prop) (p : io X) : safe P p -> (forall a, P a -> Q a) -> safe Q p.
Proof. intros H F. io_ind p; cbn [safe] in *; auto. Qed.
Lemma safe_then {X Y} (Q : Y -> Prop) (p : io X) (q : io Y) : safe any p -> safe Q q -> safe Q (p ;;; q).
Proof. intros H F. eapply safe_bind; [exact H|auto]. Qed.
Lemma safe_get {X Y} (Q : Y -> Prop) (p : io X) (f : X -> io Y) : safe any p -> (forall a, safe Q (f a)) -> safe Q (bind p f).
Proof. intros H F. eapply safe_bind; [exact H|auto]. Qed.
Lemma safe_try {X} (p : io X) : safe any p -> safe any (try p).
Proof. intros H. io_ind p; cbn [safe try] in *; unfold any; auto. Qed.
Lemma safe_flush {X} (Q : X -> Prop) oo (p : io X) : safe Q p -> safe Q (with_flush oo p).
Proof. intros H. io_ind p; cbn [safe with_flush] in *; auto. Qed.
Lemma safe_orBoom {X Y} (Q : Y -> Prop) (o : option X) (k : X -> io Y) x : o = Some x -> safe Q (k x) -> safe Q (orBoom o k).
Proof. intros -> H. exact H. Qed.

Lemma safe_run {X} (Q : X -> Prop) (p : io X) : safe Q p -> forall s,
  match fst (fst (run p s)) with Ok a => Q a | Err _ => True | Panic => False end.
Proof.
  io_ind p; cbn [safe run]; intros H s; auto.
  - destruct (rd_read k (getr h s)) as [x r]. now apply IH.
  - destruct (z <? 0)%Z; now apply IH.
  - now apply IH.
  - now apply IH.
  - now apply IH.
  - now apply IH.
  - specialize (IH true (H true) s). destruct (run (c true) s) as [[r s'] w]. exact IH.
Qed.
Lemma safe_lrun {X} (Q : X -> Prop) dev (p : io X) : safe Q p -> forall hs w,
  match fst (fst (lrun dev p hs w)) with Ok a => Q a | Err _ => True | Panic => False end.
Proof.
  io_ind p; cbn [safe lrun]; intros H hs w; auto.
  - destruct (l_read k (w_fs w) (geti h hs)) as [x i]. now apply IH.
  - destruct (z <? 0)%Z; now apply IH.
  - now apply IH.
  - now apply IH.
  - now apply IH.
  - destruct (h_flush dev (h_out hs o) w) as [[ok x] w']. now apply IH.
  - destruct (h_write dev d (h_out hs o) w) as [[ok x] w']. now apply IH.
Qed.
Lemma safe_ev {X} (Q : X -> Prop) (p : io X) s s' d : safe Q p -> ~ ev p s Panic s' d.
Proof. intros H [w [R _]]. pose proof (safe_run Q p H s) as Z. rewrite R in Z. exact Z. Qed.
Lemma bind_panic_inv {X Y} (p : io X) (f : X -> io Y) s s' d : ev (bind p f) s Panic s' d ->
  ev p s Panic s' d \/ exists a s1 d1 d2, ev p s (Ok a) s1 d1 /\ ev (f a) s1 Panic s' d2.
Proof.
  intros [w [R H]]. rewrite run_bind in R. destruct (run p s) as [[r s1] w1] eqn:R1. destruct r as [a|e|]; [|discriminate|].
  - destruct (run (f a) s1) as [[r2 s2] w2] eqn:R2. injection R as -> -> <-. right. exists a, s1, (fun o => out o w1), (fun o => out o w2).
    split; [exists w1; auto|exists w2; auto].
  - injection R as -> <-. left. exists w1. auto.
Qed.
(* the first program is safe: the panic comes later *)
Lemma bind_panic {X Y} (Q : X -> Prop) (p : io X) (f : X -> io Y) s s' d : safe Q p -> ev (bind p f) s Panic s' d ->
  exists a s1 d1 d2, ev p s (Ok a) s1 d1 /\ ev (f a) s1 Panic s' d2.
Proof. intros H K. destruct (bind_panic_inv p f s s' d K) as [K'|K']; [destruct (safe_ev Q p s s' d H K')|auto]. Qed.
Lemma flush_inv {X} o (p : io X) s r s' d : ev (with_flush o p) s r s' d -> ev p s r s' d.
Proof. intros [w [R H]]. rewrite run_with_flush in R. exists w. auto. Qed.
Lemma newwr_inv {X} o n (p : io X) s r s' d : ev (NewWr o n p) s r s' d -> ev p s r s' d.
Proof. intros [w [R H]]. exists w. auto. Qed.
Lemma newrd_inv {X} h n (p : io X) s r s' d : ev (NewRd h n p) s r s' d -> ev p (setr h (rd_buf n (getr h s)) s) r s' d.
Proof. intros [w [R H]]. exists w. auto. Qed.

(* ---- the building blocks ---- *)
Lemma safe_write o d : safe any (write o d).
Proof. intros [|]; cbn; unfold any; auto. Qed.
Lemma safe_write_ o d : safe any (write_ o d).
Proof. intros b; cbn; unfold any; auto. Qed.
Lemma safe_seek h z : safe any (seek h z).
Proof. intros [|]; cbn; unfold any; auto. Qed.
Lemma safe_require b e : safe any (require b e).
Proof. destruct b; cbn; unfold any; auto. Qed.
Lemma safe_rf h : forall fuel k acc, safe any (rf_loop fuel k h acc).
Proof.
  induction fuel as [|fuel IH]; intros k acc; cbn [rf_loop safe]; [exact I|]. intros [b|]; [|exact I].
  destruct (length b =? k); [exact I|apply IH].
Qed.
Lemma safe_readfull h k : safe any (readfull h k).
Proof. unfold readfull. destruct (k =? 0); [exact I|apply safe_rf]. Qed.

Section Blocks.
Context {E : Ext}.
Lemma safe_decode1 h : safe any (decode1 (E := E) h).
Proof.
  apply safe_get; [apply safe_readfull|]. intros b. destruct (compressed b).
  - destruct (g1dc b); exact I.
  - apply safe_get; [apply safe_readfull|]. intros b2. destruct (g1dr (b ++ b2)); exact I.
Qed.
Lemma safe_decode2 h : safe any (decode2 (E := E) h).
Proof.
  apply safe_get; [apply safe_readfull|]. intros b. destruct (compressed b).
  - destruct (g2dc b); exact I.
  - apply safe_get; [apply safe_readfull|]. intros b2. destruct (g2dr (b ++ b2)); exact I.
Qed.
Lemma safe_decode1_into h (old : E) : safe any (decode1_into h old).
Proof.
  apply safe_get; [apply safe_try, safe_readfull|]. intros [b|]; [|exact I]. destruct (compressed b).
  - destruct (g1dc b); exact I.
  - apply safe_get; [apply safe_try, safe_readfull|]. intros [b2|]; [|exact I]. destruct (g1dr (b ++ b2)); exact I.
Qed.
Lemma safe_decode2_into h (old : E) : safe any (decode2_into h old).
Proof.
  apply safe_get; [apply safe_try, safe_readfull|]. intros [b|]; [|exact I]. destruct (compressed b).
  - destruct (g2dc b); exact I.
  - apply safe_get; [apply safe_try, safe_readfull|]. intros [b2|]; [|exact I]. destruct (g2dr (b ++ b2)); exact I.
Qed.
Lemma safe_decodes1 h n : safe (fun l : list E => length l = n) (decodes1 h n).
Proof.
  induction n as [|n IH]; [reflexivity|]. cbn [decodes1]. apply safe_get; [apply safe_decode1|]. intros x.
  eapply safe_bind; [exact IH|]. intros l L. cbn. now rewrite L.
Qed.
Lemma safe_decodes2 h n : safe (fun l : list E => length l = n) (decodes2 h n).
Proof.
  induction n as [|n IH]; [reflexivity|]. cbn [decodes2]. apply safe_get; [apply safe_decode2|]. intros x.
  eapply safe_bind; [exact IH|]. intros l L. cbn. now rewrite L.
Qed.
Lemma safe_encodes o l : safe any (encodes o l).
Proof. induction l as [|b l IH]; [exact I|]. cbn [encodes]. apply safe_then; [apply safe_write|exact IH]. Qed.
Lemma safe_read_header h : safe any (read_header h).
Proof.
  intros [b|]; [|exact I]. destruct b as [|pw b]; [exact I|]. intros [c|]; [|exact I].
  destruct c as [|c0 [|c1 c]]; exact I.
Qed.
Lemma safe_write_header o pw n : safe any (write_header o pw n).
Proof. apply safe_then; apply safe_write. Qed.
Lemma safe_write_contrib o (c : contrib E) : safe any (write_contrib o c).
Proof. apply safe_then; [apply safe_encodes|apply safe_write]. Qed.
Lemma safe_read_fields h fs : forall c : contrib E, safe any (read_fields h fs c).
Proof.
  induction fs as [|[g s|g s] fs IH]; intros c; cbn [read_fields]; [exact I| |].
  - apply safe_get; [apply safe_decode1_into|]. intros [x [|]]; [apply IH|exact I].
  - apply safe_get; [apply safe_decode2_into|]. intros [x [|]]; [apply IH|exact I].
Qed.
Lemma safe_read_contrib h (c : contrib E) : safe any (read_contrib h c).
Proof.
  apply safe_get; [apply safe_read_fields|]. intros [c' [|]]; [|exact I]. intros [b|]; exact I.
Qed.
Lemma safe_copy h o n : forall c : contrib E, safe any (copy_contribs h o n c).
Proof.
  induction n as [|n IH]; intros c; [exact I|]. cbn [copy_contribs]. apply safe_get; [apply safe_read_contrib|].
  intros [c' [|]]; [|exact I]. apply safe_then; [apply safe_write_contrib|apply IH].
Qed.
Lemma powers_some (a b : E) n : 1 <= n -> powers a b n = Some (powers_from a b n).
Proof. destruct n; [lia|reflexivity]. Qed.
Lemma powers_from_length (a b : E) n : length (powers_from a b n) = n.
Proof. revert a. induction n as [|n IH]; intros a; [reflexivity|]. cbn. now rewrite IH. Qed.
Lemma nth_error_some {X} (l : list X) i : i < length l -> exists x, nth_error l i = Some x.
Proof. intros H. destruct (nth_error l i) eqn:Q; eauto. apply nth_error_None in Q. lia. Qed.

(* the factor of the first batch is taken from cell [match mul with None => 1 | Some _ => 0 end] *)
Lemma safe_scale_loop bs dec enc o (tau : E) mul : 1 <= bs -> (forall n, safe (fun l : list E => length l = n) (dec n)) ->
  forall fuel remaining buff first start,
  Nat.min remaining bs <= length buff -> match mul with None => 2 <= length buff | Some _ => 1 <= length buff end ->
  safe any (scale_loop bs dec enc o tau mul fuel remaining buff first start).
Proof.
  intros B D. induction fuel as [|fuel IH]; intros remaining buff first start L M; [destruct remaining; exact I|].
  destruct remaining as [|r]; [exact I|]. cbn [scale_loop]. set (R := S r) in *. set (n := Nat.min R bs) in *.
  assert (n1 : 1 <= n) by lia.
  eapply safe_bind; [apply D|]. intros pts P. cbv beta in P. cbv zeta.
  assert (LB : length (pts ++ skipn n buff) = length buff) by (rewrite app_length, skipn_length; lia).
  set (buff' := pts ++ skipn n buff) in *.
  eapply safe_orBoom; [apply powers_some, n1|].
  destruct (nth_error_some (powers_from start tau n) (n - 1)) as [lst Hl]; [rewrite powers_from_length; lia|].
  eapply safe_orBoom; [exact Hl|].
  assert (S1 : exists sc, match mul with Some m => batch_mul (powers_from start tau n) m | None => Some (powers_from start tau n) end = Some sc).
  { destruct mul as [m|]; [|eauto]. unfold batch_mul. rewrite par_cells_spec by apply ncpu_pos. eauto. }
  destruct S1 as [sc Hs]. eapply safe_orBoom; [exact Hs|].
  eapply safe_orBoom; [apply par_cells_spec, ncpu_pos|].
  set (buff2 := mapi _ buff'). assert (L2 : length buff2 = length buff) by (unfold buff2; now rewrite mapi_length).
  apply safe_then; [apply safe_encodes|].
  assert (NX : forall f, safe any (scale_loop bs dec enc o tau mul fuel (R - n) buff2 f (lst * tau))).
  { intros f. apply IH; rewrite L2; [lia|exact M]. }
  destruct (feqb first 0); [|apply NX].
  destruct (nth_error_some buff2 (match mul with None => 1 | Some _ => 0 end)) as [f Hf].
  { rewrite L2. destruct mul; lia. }
  eapply safe_orBoom; [exact Hf|apply NX].
Qed.
Lemma safe_scale bs dec enc o (N : Z) (tau : E) mul : 1 <= bs -> (forall n, safe (fun l : list E => length l = n) (dec n)) ->
  (0 <= N)%Z -> (mul = None -> N = 0%Z \/ 2 <= N)%Z -> (mul = None -> 2 <= bs) -> safe any (scale bs dec enc o N tau mul).
Proof.
  intros B D N0 N2 B2. unfold scale. destruct (Z.ltb_spec N 0); [lia|]. cbv zeta.
  destruct (Z.eq_dec N 0) as [->|NZ]; [exact I|].
  apply safe_scale_loop; auto; rewrite repeat_length; [lia|]. destruct mul as [m|]; [lia|]. specialize (N2 eq_refl). specialize (B2 eq_refl). lia.
Qed.
Lemma safe_lincomb_loop bs dec (rho : nat -> nat -> E) : (forall n, safe (fun l : list E => length l = n) (dec n)) ->
  forall fuel remaining r L1 L2 t1 t2, safe any (lincomb_loop bs dec rho fuel remaining r L1 L2 t1 t2).
Proof.
  intros D. induction fuel as [|fuel IH]; intros remaining r L1 L2 t1 t2; [destruct remaining; exact I|].
  destruct remaining as [|m]; [exact I|]. cbn [lincomb_loop]. eapply safe_bind; [apply D|]. intros pts _.
  eapply safe_orBoom; [unfold randomize; apply par_cells_spec, ncpu_pos|]. apply IH.
Qed.
Lemma safe_lincomb bs dec (rho : nat -> nat -> E) N : (forall n, safe (fun l : list E => length l = n) (dec n)) -> (0 <= N)%Z ->
  safe any (lincomb bs dec rho N).
Proof. intros D H. unfold lincomb. destruct (Z.ltb_spec N 0); [lia|]. now apply safe_lincomb_loop. Qed.
Lemma safe_default trans : safe any (default_contrib (E := E) trans).
Proof.
  destruct trans as [[|]|]; [|exact I|exact I]. cbn [default_contrib]. apply safe_get; [apply safe_read_header|]. intros [pw n]. cbv zeta.
  repeat first [apply safe_then; [apply safe_seek|] | apply safe_get; [apply safe_decode1|intros ?] | apply safe_get; [apply safe_decode2|intros ?]]. exact I.
Qed.
Lemma safe_chain n : forall cur prev : contrib E, safe any (verify_chain n cur prev).
Proof.
  induction n as [|n IH]; intros cur prev; [exact I|]. cbn [verify_chain]. apply safe_get; [apply safe_read_contrib|].
  intros [c ok]. destruct (verify_contrib c prev); [exact I|]. apply safe_get; [apply IH|]. intros [c' hs]. exact I.
Qed.
Lemma safe_transform_loop dec enc o n : safe any dec -> safe any (transform_loop (E := E) dec enc o n).
Proof.
  intros D. induction n as [|n IH]; [exact I|]. cbn [transform_loop]. apply safe_get; [exact D|]. intros x.
  apply safe_then; [apply safe_write|exact IH].
Qed.
Lemma safe_transform_section dec enc pos size : safe any dec -> safe any (transform_section (E := E) dec enc pos size).
Proof. intros D. apply safe_then; [apply safe_seek|]. cbn [safe]. apply safe_flush, safe_transform_loop, D. Qed.
End Blocks.

(* ---- phase 1 ---- *)
Section Phase1Safe.
Context {E : Ext}.
Lemma pow2_in pw : (bN pw <= 62)%N -> (1 <= pow2 pw < 9223372036854775808)%Z /\ ((1 <= bN pw)%N -> (2 <= pow2 pw)%Z).
Proof.
  intros H. unfold pow2. destruct (N.ltb_spec (bN pw) 63); [|lia].
  assert (Q : (0 < 2 ^ Z.of_N (bN pw))%Z) by (apply Z.pow_pos_nonneg; lia).
  assert (T : (2 ^ Z.of_N (bN pw) <= 2 ^ 62)%Z) by (apply Z.pow_le_mono_r; lia).
  split; [change (2 ^ 62)%Z with 4611686018427387904%Z in T; lia|]. intros P.
  assert (T2 : (2 ^ 1 <= 2 ^ Z.of_N (bN pw))%Z) by (apply Z.pow_le_mono_r; lia). lia.
Qed.
Lemma pow2_count pw : (bN pw <= 62)%N -> wrap64 (2 * pow2 pw - 1) = (2 * pow2 pw - 1)%Z.
Proof.
  intros H. unfold pow2. destruct (N.ltb_spec (bN pw) 63); [|lia].
  assert (Q : (0 < 2 ^ Z.of_N (bN pw))%Z) by (apply Z.pow_pos_nonneg; lia).
  assert (T : (2 ^ Z.of_N (bN pw) <= 2 ^ 62)%Z) by (apply Z.pow_le_mono_r; lia). change (2 ^ 62)%Z with 4611686018427387904%Z in T.
  apply wrap64_small. unfold two63. lia.
Qed.

Lemma verify_split bs rho trans : exists K, verify (E := E) bs rho trans = bind (read_header false) K /\
  (forall pw n, (bN pw <= 62)%N -> safe any (K (pw, n))) /\
  (forall pw n s, (62 < bN pw)%N -> exists s', ev (K (pw, n)) s Panic s' none).
Proof.
  eexists. split; [reflexivity|]. split.
  - intros pw n H. destruct (pow2_in pw H) as [[P1 P2] _]. cbv beta iota zeta. cbn [safe]. rewrite pow2_count by exact H.
    apply safe_get; [apply safe_lincomb; [apply safe_decodes1|lia]|]. intros [x1 x2].
    apply safe_get; [apply safe_lincomb; [apply safe_decodes1|lia]|]. intros [x3 x4].
    apply safe_get; [apply safe_lincomb; [apply safe_decodes1|lia]|]. intros [x5 x6].
    apply safe_get; [apply safe_lincomb; [apply safe_decodes2|lia]|]. intros [x7 x8].
    apply safe_get; [apply safe_decode2|]. intros b2. apply safe_get; [apply safe_default|]. intros prev.
    apply safe_get; [apply safe_chain|]. intros [cur hs]. do 5 (apply safe_then; [apply safe_require|]). exact I.
  - intros pw n s H. eexists. cbv beta iota zeta. apply ev_newrd, ev_bind_panic. unfold linearCombinationG1, lincomb.
    pose proof (pow2_neg pw H). destruct (Z.ltb_spec (wrap64 (2 * pow2 pw - 1)) 0); [|lia]. apply ev_boom.
Qed.
Lemma contribute_split' bs (w : @rnd1 E) : 2 <= bs -> exists K, contribute bs w = bind (read_header false) K /\
  (forall pw n, (1 <= bN pw <= 62)%N -> safe any (K (pw, n))) /\
  (forall n f t s s' d, getr false s = at_ f 0 0 t -> ev (K (b8 0, n)) s Panic s' d -> exists b (x : E) t', t = b ++ t' /\ is1 b x).
Proof.
  intros B. eexists. split; [reflexivity|]. split.
  2:{ intros n f t s s' d G H. cbv beta iota zeta in H.
    destruct (bind_panic any _ _ _ _ _ (safe_write_header 0 (b8 0) ((n + 1) mod 65536)) H) as [u [s1 [d1 [d2 [H1 H2]]]]]. clear H.
    assert (s1 = s) as ->. { destruct (ev_det _ _ _ _ _ _ _ _ H1 (ev_write_header 0 (b8 0) ((n + 1) mod 65536) s)) as [_ [Q _]]. exact Q. }
    apply newrd_inv in H2. apply newwr_inv, flush_inv in H2. destruct w as [tau alpha beta st sa sb]. rewrite G, rd_buf_at in H2.
    replace (wrap64 (2 * pow2 (b8 0) - 1)) with 1%Z in H2 by reflexivity.
    assert (A1 : forall q, safe any (decodes1 (E := E) false q)). { intros q. eapply safe_imp; [apply safe_decodes1|]. unfold any. auto. }
    assert (P : exists r s2 d3, ev (scaleG1 bs false 0 1 tau None) (setr false (at_ f defBuf 0 t) s) r s2 d3 /\ (r = Panic \/ exists y, r = Ok y)).
    { destruct (bind_panic_inv _ _ _ _ _ H2) as [H|[x1 [s2 [d3 [d4 [H _]]]]]]; eauto 8. }
    destruct P as [r [s2 [d3 [P R]]]]. unfold scaleG1, scale in P. change (1 <? 0)%Z with false in P. cbv iota zeta in P.
    change (Z.to_nat 1) with 1%nat in P. cbn [scale_loop] in P. replace (Nat.min 1 bs) with 1%nat in P by lia.
    assert (Q : exists l s3 d4, ev (decodes1 (E := E) false 1) (setr false (at_ f defBuf 0 t) s) (Ok l) s3 d4).
    { destruct R as [->|[y ->]].
      - destruct (bind_panic any _ _ _ _ _ (A1 1%nat) P) as [l [s3 [d4 [d5 [H1' _]]]]]. eauto.
      - apply bind_ok_inv in P as [l [s3 [d4 [d5 [H1' _]]]]]. eauto. }
    destruct Q as [l [s3 [d4 H1']]].
    destruct (decodes1_inv false f defBuf defBuf_big 1%nat 0%nat t _ _ _ _ (getr_setr _ _ _) H1') as [b [t' [-> [A2 [L _]]]]].
    destruct l as [|x [|y l]]; [discriminate| |discriminate]. inversion A2 as [|b0 x' t0 l' I1 A3]; subst. inversion A3; subst.
    exists b0, x, t'. rewrite app_nil_r. auto. }
  intros pw n H. destruct (pow2_in pw) as [[P1 P2] P3]; [lia|]. specialize (P3 ltac:(lia)).
  cbv beta iota zeta. apply safe_then; [apply safe_write_header|]. cbn [safe]. apply safe_flush. destruct w as [tau alpha beta st sa sb].
  rewrite pow2_count by lia.
  apply safe_get; [apply safe_scale; try lia; try apply safe_decodes1; intros; try discriminate; lia|]. intros x1.
  apply safe_get; [apply safe_scale; try lia; try apply safe_decodes1; intros; try discriminate; lia|]. intros x2.
  apply safe_get; [apply safe_scale; try lia; try apply safe_decodes1; intros; try discriminate; lia|]. intros x3.
  apply safe_get; [apply safe_scale; try lia; try apply safe_decodes2; intros; try discriminate; lia|]. intros x4.
  apply safe_get; [apply safe_decode2|]. intros x5. apply safe_then; [apply safe_write|].
  apply safe_get; [apply safe_copy|]. intros c. apply safe_then; [apply safe_try, safe_write_contrib|]. exact I.
Qed.

(* p1v *)
Lemma verify_panics bs rho trans f g :
  fst (exec (verify (E := E) bs rho trans) f g) = Panic <-> exists pw c t, f = pw :: c :: t /\ (63 <= bN pw)%N.
Proof.
  destruct (verify_split bs rho trans) as [K [-> [S B]]]. split.
  - intros H. destruct (exec _ f g) as [r d] eqn:X. cbn in H. subst r. apply exec_ev in X as [s' [D [X _]]].
    destruct (bind_panic any _ _ _ _ _ (safe_read_header false) X) as [[pw n] [s1 [d1 [d2 [H1 H2]]]]].
    apply read_header_inv with (f := f) in H1; [|reflexivity]. destruct H1 as [t [-> [Hn Hf]]].
    destruct (N.le_gt_cases (bN pw) 62) as [L|L]; [destruct (safe_ev any _ _ _ _ (S pw n L) H2)|].
    destruct Hf as [->|[-> _]]; [exists pw, (b8 (n / 256)), (b8 n :: t)|exists pw, (b8 (n / 256)), []]; split; auto; lia.
  - intros [pw [c [t [-> P]]]].
    assert (Q : exists n s1, ev (read_header false) (opened (pw :: c :: t), opened g) (Ok (pw, n)) s1 none).
    { unfold read_header, ev. cbn [run getr fst opened at_ rd_read r_cap r_rest Nat.eqb]. destruct t as [|c1 t]; do 2 eexists; exists []; split; reflexivity. }
    destruct Q as [n [s1 Q]]. destruct (B pw n s1 ltac:(lia)) as [s2 Q2].
    pose proof (ev_bind _ K _ _ _ _ _ _ _ Q Q2) as X. apply ev_exec in X. now rewrite X.
Qed.

(* p1c *)
Lemma contribute_panics bs (w : @rnd1 E) f g : 2 <= bs ->
  fst (exec (contribute bs w) f g) = Panic <->
  (exists pw c t, f = pw :: c :: t /\ (63 <= bN pw)%N) \/
  (exists c0 c1 b (x : E) t, f = b8 0 :: c0 :: c1 :: b ++ t /\ is1 b x).
Proof.
  intros B. split.
  - intros H. destruct (exec _ f g) as [r d] eqn:X. cbn in H. subst r. apply exec_ev in X as [s' [D [X _]]].
    pose proof X as X0.
    destruct (contribute_split' bs w B) as [K [EK [S S0]]]. rewrite EK in X.
    destruct (bind_panic any _ _ _ _ _ (safe_read_header false) X) as [[pw n] [s1 [d1 [d2 [H1 H2]]]]].
    apply read_header_inv with (f := f) in H1; [|reflexivity]. destruct H1 as [t [-> [Hn Hf]]].
    destruct (N.le_gt_cases (bN pw) 62) as [L|L].
    2:{ left. destruct Hf as [->|[-> _]]; [exists pw, (b8 (n / 256)), (b8 n :: t)|exists pw, (b8 (n / 256)), []]; split; auto; lia. }
    right. destruct (N.le_gt_cases 1 (bN pw)) as [L1|L1]; [destruct (safe_ev any _ _ _ _ (S pw n (conj L1 L)) H2)|].
    assert (Hpw : pw = b8 0). { apply bN_inj. rewrite bN_b8. change (0 mod 256)%N with 0%N. lia. } subst pw. clear S.
    destruct (S0 n f t _ _ _ (getr_setr _ _ _) H2) as [b [x [t' [-> I1]]]].
    destruct Hf as [->|[_ Hf]].
    + exists (b8 (n / 256)), (b8 n), b, x, t'. split; [reflexivity|exact I1].
    + exfalso. apply app_eq_nil in Hf as [-> _]. destruct I1 as [[Q _]|[Q _]]; discriminate.
  - intros [[pw [c [t [-> P]]]]|[c0 [c1 [b [x [t [Ef I1]]]]]]].
    + assert (Q : exists n s1, ev (read_header false) (opened (pw :: c :: t), opened g) (Ok (pw, n)) s1 none).
      { unfold read_header, ev. cbn [run getr fst opened at_ rd_read r_cap r_rest Nat.eqb]. destruct t as [|c1 t]; do 2 eexists; exists []; split; reflexivity. }
      destruct Q as [n [s1 Q]]. assert (X : exists s' D, ev (contribute bs w) (opened (pw :: c :: t), opened g) Panic s' D).
      { do 2 eexists. unfold contribute. eapply ev_bind; [exact Q|]. cbv beta iota zeta. eapply ev_bind; [apply ev_write_header|].
        apply ev_newrd, ev_newwr, ev_with_flush. destruct w as [tau alpha beta st sa sb]. apply ev_bind_panic. unfold scaleG1, scale.
        pose proof (pow2_neg pw ltac:(lia)). destruct (Z.ltb_spec (wrap64 (2 * pow2 pw - 1)) 0); [|lia]. apply ev_boom. }
      destruct X as [s' [D X]]. apply ev_exec in X. now rewrite X.
    + erewrite contribute_power0; [reflexivity|lia|exact I1|exact Ef].
Qed.
End Phase1Safe.
