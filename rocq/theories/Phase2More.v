(* Phase2More.v -- arbitrary input bytes, short reads and undecodable parameters. *)
From Coq Require Import Ring Field.
From Verif Require Import Base Fld Conc Parallel IO Ext Spec1 Phase1 Phase1Io Phase1Verify Phase1Trans Phase1Facts Phase1Inv
  Phase1Claims Gob GobLemmas Circuit Spec2 Phase2 Phase2Io Phase2Lemmas Phase2Claims.
Local Open Scope fld_scope.
Local Open Scope io_scope.

(* a program that only reads from h neither sees nor touches anything else *)
Lemma frame {X} h file cap : forall (q : io X) p rest, only_reads h q ->
  exists r p' rest', forall s, getr h s = at_ file cap p rest -> run q s = (r, setr h (at_ file cap p' rest') s, []).
Proof.
  induction q as [a|e| |h' k c IH|h' z c IH|h' n c IH|h' n c IH|o n c IH|o c IH|o d c IH]; intros p rest O; cbn [only_reads] in O; try contradiction.
  - exists (Ok a), p, rest. intros s G. rewrite <- G, setr_getr. reflexivity.
  - exists (Err e), p, rest. intros s G. rewrite <- G, setr_getr. reflexivity.
  - exists Panic, p, rest. intros s G. rewrite <- G, setr_getr. reflexivity.
  - destruct O as [-> [K O]]. destruct (rd_read_any file cap p rest k K) as [x [p1 [rest1 [pre1 [E [_ LX]]]]]].
    destruct (IH x p1 rest1 (O x LX)) as [r [p2 [rest2 Q]]]. exists r, p2, rest2. intros s G.
    cbn [run]. rewrite G, E, Q by apply getr_setr. now rewrite setr_setr.
Qed.
Lemma step_inv {X Y} h (q : io X) (f : X -> io Y) file cap p rest s b s2 d : only_reads h q ->
  getr h s = at_ file cap p rest -> ev (bind q f) s (Ok b) s2 d ->
  exists a p' rest' d', (forall s0, getr h s0 = at_ file cap p rest -> ev q s0 (Ok a) (setr h (at_ file cap p' rest') s0) none) /\
    ev (f a) (setr h (at_ file cap p' rest') s) (Ok b) s2 d'.
Proof.
  intros O G H. destruct (frame h file cap q p rest O) as [r [p' [rest' Q]]].
  destruct H as [w [H _]]. rewrite run_bind, (Q s G) in H. destruct r as [a| |]; try discriminate H.
  exists a, p', rest'. destruct (run (f a) _) as [[r2 s3] w2] eqn:R. injection H as -> -> Hw.
  exists (fun o => out o w2). split.
  - intros s0 G0. exists []. split; [apply Q; exact G0|]. reflexivity.
  - exists w2. split; [exact R|reflexivity].
Qed.

Section More.
Context {E : Ext2}.
Add Field Kfld2d : (f_th E).

Lemma reads_decode1 h : only_reads h (decode1 (E := E) h).
Proof.
  unfold decode1. apply only_reads_bind; [apply only_reads_full|]. intros b. destruct (compressed b).
  - destruct (g1dc b); exact I.
  - apply only_reads_bind; [apply only_reads_full|]. intros b2. destruct (g1dr _); exact I.
Qed.
Lemma reads_decode2 h : only_reads h (decode2 (E := E) h).
Proof.
  unfold decode2. apply only_reads_bind; [apply only_reads_full|]. intros b. destruct (compressed b).
  - destruct (g2dc b); exact I.
  - apply only_reads_bind; [apply only_reads_full|]. intros b2. destruct (g2dr _); exact I.
Qed.
Lemma reads_hdr2 h : only_reads h (read_hdr2 (E := E) h).
Proof. apply only_reads_hdr. apply gob_alt_reads. Qed.

(* what the start of a file says: header, [delta]_1, [delta]_2 *)
Definition prefix2 (h : bool) : io (hdr * E * E) :=
  NewRd h defBuf (x <- read_hdr2 (E := E) h ;; a <- decode1 h ;; b <- decode2 h ;; Ret (x, a, b)).

Lemma require_inv {Y} b e (q : io Y) s y s' d : ev (require b e ;;; q) s (Ok y) s' d -> b = true /\ ev q s (Ok y) s' d.
Proof.
  intros H. destruct b; cbn [require] in H.
  - split; [reflexivity|]. exact H.
  - destruct H as [w [H _]]. discriminate H.
Qed.
Lemma chain2_inv : forall n s (x pd : E) ph y hs s' d, ev (verify_chain2 n x pd ph) s (Ok (y, hs)) s' d ->
  exists l, length l = n /\ chain2_err pd ph l = None /\ y = last (map d_delta l) x /\ hs = map d_hash l.
Proof.
  induction n as [|n IH]; intros s x pd ph y hs s' d H; cbn [verify_chain2] in H.
  - destruct H as [w [H _]]. injection H as <- <- _ _. exists []. auto.
  - apply bind_ok_inv in H as [c [s1 [d1 [d2 [_ [H _]]]]]].
    destruct (verify_contrib2 c pd ph) eqn:V; [destruct H as [w [H _]]; discriminate H|].
    apply bind_ok_inv in H as [[y' hs'] [s3 [d3 [d4 [H [H2 _]]]]]].
    apply IH in H as [l [L [C [-> ->]]]]. destruct H2 as [w [H2 _]]. injection H2 as <- <- _ _.
    exists (c :: l). cbn [length chain2_err map]. rewrite V, last_cons. auto.
Qed.

(* C40 for arbitrary bytes *)
Lemma verify2_any bs (rho : nat -> nat -> nat -> E) f g hs : fst (exec (verify2 bs rho) f g) = Ok hs ->
  exists cur org d1 d2 g1 g2 l, fst (exec (prefix2 false) f g) = Ok (cur, d1, d2) /\
    fst (exec (prefix2 true) f g) = Ok (org, g1, g2) /\
    h_contribs cur <> 0%Z /\ hdr_eqb cur org = true /\ g1 * d2 = d1 * g2 /\
    length l = Z.to_nat (h_contribs cur) /\ chain2_err g1 [] l = None /\ last (map d_delta l) 0 = d1 /\ hs = map d_hash l.
Proof.
  intros H. destruct (exec (verify2 bs rho) f g) as [r dd] eqn:X. cbn [fst] in H. subst r.
  apply exec_ev in X as [s' [D [X _]]]. unfold verify2 in X.
  destruct X as [w [X Hw]]. cbn [run] in X.
  set (s := setr true _ _) in X.
  assert (G1 : getr false s = at_ f defBuf 0 f) by (unfold s; cbn [setr getr fst snd opened]; apply rd_buf_at).
  assert (G2 : getr true s = at_ g defBuf 0 g) by (unfold s; cbn [setr getr fst snd opened]; apply rd_buf_at).
  clearbody s.
  match type of X with run ?q s = _ => assert (Y : ev q s (Ok hs) s' D) by (exists w; auto) end. clear X Hw w. rename Y into X.
  eapply step_inv in X; [|apply reads_hdr2|exact G1]. destruct X as [cur [p1 [r1 [D1 [RA X]]]]].
  eapply step_inv in X; [|apply reads_hdr2|rewrite getr_other by reflexivity; exact G2]. destruct X as [org [p2 [r2 [D2 [RB X]]]]].
  apply require_inv in X as [N0 X]. apply require_inv in X as [HE X].
  eapply step_inv in X; [|apply reads_decode1|apply getr_setr]. destruct X as [g1 [p3 [r3 [D3 [RC X]]]]].
  eapply step_inv in X; [|apply reads_decode2|apply getr_setr]. destruct X as [g2 [p4 [r4 [D4 [RD X]]]]].
  eapply step_inv in X; [|apply reads_decode1|rewrite !getr_other by reflexivity; apply getr_setr]. destruct X as [d1 [p5 [r5 [D5 [RE X]]]]].
  eapply step_inv in X; [|apply reads_decode2|apply getr_setr]. destruct X as [d2 [p6 [r6 [D6 [RF X]]]]].
  apply require_inv in X as [SR X].
  apply bind_ok_inv in X as [[] [s1 [e1 [e2 [_ [X _]]]]]].
  apply bind_ok_inv in X as [[] [s3 [e3 [e4 [_ [X _]]]]]].
  apply bind_ok_inv in X as [[y hs'] [s5 [e5 [e6 [C [X _]]]]]].
  apply require_inv in X as [LD X]. destruct X as [w [X _]]. injection X as -> _ _.
  apply chain2_inv in C as [l [Ll [C [-> ->]]]].
  exists cur, org, d1, d2, g1, g2, l.
  assert (P : forall h x a b q1 t1 q2 t2 q3 t3, 
     (forall s0, getr h s0 = at_ (if h then g else f) defBuf 0 (if h then g else f) -> ev (read_hdr2 (E := E) h) s0 (Ok x) (setr h (at_ (if h then g else f) defBuf q1 t1) s0) none) ->
     (forall s0, getr h s0 = at_ (if h then g else f) defBuf q1 t1 -> ev (decode1 (E := E) h) s0 (Ok a) (setr h (at_ (if h then g else f) defBuf q2 t2) s0) none) ->
     (forall s0, getr h s0 = at_ (if h then g else f) defBuf q2 t2 -> ev (decode2 (E := E) h) s0 (Ok b) (setr h (at_ (if h then g else f) defBuf q3 t3) s0) none) ->
     fst (exec (prefix2 h) f g) = Ok (x, a, b)).
  { intros h x a b q1 t1 q2 t2 q3 t3 Q1 Q2 Q3.
    assert (EV : exists st, ev (prefix2 h) (opened f, opened g) (Ok (x, a, b)) st none).
    { unfold prefix2. destruct h; (eexists; eapply ev_newrd0; [reflexivity|]);
      (eapply evb; [apply Q1; apply getr_setr|]);
      (eapply evb; [apply Q2; apply getr_setr|]); (eapply evb; [apply Q3; apply getr_setr|]); apply ev_ret. }
    destruct EV as [st EV]. apply ev_exec in EV. now rewrite EV. }
  split; [exact (P false _ _ _ _ _ _ _ _ _ RA RE RF)|]. split; [exact (P true _ _ _ _ _ _ _ _ _ RB RC RD)|].
  split. { destruct (Z.eqb_spec (h_contribs cur) 0); [discriminate N0|assumption]. }
  split; [exact HE|]. split; [apply feqb_ok in SR; exact SR|]. split; [exact Ll|]. split; [exact C|].
  split; [apply feqb_ok in LD; exact LD|reflexivity].
Qed.

(* ---- the phrasing of acceptance ---- *)
Definition chain_facts (o : E) (l : list (contrib2 E)) : Prop :=
  forall i c, nth_error l i = Some c ->
    hash_good2 c /\ (live2 c (prev_hash l i) -> exists x, linked2 (prev_delta o l i) c x).
Lemma chain_facts_of (o : E) l : chain2_err o [] l = None -> chain_facts o l.
Proof.
  intros C i c Hi. pose proof (chain2_nth l o [] C i c Hi) as V. split; [apply verify2_inv in V; tauto|].
  intros L. eapply accepted_linked2; eauto.
Qed.
Lemma chain_product : forall l (o : E), (forall i c, nth_error l i = Some c -> exists x, linked2 (prev_delta o l i) c x) ->
  exists x, last (map d_delta l) o = x * o.
Proof.
  induction l as [|c l IH]; intros o H.
  - exists 1. cbn. ring.
  - destruct (H 0%nat c eq_refl) as [x [Hx _]]. unfold prev_delta in Hx. cbn in Hx.
    destruct (IH (d_delta c)) as [y Hy].
    + intros i c' Hi. destruct (H (S i) c' Hi) as [z Hz]. exists z. unfold prev_delta in *. cbn [firstn map] in Hz. now rewrite last_cons in Hz.
    + exists (y * x). cbn [map]. rewrite last_cons, Hy, Hx. ring.
Qed.
Lemma hdr_eqb_set h ho : hdr_eqb h ho = true <-> set_contribs h 0 = set_contribs ho 0.
Proof.
  destruct h, ho. unfold hdr_eqb, set_contribs. cbn. rewrite !andb_true_iff, !Z.eqb_eq. split.
  - intros [[[[[-> ->] ->] ->] ->] ->]. reflexivity.
  - intros H. injection H as -> -> -> -> -> ->. auto 10.
Qed.
Lemma c40 bs (rho : nat -> nat -> nat -> E) f g h ho (q qo : par2 E) l lo hs : 1 <= bs -> hdr_ok h -> hdr_ok ho ->
  is_file2 f h q l -> is_file2 g ho qo lo -> fst (exec (verify2 bs rho) f g) = Ok hs ->
  l <> [] /\ hs = map d_hash l /\ set_contribs h 0 = set_contribs ho 0 /\
  p_d1 qo * p_d2 q = p_d1 q * p_d2 qo /\ p_d1 q = last (map d_delta l) (p_d1 qo) /\ chain_facts (p_d1 qo) l /\
  ((forall i c, nth_error l i = Some c -> live2 c (prev_hash l i)) ->
     exists x, p_d1 q = x * p_d1 qo /\ (p_d1 qo <> 0 -> p_d2 q = x * p_d2 qo)).
Proof.
  intros B H Ho F G A.
  assert (Hl : h_contribs h = Z.of_nat (length l)) by (destruct F as [? [? [? [? [? [? [X _]]]]]]]; exact X).
  rewrite (verify2_exec bs rho f g h ho q qo l lo) in A by auto. cbn [fst] in A.
  apply verdict2_ok in A as [N0 [HE [SR [_ [_ [C [L ->]]]]]]].
  assert (Ne : l <> []) by (intros ->; cbn in Hl; lia).
  split; [exact Ne|]. split; [reflexivity|]. split; [now apply hdr_eqb_set|]. split; [exact SR|].
  assert (LD : p_d1 q = last (map d_delta l) (p_d1 qo)).
  { rewrite <- L. destruct l as [|c l']; [congruence|]. cbn [map]. now rewrite !last_cons. }
  split; [exact LD|]. split; [now apply chain_facts_of|].
  intros LV. destruct (chain_product l (p_d1 qo)) as [x Hx].
  - intros i c Hi. destruct (chain_facts_of _ _ C i c Hi) as [_ Q]. apply Q. eapply LV; eauto.
  - exists x. rewrite LD. split; [exact Hx|]. intros O0. apply (cancel_l (p_d1 qo)); auto. rewrite SR, LD, Hx. ring.
Qed.
Lemma c40_any bs (rho : nat -> nat -> nat -> E) f g hs : fst (exec (verify2 bs rho) f g) = Ok hs ->
  exists cur org d1 d2 g1 g2 l, fst (exec (prefix2 false) f g) = Ok (cur, d1, d2) /\
    fst (exec (prefix2 true) f g) = Ok (org, g1, g2) /\
    h_contribs cur <> 0%Z /\ set_contribs cur 0 = set_contribs org 0 /\ g1 * d2 = d1 * g2 /\
    length l = Z.to_nat (h_contribs cur) /\ chain_facts g1 l /\ d1 = last (map d_delta l) 0 /\ hs = map d_hash l.
Proof.
  intros H. apply verify2_any in H as [cur [org [d1 [d2 [g1 [g2 [l [H1 [H2 [H3 [H4 [H5 [H6 [H7 [H8 H9]]]]]]]]]]]]]]].
  exists cur, org, d1, d2, g1, g2, l. repeat (split; [first [assumption|now apply hdr_eqb_set|now apply chain_facts_of|now symmetry]|]). exact H9.
Qed.
Lemma c40_reject bs (rho : nat -> nat -> nat -> E) f g h ho (q qo : par2 E) l lo : 1 <= bs -> hdr_ok h -> hdr_ok ho ->
  is_file2 f h q l -> is_file2 g ho qo lo ->
  (l = [] -> exec (verify2 bs rho) f g = (Err ENoContrib, [])) /\
  (l <> [] -> set_contribs h 0 <> set_contribs ho 0 -> exec (verify2 bs rho) f g = (Err EHeader, [])).
Proof.
  intros B H Ho F G.
  assert (Hl : h_contribs h = Z.of_nat (length l)) by (destruct F as [? [? [? [? [? [? [X _]]]]]]]; exact X).
  rewrite (verify2_exec bs rho f g h ho q qo l lo) by auto. unfold verdict2. rewrite Hl. split.
  - intros ->. reflexivity.
  - intros Ne Nh. destruct (Z.eqb_spec (Z.of_nat (length l)) 0); [destruct l; [congruence|cbn in *; lia]|].
    destruct (hdr_eqb h ho) eqn:HE; [apply hdr_eqb_set in HE; contradiction|reflexivity].
Qed.

(* ---- C36: a hash across a block boundary ---- *)
Definition block : nat := N.to_nat 4096.
Lemma ev_read_cut h file p (c : contrib2 E) pb t s : are_vals pb (rec2_vals c) -> length (d_hash c) = 32%nat ->
  (N.to_nat 4064 < (p + length pb) mod N.to_nat 4096)%nat -> getr h s = at_ file defBuf p (pb ++ d_hash c ++ t) ->
  let j := (N.to_nat 4096 - (p + length pb) mod N.to_nat 4096)%nat in
  exists s', ev (read_contrib2 h) s (Ok (cut_hash j c)) s' none.
Proof.
  intros V L M G j.
  assert (S0 : (64 < defBuf)%nat) by (rewrite defBuf_val; lia).
  assert (S1 : (defBuf < (p + length pb) mod defBuf + 32)%nat).
  { rewrite defBuf_val. revert M. generalize ((p + length pb) mod N.to_nat 4096)%nat. intros. lia. }
  pose proof (ev_read_contrib2_short h file defBuf p c pb t s S0 V L S1 G) as Q. cbv zeta in Q. eexists.
  unfold cut_hash, j. rewrite <- defBuf_val. exact Q.
Qed.
Lemma ev_copy2_cut h o file (c : contrib2 E) cb : are_vals cb (rec2_vals c) -> length (d_hash c) = 32%nat ->
  forall (l : list (contrib2 E)) c0 p b t s, recs2_at p b l ->
  (N.to_nat 4064 < (p + length b + length cb) mod N.to_nat 4096)%nat ->
  let j := (N.to_nat 4096 - (p + length b + length cb) mod N.to_nat 4096)%nat in
  getr h s = at_ file defBuf p (b ++ cb ++ d_hash c ++ t) ->
  exists s', ev (copy_contribs2 h o (length l + 1) c0) s (Ok (cut_hash j c)) s' (on o (recs2_bytes (l ++ [cut_hash j c]))).
Proof.
  intros V L. induction l as [|a l IH]; intros c0 p b t s A M j G.
  - inversion A; subst. cbn [length Nat.add app] in *. unfold j in *. rewrite !Nat.add_0_r in *. clear j.
    destruct (ev_read_cut h file p c cb t s V L M G) as [s' Q]. exists s'. cbn [copy_contribs2].
    eapply evb; [exact Q|]. cbn [recs2_bytes flat_map]. eapply evw; [apply ev_write_contrib2|]. apply ev_on_nil, ev_ret.
  - inversion A as [|off pb c' t1 l' V1 L1 M1 A']; subst. unfold j in *. clear j. rewrite !app_length, L1 in M |- *.
    replace (p + (length pb + (32 + length t1)))%nat with (p + length pb + 32 + length t1)%nat in * by lia.
    rewrite <- !app_assoc in G.
    assert (RC : ev (read_contrib2 h) s (Ok a) (setr h (at_ file defBuf (p + length pb + 32) (t1 ++ cb ++ d_hash c ++ t)) s) none).
    { eapply ev_read_contrib2; [apply defBuf_big|exact V1|exact L1| |exact G].
      right. rewrite defBuf_val. revert M1. generalize ((p + length pb) mod N.to_nat 4096)%nat. intros. lia. }
    destruct (IH a _ t1 t (setr h (at_ file defBuf (p + length pb + 32) (t1 ++ cb ++ d_hash c ++ t)) s) A' M (getr_setr _ _ _)) as [s' Q].
    exists s'. cbn [length Nat.add copy_contribs2 app recs2_bytes flat_map].
    eapply evb; [exact RC|]. eapply evw; [apply ev_write_contrib2|]. exact Q.
Qed.
Lemma ev_chain2_cut file (c : contrib2 E) cb m : are_vals cb (rec2_vals c) -> length (d_hash c) = 32%nat ->
  forall l p b t s (x pd : E) ph, recs2_at p b l ->
  (N.to_nat 4064 < (p + length b + length cb) mod N.to_nat 4096)%nat ->
  let j := (N.to_nat 4096 - (p + length b + length cb) mod N.to_nat 4096)%nat in
  getr false s = at_ file defBuf p (b ++ cb ++ d_hash c ++ t) ->
  forall e, chain2_err pd ph (l ++ [cut_hash j c]) = Some e ->
  exists s', ev (verify_chain2 (length l + S m) x pd ph) s (Err e) s' none.
Proof.
  intros V L. induction l as [|a l IH]; intros p b t s x pd ph A M j G e CE.
  - inversion A; subst. cbn [length Nat.add app] in *. unfold j in *. rewrite !Nat.add_0_r in *. clear j.
    destruct (ev_read_cut false file p c cb t s V L M G) as [s' Q]. exists s'. cbn [verify_chain2].
    eapply evb; [exact Q|]. cbn [chain2_err] in CE. destruct (verify_contrib2 _ pd ph); [|discriminate]. injection CE as ->. apply ev_throw.
  - inversion A as [|off pb c' t1 l' V1 L1 M1 A']; subst. unfold j in *. clear j. rewrite !app_length, L1 in M, CE.
    replace (p + (length pb + (32 + length t1)))%nat with (p + length pb + 32 + length t1)%nat in * by lia.
    rewrite <- !app_assoc in G.
    assert (RC : ev (read_contrib2 false) s (Ok a) (setr false (at_ file defBuf (p + length pb + 32) (t1 ++ cb ++ d_hash c ++ t)) s) none).
    { eapply ev_read_contrib2; [apply defBuf_big|exact V1|exact L1| |exact G].
      right. rewrite defBuf_val. revert M1. generalize ((p + length pb) mod N.to_nat 4096)%nat. intros. lia. }
    cbn [app chain2_err] in CE. cbn [length Nat.add verify_chain2].
    destruct (verify_contrib2 a pd ph) as [e'|] eqn:VC.
    + injection CE as ->. eexists. eapply evb; [exact RC|]. rewrite VC. apply ev_throw.
    + destruct (IH _ t1 t (setr false (at_ file defBuf (p + length pb + 32) (t1 ++ cb ++ d_hash c ++ t)) s) (d_delta a) (d_delta a) (d_hash a) A' M (getr_setr _ _ _) e CE) as [s' Q].
      exists s'. eapply evb; [exact RC|]. rewrite VC. apply ev_bind_err. exact Q.
Qed.

(* f is a readable phase-2 file with records l ++ c :: ..., of which c's hash straddles a boundary
   after j bytes; k records in total *)
Definition straddles (f : bytes) (h : hdr) (q : par2 E) (l : list (contrib2 E)) (c : contrib2 E) (j : nat) (more : nat) : Prop :=
  exists pb rb cb rest, f = gob_hdr h ++ pb ++ rb ++ cb ++ d_hash c ++ rest /\ is_par2 pb q /\ sized2 h q /\
    h_contribs h = Z.of_nat (length l + 1 + more) /\ recs2_at (length (gob_hdr h) + length pb) rb l /\
    are_vals cb (rec2_vals c) /\ length (d_hash c) = 32%nat /\
    let off := (length (gob_hdr h) + length pb + length rb + length cb)%nat in
    (N.to_nat 4064 < off mod N.to_nat 4096)%nat /\ j = (N.to_nat 4096 - off mod N.to_nat 4096)%nat.

Lemma straddle_range f h q l c j m : straddles f h q l c j m -> (1 <= j < 32)%nat.
Proof.
  intros [pb [rb [cb [rest [_ [_ [_ [_ [_ [_ [_ [M ->]]]]]]]]]]]].
  pose proof (Nat.mod_upper_bound (length (gob_hdr h) + length pb + length rb + length cb) (N.to_nat 4096) ltac:(lia)) as U.
  revert M U. generalize ((length (gob_hdr h) + length pb + length rb + length cb) mod N.to_nat 4096)%nat. intros. lia.
Qed.

Lemma c36_contribute bs (d s : E) f g h q l c j : 1 <= bs -> hdr_ok h -> count_ok (h_contribs h) -> straddles f h q l c j 0 ->
  let c' := cut_hash j c in
  let r := new_rec2 d s (d * p_d1 q) (d_hash c') in
  exec (contribute2 bs d s) f g =
    (Ok (d_hash r), file2 (set_contribs h (h_contribs h + 1)) (upd_par2 d q) (l ++ [c'; r])).
Proof.
  intros B H Cn [pb [rb [cb [rest [Ef [P [Sz [Hl [A [V [L [M Ej]]]]]]]]]]]] c' r.
  destruct (ev_copy2_cut false 0 f c cb V L l (@zero_contrib2 E) _ rb rest
    (setr false (at_ f defBuf (length (gob_hdr h) + length pb) (rb ++ cb ++ d_hash c ++ rest)) (opened f, opened g)) A M (getr_setr _ _ _)) as [st CP].
  cbv zeta in M, Ej. rewrite <- Ej in CP. fold c' in CP.
  replace (length l + 1)%nat with (Z.to_nat (h_contribs h)) in CP by (rewrite Hl, Nat2Z.id; lia).
  pose proof (contribute2_gen bs d s f h pb q _ (opened f, opened g) _ _ _ B H Cn Ef P Sz eq_refl CP) as Q. cbv zeta in Q.
  assert (N0 : (h_contribs h =? 0)%Z = false) by (apply Z.eqb_neq; lia). rewrite N0 in Q. fold r in Q.
  apply ev_exec in Q. rewrite Q. unfold file2.
  assert (EB : recs2_bytes (l ++ [c'; r]) = recs2_bytes (l ++ [c']) ++ rec2_bytes r).
  { change (l ++ [c'; r]) with (l ++ [c'] ++ [r]). rewrite app_assoc, (recs2_bytes_app (l ++ [c']) [r]). f_equal. cbn [recs2_bytes flat_map]. apply app_nil_r. }
  rewrite EB. reflexivity.
Qed.
Lemma cut_differs (c : contrib2 E) j : length (d_hash c) = 32%nat -> j <= 32 -> skipn j (d_hash c) <> repeat (b8 0) (32 - j) -> d_hash (cut_hash j c) <> d_hash c.
Proof.
  intros L J N X. apply N. cbn [cut_hash d_hash] in X.
  rewrite <- (firstn_skipn j (d_hash c)) in X at 2. now apply app_inv_head in X.
Qed.
Lemma cut_rejected (c : contrib2 E) j pd ph : hash_good2 c -> length (d_hash c) = 32%nat -> j <= 32 ->
  skipn j (d_hash c) <> repeat (b8 0) (32 - j) ->
  exists e, verify_contrib2 (cut_hash j c) pd ph = Some e /\ (verify_contrib2 c pd ph = None -> e = EHash).
Proof.
  intros HG L J N. pose proof (cut_differs c j L J N) as ND.
  assert (Q : bytes_eqb (d_hash (cut_hash j c)) (compute_hash2 (cut_hash j c)) = false).
  { destruct (bytes_eqb _ _) eqn:Q; [|reflexivity]. exfalso. apply bytes_eqb_eq in Q. apply ND. rewrite Q. symmetry. exact HG. }
  unfold verify_contrib2, check. rewrite Q.
  change (d_key (cut_hash j c)) with (d_key c). change (d_delta (cut_hash j c)) with (d_delta c).
  destruct (same_ratio _ _ _ _); [|eexists; split; [reflexivity|discriminate]].
  destruct (same_ratio _ _ _ _); [|eexists; split; [reflexivity|discriminate]].
  eauto.
Qed.
Lemma c36_verify bs (rho : nat -> nat -> nat -> E) f g h ho q qo l lo c j m : 1 <= bs -> hdr_ok h -> hdr_ok ho ->
  straddles f h q l c j m -> is_file2 g ho qo lo -> hash_good2 c -> skipn j (d_hash c) <> repeat (b8 0) (32 - j) ->
  exists e, exec (verify2 bs rho) f g = (Err e, []) /\
    (forall hs, verdict2 bs rho (set_contribs h (Z.of_nat (length l + 1))) ho q qo (l ++ [c]) = Ok hs -> e = EHash).
Proof.
  intros B H Ho S0 [pbo [rbo [junko [Eg [Po [Szo _]]]]]] HG NZ.
  pose proof (straddle_range _ _ _ _ _ _ _ S0) as JR.
  destruct S0 as [pb [rb [cb [rest [Ef [P [Sz [Hl [A [V [L [M Ej]]]]]]]]]]]]. cbv zeta in M, Ej.
  destruct (cut_rejected c j (last (map d_delta l) (p_d1 qo)) (last (map d_hash l) []) HG L ltac:(lia) NZ) as [ec [VC VE]].
  set (e := match chain2_err (p_d1 qo) [] l with Some e => e | None => ec end).
  assert (CE : chain2_err (p_d1 qo) [] (l ++ [cut_hash j c]) = Some e).
  { rewrite chain2_app. unfold e. destruct (chain2_err (p_d1 qo) [] l); [reflexivity|]. cbn [chain2_err]. now rewrite VC. }
  assert (CH : forall st, getr false st = at_ f defBuf (length (gob_hdr h) + length pb) (rb ++ cb ++ d_hash c ++ rest) ->
     exists s', ev ('(delta, hs) <- verify_chain2 (Z.to_nat (h_contribs h)) 0 (p_d1 qo) [] ;;
       require (feqb delta (p_d1 q)) ELastDelta ;;; Ret hs) st (Err e) s' none).
  { intros st G. replace (Z.to_nat (h_contribs h)) with (length l + S m)%nat by lia.
    rewrite Ej in CE. destruct (ev_chain2_cut f c cb m V L l _ rb rest st 0 (p_d1 qo) [] A M G e CE) as [s' Q].
    exists s'. apply ev_bind_err. exact Q. }
  destruct (verify2_gen bs rho f g h ho q qo pb pbo _ (rbo ++ junko) (opened f, opened g) (Err e) B H Ho Ef Eg P Po Sz Szo eq_refl eq_refl CH) as [s' Q].
  apply ev_exec in Q. rewrite Q. cbn [none].
  match goal with |- exists e0, (?R, _) = _ /\ _ => assert (RE : exists e0, R = Err e0 /\
    (forall hs, verdict2 bs rho (set_contribs h (Z.of_nat (length l + 1))) ho q qo (l ++ [c]) = Ok hs -> e0 = EHash)) end.
  { destruct (Z.eqb_spec (h_contribs h) 0); [lia|].
    destruct (negb (hdr_eqb h ho)) eqn:C1; [exists EHeader; split; [reflexivity|]|].
    { intros hs V0. apply verdict2_ok in V0 as [_ [HE _]].
      assert (X : hdr_eqb h ho = true) by exact HE. rewrite X in C1. discriminate. }
    destruct (negb (same_ratio _ _ _ _)) eqn:C2; [exists EDelta; split; [reflexivity|]|].
    { intros hs V0. apply verdict2_ok in V0 as [_ [_ [Y _]]]. unfold same_ratio in C2. rewrite Y, feqb_refl in C2. discriminate. }
    destruct (negb (same_ratio _ _ _ _)) eqn:C3 in |- *; [exists EInconsZ; split; [reflexivity|]|].
    { intros hs V0. apply verdict2_ok in V0 as [_ [_ [_ [Y _]]]]. unfold same_ratio in C3. rewrite Y, feqb_refl in C3. discriminate. }
    destruct (negb (same_ratio _ _ _ _)) eqn:C4 in |- *; [exists EInconsPKK; split; [reflexivity|]|].
    { intros hs V0. apply verdict2_ok in V0 as [_ [_ [_ [_ [Y _]]]]]. unfold same_ratio in C4. rewrite Y, feqb_refl in C4. discriminate. }
    exists e. split; [reflexivity|]. intros hs V0. apply verdict2_ok in V0 as [_ [_ [_ [_ [_ [C _]]]]]].
    rewrite chain2_app in C. unfold e. destruct (chain2_err (p_d1 qo) [] l); [discriminate|]. cbn [chain2_err] in C.
    apply VE. destruct (verify_contrib2 c _ _); [discriminate|reflexivity]. }
  destruct RE as [e0 [-> RE]]. exists e0. split; [reflexivity|]. exact RE.
Qed.

Lemma honest2_snoc : forall ws0 w (q : par2 E) l, honest2 q l (ws0 ++ [w]) =
  (upd_par2 (fst w) (fst (honest2 q l ws0)),
   snd (honest2 q l ws0) ++ [new_rec2 (fst w) (snd w) (fst w * p_d1 (fst (honest2 q l ws0))) (last_hash2 (snd (honest2 q l ws0)))]).
Proof. induction ws0 as [|v ws0 IH]; intros w q l; cbn [honest2 app]; [reflexivity|]. apply IH. Qed.
Lemma honest2_hashed : forall ws (q : par2 E) l, hashed2 l -> hashed2 (snd (honest2 q l ws)).
Proof.
  induction ws as [|w ws IH]; intros q l X; cbn [honest2]; [exact X|].
  apply IH. intros c Hc. apply in_app_or in Hc as [Hc|[<-|[]]]; [auto|apply new_rec2_hash].
Qed.

(* an honest ceremony whose last hash straddles is rejected *)
Lemma c36_ceremony bs f0 h (q : par2 E) ws : 1 <= bs -> hdr_ok h -> h_contribs h = 0%Z -> is_file2 f0 h q [] ->
  (Z.of_nat (length ws) < 9223372036854775807)%Z -> ws <> [] ->
  (forall j, (1 <= j < length ws)%nat -> unsplit (set_contribs h (Z.of_nat j)) q j) ->
  let k := (length ws - 1)%nat in let h' := set_contribs h (Z.of_nat (length ws)) in
  unsplit h' q k -> (N.to_nat 4064 < hash_off h' q k mod N.to_nat 4096)%nat ->
  (forall w, In w ws -> fst w <> 0) ->
  let j := (N.to_nat 4096 - hash_off h' q k mod N.to_nat 4096)%nat in
  exists f hs, ceremony2 bs f0 ws = Ok (f, hs) /\ length hs = length ws /\
    (skipn j (last hs []) <> repeat (b8 0) (32 - j) ->
     (forall bs' (rho : nat -> nat -> nat -> E), 1 <= bs' -> exec (verify2 bs' rho) f f0 = (Err EHash, [])) /\
     (* and the next contributor damages the record *)
     (forall bs' (d s : E), 1 <= bs' -> exists hh f' l c', 
        exec (contribute2 bs' d s) f f0 = (Ok hh, f') /\
        f' = file2 (set_contribs h (Z.of_nat (length ws) + 1)) (upd_par2 (d * prodf ws) q) (l ++ [c']) /\
        map d_hash l <> hs /\ length l = length ws /\ d_hash c' = hh)).
Proof.
  intros B HO H0 F Bd Ne U k h' Uk Mk NZ j.
  assert (Hh : set_contribs h (Z.of_nat (length (@nil (contrib2 E)))) = h) by (destruct h; cbn in *; now subst).
  assert (Sz : sized2 h q). { destruct F as [? [? [? [? [? [S0 _]]]]]]. exact S0. }
  assert (H32 : hashed2 (@nil (contrib2 E))) by (intros x []).
  rewrite <- Hh in F at 1.
  assert (Bd' : (Z.of_nat (length (@nil (contrib2 E)) + length ws) < 9223372036854775808)%Z) by (cbn [length]; lia).
  assert (U' : forall j, (length (@nil (contrib2 E)) < j < length (@nil (contrib2 E)) + length ws)%nat -> unsplit (set_contribs h (Z.of_nat j)) q j).
  { cbn [length]. intros i Hi. apply U. lia. }
  destruct (steps2 bs h B HO ws q [] [] f0 Sz H32 F Bd' U' Ne) as [hs' [Q1 Q2]]. rewrite Hh in F. clear Bd' U'.
  cbn [map app length Nat.add] in Q1, Q2. rewrite Q2 in Q1. cbv zeta in Q1. fold h' in Q1.
  eexists _, _. split; [exact Q1|]. split; [rewrite map_length; apply (honest2_len ws q [])|].
  destruct (snoc_cases ws) as [->|[ws0 [w ->]]]; [congruence|].
  assert (HV := fun b r => honest_verdict b r h 0%Z q (ws0 ++ [w])). cbv zeta in HV.
  rewrite honest2_snoc in *. set (q0 := fst (honest2 q [] ws0)) in *. set (l0 := snd (honest2 q [] ws0)) in *.
  set (c := new_rec2 (fst w) (snd w) (fst w * p_d1 q0) (last_hash2 l0)) in *. cbn [fst snd] in *.
  rewrite map_app. cbn [map]. rewrite last_snoc. intros SN.
  assert (Len0 : length l0 = k). { unfold l0, k. rewrite honest2_len, app_length. cbn [length]. lia. }
  assert (Lw : length (ws0 ++ [w]) = (length l0 + 1)%nat). { rewrite app_length. unfold l0. rewrite honest2_len. reflexivity. }
  assert (Q0 : q0 = upd_par2 (prodf ws0) q) by apply honest2_par.
  assert (HL : hash_off h' q k = (length (gob_hdr h') + length (par2_bytes (upd_par2 (fst w) q0)) + length (recs2_bytes l0) + 160)%nat).
  { unfold hash_off, head2. rewrite app_length, Q0, !par2_bytes_length. cbn [upd_par2 p_Z p_K]. rewrite !map_length.
    assert (RL : length (recs2_bytes l0) = (192 * k)%nat).
    { rewrite <- Len0. assert (HH : hashed2 l0) by (apply honest2_hashed; intros x []). revert HH. clear. induction l0 as [|a l0 IH]; intros HH; [reflexivity|].
      cbn [recs2_bytes flat_map length]. rewrite app_length. change (flat_map rec2_bytes l0) with (recs2_bytes l0).
      rewrite IH by (intros x Hx; apply HH; now right). unfold rec2_bytes. rewrite app_length, vals2_length, (HH a (or_introl eq_refl)). lia. }
    rewrite RL. lia. }
  assert (ST : straddles (file2 h' (upd_par2 (fst w) q0) (l0 ++ [c])) h' (upd_par2 (fst w) q0) l0 c j 0).
  { exists (par2_bytes (upd_par2 (fst w) q0)), (recs2_bytes l0), (enc_vals (rec2_vals c)), [].
    split. { unfold file2, head2. rewrite recs2_bytes_app, <- !app_assoc. cbn [recs2_bytes flat_map]. unfold rec2_bytes. rewrite !app_nil_r. reflexivity. }
    split; [apply par2_is|]. split. { rewrite Q0, upd_par2_upd. now apply sized2_upd. }
    split. { unfold h'. cbn [set_contribs h_contribs]. rewrite Lw, Nat.add_0_r. reflexivity. }
    split. { apply recs2_at_bytes; [apply honest2_hashed; intros x []|]. intros i Hi. rewrite Len0 in Hi. specialize (Uk i Hi).
      unfold hash_off, head2 in Uk. rewrite app_length, par2_bytes_length in Uk. rewrite par2_bytes_length, Q0. cbn [upd_par2 p_Z p_K]. rewrite !map_length. exact Uk. }
    split; [apply are_vals_enc|]. split; [apply new_rec2_hash|]. rewrite vals2_length, <- HL. split; [exact Mk|reflexivity]. }
  assert (HO' : hdr_ok h') by (apply hdr_ok_set; [exact HO|unfold int64; lia]).
  split.
  - intros bs' rho B'.
    destruct (c36_verify bs' rho _ f0 h' h _ q l0 [] c j 0 B' HO' HO ST F (new_rec2_good _ _ _ _) SN) as [e [Q EH]].
    rewrite Q. f_equal. f_equal. eapply EH. specialize (HV bs' rho ltac:(destruct ws0; discriminate)).
    assert (Hh0 : set_contribs h 0 = h) by (destruct h; cbn in *; now subst).
    rewrite Hh0, Lw in HV. unfold h'. rewrite set_set, Lw. rewrite HV.
    destruct (feqb (prodf (ws0 ++ [w])) 0) eqn:D0; [|reflexivity]. apply feqb_ok in D0. apply prodf_nz in NZ. contradiction.
  - intros bs' d s B'. assert (C32 : length (d_hash c) = 32%nat) by apply new_rec2_hash. clear Q1 Q2 HV HL. clearbody c j.
    assert (Cn : count_ok (h_contribs h')) by (unfold count_ok, h'; cbn [set_contribs h_contribs]; lia).
    pose proof (c36_contribute bs' d s _ f0 h' _ l0 c j B' HO' Cn ST) as Q. cbv zeta in Q.
    set (c' := new_rec2 d s _ _) in Q.
    eexists _, _, (l0 ++ [cut_hash j c]), c'. split; [exact Q|]. split; [|split; [|split]].
    + unfold h'. rewrite set_set. cbn [set_contribs h_contribs]. rewrite <- app_assoc. cbn [app]. rewrite Q0, !upd_par2_upd.
      clearbody c'. assert (PE : d * fst w * prodf ws0 = d * prodf (ws0 ++ [w])).
      { unfold prodf. rewrite map_app, prodl_app. cbn [map]. replace (prodl [fst w]) with (fst w) by (unfold prodl; cbn [fold_right]; ring). ring. }
      rewrite PE. reflexivity.
    + rewrite map_app. cbn [map]. intros X. apply app_inv_head in X. apply (f_equal (hd [])) in X. cbn [hd] in X.
      pose proof (straddle_range _ _ _ _ _ _ _ ST) as JR. assert (JR' : j <= 32) by lia. revert X. exact (cut_differs c j C32 JR' SN).
    + rewrite app_length, Lw. reflexivity.
    + reflexivity.
Qed.

(* some hash of every long enough file whose records are at an unlucky offset straddles *)
Lemma c36_period h (q : par2 E) : (32 < (length (head2 h q) + 160) mod 64)%nat ->
  exists k, (k < 64)%nat /\ (N.to_nat 4064 < hash_off h q k mod N.to_nat 4096)%nat.
Proof.
  set (L := (length (head2 h q) + 160)%nat). intros M.
  pose proof (Nat.div_mod L 64 ltac:(lia)) as D1. set (a := (L / 64)%nat) in *. set (b := (L mod 64)%nat) in *.
  assert (Hb : (b < 64)%nat) by (apply Nat.mod_upper_bound; lia).
  pose proof (Nat.div_mod a 64 ltac:(lia)) as D2. set (u := (a / 64)%nat) in *. set (v := (a mod 64)%nat) in *.
  assert (Hv : (v < 64)%nat) by (apply Nat.mod_upper_bound; lia).
  pose proof (Nat.div_mod ((127 - v) * 43) 64 ltac:(lia)) as D3. set (t := ((127 - v) * 43 / 64)%nat) in *.
  set (k := (((127 - v) * 43) mod 64)%nat) in *.
  assert (Hk : (k < 64)%nat) by (apply Nat.mod_upper_bound; lia).
  exists k. split; [exact Hk|].
  assert (HQ : exists z, (hash_off h q k = N.to_nat 4096 * z + (N.to_nat 4032 + b))%nat).
  { exists (Z.to_nat (Z.of_nat u - 2 * Z.of_nat v - 3 * Z.of_nat t + 255)). unfold hash_off.
    replace (length (head2 h q) + 192 * k + 160)%nat with (L + 192 * k)%nat by (unfold L; lia).
    clearbody L a b u v t k. lia. }
  destruct HQ as [z ->]. rewrite (Nat.mul_comm (N.to_nat 4096) z), Nat.add_comm, Nat.mod_add by lia.
  rewrite Nat.mod_small by lia. lia.
Qed.

(* ---- C39: undecodable parameters ---- *)
Lemma c39_swallow bs (rho : nat -> nat -> E) d g N e s e' s' : ev (aggregate bs rho N) s (Err e') s' none ->
  ev (verify_param bs rho d g N e) s (Ok tt) s' none.
Proof. intros H. unfold verify_param. eapply evb; [eapply ev_try_err; exact H|]. apply ev_ret. Qed.

(* 32 bytes that announce a compressed point but are none *)
Definition bad1 (b : bytes) : Prop := length b = 32%nat /\ compressed b = true /\ g1dc b = @None E.
End More.
