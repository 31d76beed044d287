(* Cut2.v -- phase1.Contribute on files that end early; records that are not there. *)
From Coq Require Import Ring Field.
From Verif Require Import Base Fld IO Ext Spec1 Phase1 Phase1Io Phase1Verify Phase1Trans Phase1Facts Phase1Inv Phase1More Phase1Claims Spec7 Cut1.
Local Open Scope fld_scope.

Section Copy.
Context {E : Ext}.
Add Field Kcut2 : (f_th E).

(* what the copying loop writes, and the last record if it gets to the end *)
Fixpoint copied (n : nat) (cur : contrib E) (rest : bytes) : bytes * option (contrib E) :=
  match n with
  | O => ([], Some cur)
  | S n' => let '(c, ok, rest') := take_rec cur rest in
      if ok : bool then let '(b, r) := copied n' c rest' in (rec_bytes c ++ b, r) else ([], None)
  end.
Lemma ev_copied h o file cap : bigcap cap -> cap mod 32 = 0%nat -> forall n cur p rest s, al p rest -> getr h s = at_ file cap p rest ->
  let '(b, r) := copied n cur rest in
  exists p' rest', ev (copy_contribs h o n cur) s (match r with Some c => Ok c | None => Err EEof end)
    (setr h (at_ file cap p' rest') s) (on o b).
Proof.
  intros Hc C32. induction n as [|n IH]; intros cur p rest s AL G; cbn [copied copy_contribs].
  - exists p, rest. apply ev_on_nil. rewrite <- G, setr_getr. apply ev_ret.
  - pose proof (ev_take_rec h file cap cur p rest s Hc C32 AL G) as D.
    destruct (take_rec cur rest) as [[c ok] r1]. destruct D as [p1 [A1 D]]. destruct ok.
    + specialize (IH c p1 r1 (setr h (at_ file cap p1 r1) s) A1 (getr_setr _ _ _)).
      destruct (copied n c r1) as [b r]. destruct IH as [p' [rest' IH]]. exists p', rest'.
      eapply evb; [exact D|]. cbv beta iota. eapply evw; [apply ev_write_contrib|]. now rewrite setr_setr in IH.
    + exists p1, r1. apply ev_on_nil. eapply evb; [exact D|]. apply ev_throw.
Qed.

Lemma contribute_bytes bs (w : rnd1) f p n (S : srs E) sb tail s :
  2 <= bs -> 1 <= p <= 62 -> (n < 65536)%N -> sized p S -> is_srs sb S ->
  f = b8 (N.of_nat p) :: be16 n ++ sb ++ tail -> getr false s = opened f ->
  let S' := upd_srs (r_tau w) (r_alpha w) (r_beta w) S in
  let out := b8 (N.of_nat p) :: be16 ((n + 1) mod 65536) ++ srs_bytes S' in
  let '(b, r) := copied (N.to_nat n) zero_contrib tail in
  exists s', ev (contribute bs w) s
    (match r with None => Err EEof | Some c => Ok (c_hash (first_rec bs w S' (c_hash c))) end) s'
    (on 0 (out ++ b ++ match r with None => [] | Some c => rec_bytes (first_rec bs w S' (c_hash c)) end)).
Proof.
  intros B2 [P1 P62] LN [Z1 [Z2 [Z3 Z4]]] IS Ef G S' out.
  destruct IS as [b1 [b2 [b3 [b4 [b5 [-> [I1 [I2 [I3 [I4 I5]]]]]]]]]].
  assert (N2 : 2 <= 2 ^ p) by (pose proof (Nat.pow_le_mono_r 2 1 p); cbn in *; lia).
  unfold opened in G. rewrite Ef in G at 2. unfold be16 in G. cbn [app] in G. repeat rewrite <- app_assoc in G.
  pose proof defBuf_big as DB.
  set (pos := (0 + length b1 + length b2 + length b3 + length b4 + length b5)%nat).
  assert (AL : al pos tail).
  { left. unfold pos. repeat apply mod32_add; eauto using are1_mod, are2_mod, is2_mod. }
  pose proof (ev_copied false 0 f defBuf DB defBuf_32 (N.to_nat n) zero_contrib pos tail
    (setr false (at_ f defBuf pos tail) s) AL (getr_setr _ _ _)) as CP.
  assert (C0 : n = 0%N -> copied (N.to_nat n) (@zero_contrib E) tail = ([], Some zero_contrib)) by (intros ->; reflexivity).
  destruct (copied (N.to_nat n) zero_contrib tail) as [b r]. destruct CP as [p' [rest' CP]]. rewrite setr_setr in CP.
  eexists. unfold contribute. eapply evb; [eapply ev_read_header; exact G|]. cbv beta iota. rewrite be16_val by auto.
  cbv zeta. rewrite count_tau, pow2_small by lia. rewrite count_back by auto.
  unfold out. rewrite app_comm_cons, <- app_assoc. 
  eapply evw; [apply ev_write_header|].
  eapply ev_newrd0; [apply getr_setr|]. rewrite setr_setr. apply ev_newwr, ev_with_flush.
  destruct w as [tau alpha beta st sa sb]. cbn [r_tau r_alpha r_beta r_st r_sa r_sb] in *.
  unfold srs_bytes. repeat rewrite <- app_assoc.
  eapply evw.
  { replace (enc1 (tau1 S')) with (enc1 (scaled (mulv None) tau 1 (tau1 S))) by (unfold S'; cbn [upd_srs tau1 mulv]; now rewrite scaled_tau).
    eapply scaleG1_ev; [exact B2|exact DB|now rewrite Z1|cbn [offv]; lia|exact I1|apply getr_setr]. }
  cbv beta. rewrite setr_setr.
  eapply evw.
  { replace (enc1 (alpha1 S')) with (enc1 (scaled (mulv (Some alpha)) tau 1 (alpha1 S))) by (unfold S'; cbn [upd_srs alpha1 mulv]; now rewrite scaled_mul).
    eapply scaleG1_ev; [exact B2|exact DB|now rewrite Z2|cbn [offv]; lia|exact I2|apply getr_setr]. }
  cbv beta. rewrite setr_setr.
  eapply evw.
  { replace (enc1 (beta1 S')) with (enc1 (scaled (mulv (Some beta)) tau 1 (beta1 S))) by (unfold S'; cbn [upd_srs beta1 mulv]; now rewrite scaled_mul).
    eapply scaleG1_ev; [exact B2|exact DB|now rewrite Z3|cbn [offv]; lia|exact I3|apply getr_setr]. }
  cbv beta. rewrite setr_setr.
  eapply evw.
  { replace (enc2 (tau2 S')) with (enc2 (scaled 1 tau 1 (tau2 S))) by (unfold S'; cbn [upd_srs tau2]; now rewrite scaled_tau).
    eapply scaleG2_ev; [exact B2|exact DB|now rewrite Z4|lia|exact I4|apply getr_setr]. }
  cbv beta. rewrite setr_setr.
  eapply evb; [eapply ev_decode2; [exact DB|exact I5|apply getr_setr]|]. cbv beta. rewrite setr_setr. fold pos.
  eapply evw.
  { replace (beta2 S') with (beta2 S * beta) by (unfold S'; cbn [upd_srs beta2]; ring). apply ev_write. }
  cbv beta. destruct r as [c|].
  2:{ rewrite app_nil_r. eapply ev_bind_err. exact CP. }
  eapply evw; [exact CP|]. cbv beta.
  assert (PH : (if (n =? 0)%N then [] else c_hash c) = c_hash c).
  { destruct (N.eqb_spec n 0) as [X|X]; [|reflexivity]. apply C0 in X. injection X as _ ->. reflexivity. }
  rewrite PH, !gen_key_spec.
  match goal with |- context [try (write_contrib 0 ?c1)] => assert (EC : c1 = first_rec bs (mkRnd1 tau alpha beta st sa sb) S' (c_hash c)) end.
  { unfold first_rec, signed_rec. cbn [r_tau r_alpha r_beta r_st r_sa r_sb]. rewrite hash_vals.
    unfold S'. cbn [upd_srs tau1 alpha1 beta1 tau2 beta2 mulv offv]. rewrite <- !scaled_tau, <- !scaled_mul.
    replace (beta2 S * beta) with (beta * beta2 S) by ring.
    reflexivity. }
  rewrite EC. set (cc := first_rec _ _ _ _).
  rewrite <- (app_nil_r (rec_bytes cc)).
  eapply evw; [apply ev_try_ok, ev_write_contrib|]. apply ev_on_nil, ev_ret.
Qed.
End Copy.

Section Accept.
Context {E : Ext}.
Add Field Kcut3 : (f_th E).

Lemma orBoom_inv {X Y} (o : option X) (f : X -> io Y) s y s' d : ev (orBoom o f) s (Ok y) s' d -> exists x, o = Some x /\ ev (f x) s (Ok y) s' d.
Proof. destruct o as [x|]; cbn [orBoom]; [eauto|]. intros [w [H _]]. discriminate. Qed.

Lemma scale_loop_inv bs dec P enc h o file cap (tau : E) mul : 1 <= bs -> dec_inv dec P h file cap ->
  forall fuel rem p rest s buff first start v s' d, rem <= fuel -> getr h s = at_ file cap p rest ->
  ev (scale_loop bs dec enc o tau mul fuel rem buff first start) s (Ok v) s' d ->
  exists l b t, rest = b ++ t /\ parses P b l /\ length l = rem /\ s' = setr h (at_ file cap (p + length b) t) s.
Proof.
  intros B1 D. induction fuel as [|fuel IH]; intros rem p rest s buff first start v s' d F G H.
  - assert (rem = 0)%nat by lia. subst rem. cbn [scale_loop] in H. apply ret_inv in H as [_ ->]. exists [], [], rest.
    split; [auto|]. split; [constructor|]. split; [auto|]. cbn [length]. now rewrite Nat.add_0_r, <- G, setr_getr.
  - destruct rem as [|m].
    { cbn [scale_loop] in H. apply ret_inv in H as [_ ->]. exists [], [], rest.
      split; [auto|]. split; [constructor|]. split; [auto|]. cbn [length]. now rewrite Nat.add_0_r, <- G, setr_getr. }
    cbn [scale_loop] in H. set (rem := S m) in *. assert (HR : 1 <= rem) by (unfold rem; lia). clearbody rem.
    apply bind_ok_inv in H as [pts [s1 [d1 [d2 [H1 [H2 _]]]]]].
    destruct (D _ _ _ _ _ _ _ G H1) as [b1 [u1 [-> [I1 [N1 ->]]]]].
    cbv beta zeta in H2. apply orBoom_inv in H2 as [sc [_ H2]]. apply orBoom_inv in H2 as [lst [_ H2]].
    apply orBoom_inv in H2 as [sc2 [_ H2]]. apply orBoom_inv in H2 as [bf [_ H2]].
    apply bind_ok_inv in H2 as [[] [s2 [d3 [d4 [H3 [H2 _]]]]]].
    destruct (ev_det _ _ _ _ _ _ _ _ H3 (ev_encodes _ _ _)) as [_ [-> _]]. clear H3.
    assert (FU : rem - Nat.min rem bs <= fuel) by lia.
    assert (Q : exists first', ev (scale_loop bs dec enc o tau mul fuel (rem - Nat.min rem bs) bf first' (lst * tau))
       (setr h (at_ file cap (p + length b1) u1) s) (Ok v) s' d4).
    { destruct (feqb first 0); [|eauto]. apply orBoom_inv in H2 as [x [_ H2]]. eauto. }
    destruct Q as [first' Q].
    destruct (IH _ _ _ _ _ _ _ _ _ _ FU (getr_setr _ _ _) Q) as [l2 [b2 [u2 [-> [I2 [N2 ->]]]]]].
    exists (pts ++ l2), (b1 ++ b2), u2. rewrite app_assoc. split; [auto|]. split; [now apply parses_app|].
    split; [rewrite app_length; lia|]. now rewrite setr_setr, app_length, Nat.add_assoc.
Qed.
Lemma scaleG1_inv bs h o file cap N (tau : E) mul p rest s v s' d : 1 <= bs -> bigcap cap -> getr h s = at_ file cap p rest ->
  ev (scaleG1 bs h o N tau mul) s (Ok v) s' d ->
  (0 <= N)%Z /\ exists (l : list E) b t, rest = b ++ t /\ are1 b l /\ length l = Z.to_nat N /\ s' = setr h (at_ file cap (p + length b) t) s.
Proof.
  intros B1 C G H. unfold scaleG1, scale in H. destruct (Z.ltb_spec N 0).
  { destruct H as [w [H _]]. discriminate. }
  split; [auto|]. eapply (scale_loop_inv bs (decodes1 h) is1); eauto. now apply decodes1_inv.
Qed.
Lemma scaleG2_inv bs h o file cap N (tau : E) p rest s v s' d : 1 <= bs -> bigcap cap -> getr h s = at_ file cap p rest ->
  ev (scaleG2 bs h o N tau) s (Ok v) s' d ->
  (0 <= N)%Z /\ exists (l : list E) b t, rest = b ++ t /\ are2 b l /\ length l = Z.to_nat N /\ s' = setr h (at_ file cap (p + length b) t) s.
Proof.
  intros B1 C G H. unfold scaleG2, scale in H. destruct (Z.ltb_spec N 0).
  { destruct H as [w [H _]]. discriminate. }
  split; [auto|]. eapply (scale_loop_inv bs (decodes2 h) is2); eauto. now apply decodes2_inv.
Qed.

(* if Contribute gets through the parameters, they were all there *)
Lemma contribute_ok_inv bs (w : rnd1) f g h out0 : 1 <= bs -> exec (contribute (E := E) bs w) f g = (Ok h, out0) ->
  exists p n (s : srs E) sb tail, p <= 62 /\ (n < 65536)%N /\ f = b8 (N.of_nat p) :: be16 n ++ sb ++ tail /\ sized p s /\ is_srs sb s.
Proof.
  intros B1 H. apply exec_ev in H as [s' [D [H _]]]. unfold contribute in H.
  apply bind_ok_inv in H as [[pw n] [s1 [d1 [d2 [H1 [H _]]]]]].
  apply read_header_inv with (f := f) in H1; [|reflexivity]. destruct H1 as [t [-> [Hn Hf]]].
  cbv beta iota zeta in H. apply bind_ok_inv in H as [[] [s2 [d3 [d4 [H1 [H _]]]]]].
  destruct (ev_det _ _ _ _ _ _ _ _ H1 (ev_write_header _ _ _ _)) as [_ [-> _]]. clear H1.
  assert (NR : forall X (q : io X) r s2 d, ev (NewRd false defBuf (NewWr 0 defBuf (with_flush 0 q))) (setr false (at_ f 0 0 t) (opened f, opened g)) r s2 d ->
    ev q (setr false (at_ f defBuf 0 t) (opened f, opened g)) r s2 d).
  { intros X q r s2 d [v [Q1 Q2]]. exists v. split; [|exact Q2]. cbn [run] in Q1. rewrite getr_setr, setr_setr, rd_buf_at, run_with_flush in Q1. exact Q1. }
  apply NR in H. clear NR. pose proof defBuf_big as BB. destruct w as [tau alpha beta st sa sbb].
  apply bind_ok_inv in H as [x1 [s3 [d5 [d6 [H1 [H _]]]]]].
  destruct (scaleG1_inv _ _ _ _ _ _ _ _ _ _ _ _ _ _ B1 BB (getr_setr _ _ _) H1) as [P1 [l1 [b1 [t1 [-> [I1 [N1 ->]]]]]]]. clear H1. cbv beta iota in H.
  apply bind_ok_inv in H as [x3 [s4 [d7 [d8 [H1 [H _]]]]]].
  destruct (scaleG1_inv _ _ _ _ _ _ _ _ _ _ _ _ _ _ B1 BB (getr_setr _ _ _) H1) as [P2 [l2 [b2 [t2 [-> [I2 [N2 ->]]]]]]]. clear H1. cbv beta iota in H.
  apply bind_ok_inv in H as [x5 [s5 [d9 [d10 [H1 [H _]]]]]].
  destruct (scaleG1_inv _ _ _ _ _ _ _ _ _ _ _ _ _ _ B1 BB (getr_setr _ _ _) H1) as [P3 [l3 [b3 [t3 [-> [I3 [N3 ->]]]]]]]. clear H1. cbv beta iota in H.
  apply bind_ok_inv in H as [x7 [s6 [d11 [d12 [H1 [H _]]]]]].
  destruct (scaleG2_inv _ _ _ _ _ _ _ _ _ _ _ _ _ B1 BB (getr_setr _ _ _) H1) as [P4 [l4 [b4 [t4 [-> [I4 [N4 ->]]]]]]]. clear H1. cbv beta iota in H.
  apply bind_ok_inv in H as [bt [s7 [d13 [d14 [H1 [H _]]]]]].
  destruct (decode2_ok_inv _ _ _ _ _ _ _ _ _ BB (getr_setr _ _ _) H1) as [b5 [t5 [-> [I5 ->]]]]. clear H1 H.
  assert (Hp : (bN pw <= 62)%N).
  { destruct (N.le_gt_cases (bN pw) 62); [auto|]. pose proof (pow2_neg pw). lia. }
  assert (Hpw : b8 (N.of_nat (N.to_nat (bN pw))) = pw) by (rewrite N2Nat.id; apply b8_bN).
  set (p := N.to_nat (bN pw)) in *. assert (p62 : p <= 62) by (unfold p; lia).
  rewrite <- Hpw in P1, P2, P3, P4, N1, N2, N3, N4. rewrite count_tau in N1 by auto. rewrite pow2_small in N2, N3, N4 by auto.
  rewrite Nat2Z.id in N1, N2, N3, N4. pose proof (pow2_pos p) as PP.
  exists p, n, (mkSrs l1 l2 l3 l4 bt), (b1 ++ b2 ++ b3 ++ b4 ++ b5), t5.
  split; [auto|]. split; [auto|].
  assert (F3 : f = pw :: be16 n ++ b1 ++ b2 ++ b3 ++ b4 ++ b5 ++ t5).
  { destruct Hf as [Hf|[_ Hf]]; [exact Hf|]. exfalso. destruct b1; [|discriminate].
    apply parses_nil_l in I1; [subst l1; cbn in N1; lia|]. intros x [[X _]|[X _]]; discriminate. }
  split; [rewrite Hpw, F3; now rewrite <- !app_assoc|].
  split; [repeat split; auto|]. exists b1, b2, b3, b4, b5. split; [reflexivity|auto].
Qed.
End Accept.

Section Records.
Context {E : Ext}.

Lemma take1_true (old : E) rest x t : take1 old rest = (x, true, t) -> exists b, rest = b ++ t /\ is1 b x.
Proof.
  unfold take1. destruct (Nat.ltb_spec (length rest) 32); [discriminate|]. cbv zeta.
  destruct (compressed (firstn 32 rest)) eqn:C.
  - destruct (g1dc (firstn 32 rest)) as [y|] eqn:D; [|discriminate]. intros H0. injection H0 as -> <-.
    exists (firstn 32 rest). split; [now rewrite firstn_skipn|]. left. rewrite firstn_length. repeat split; auto. lia.
  - destruct (Nat.ltb_spec (length (skipn 32 rest)) 32) as [|L]; [discriminate|]. rewrite skipn_length in L.
    destruct (g1dr _) as [y|] eqn:D; [|discriminate]. intros H0. injection H0 as -> <-.
    exists (firstn 32 rest ++ firstn 32 (skipn 32 rest)). split; [now rewrite <- app_assoc, !firstn_skipn|].
    right. rewrite app_length, !firstn_length, skipn_length. split; [lia|]. split; [|exact D].
    rewrite compressed_app; [exact C|]. intros X. apply (f_equal (@length _)) in X. rewrite firstn_length in X. cbn [length] in X. lia.
Qed.
Lemma take2_true (old : E) rest x t : take2 old rest = (x, true, t) -> exists b, rest = b ++ t /\ is2 b x.
Proof.
  unfold take2. destruct (Nat.ltb_spec (length rest) 64); [discriminate|]. cbv zeta.
  destruct (compressed (firstn 64 rest)) eqn:C.
  - destruct (g2dc (firstn 64 rest)) as [y|] eqn:D; [|discriminate]. intros H0. injection H0 as -> <-.
    exists (firstn 64 rest). split; [now rewrite firstn_skipn|]. left. rewrite firstn_length. repeat split; auto. lia.
  - destruct (Nat.ltb_spec (length (skipn 64 rest)) 64) as [|L]; [discriminate|]. rewrite skipn_length in L.
    destruct (g2dr _) as [y|] eqn:D; [|discriminate]. intros H0. injection H0 as -> <-.
    exists (firstn 64 rest ++ firstn 64 (skipn 64 rest)). split; [now rewrite <- app_assoc, !firstn_skipn|].
    right. rewrite app_length, !firstn_length, skipn_length. split; [lia|]. split; [|exact D].
    rewrite compressed_app; [exact C|]. intros X. apply (f_equal (@length _)) in X. rewrite firstn_length in X. cbn [length] in X. lia.
Qed.
Lemma take_fields_true : forall fs (c : contrib E) rest c' t, take_fields fs c rest = (c', true, t) ->
  exists vs b, set_fields fs vs c = Some c' /\ are_vals b vs /\ rest = b ++ t.
Proof.
  induction fs as [|f fs IH]; intros c rest c' t H; cbn [take_fields] in H.
  - injection H as <- <-. exists [], []. split; [reflexivity|]. split; [constructor|reflexivity].
  - destruct f as [g st|g st].
    + destruct (take1 (g c) rest) as [[x ok] r1] eqn:T. destruct ok; [|discriminate].
      apply take1_true in T as [b1 [-> I1]]. apply IH in H as [vs [b [S0 [A ->]]]].
      exists (inl x :: vs), (b1 ++ b). split; [exact S0|]. split; [constructor; auto|apply app_assoc].
    + destruct (take2 (g c) rest) as [[x ok] r1] eqn:T. destruct ok; [|discriminate].
      apply take2_true in T as [b1 [-> I1]]. apply IH in H as [vs [b [S0 [A ->]]]].
      exists (inr x :: vs), (b1 ++ b). split; [exact S0|]. split; [constructor; auto|apply app_assoc].
Qed.
Lemma set_fields_vals (vs : list (E + E)) (c c' : contrib E) : set_fields toDecode vs c = Some c' -> vs = rec_vals c'.
Proof.
  unfold toDecode.
  do 14 (destruct vs as [|[?|?] vs]; try discriminate; cbn [set_fields p_tau1 p_alpha1 p_beta1 p_tau2 p_beta2 p_ktS p_ktSX p_ktSPX p_kaS p_kaSX p_kaSPX p_kbS p_kbSX p_kbSPX]).
  destruct vs; [|discriminate]. intros H. injection H as <-. reflexivity.
Qed.
(* a record that is read without an error is there, up to the last bytes of its hash *)
Lemma take_rec_true (c : contrib E) rest c' t : take_rec c rest = (c', true, t) ->
  (exists b, rest = b ++ t /\ is_rec b c') \/
  (exists z, t = [] /\ 1 <= z <= 31 /\ is_rec (rest ++ repeat x00 z) c').
Proof.
  unfold take_rec. destruct (take_fields toDecode c rest) as [[c1 ok] r] eqn:T. destruct ok; [|discriminate].
  apply take_fields_true in T as [vs [b [S0 [A ->]]]]. apply set_fields_vals in S0. subst vs.
  destruct r as [|x0 r0] eqn:R; [discriminate|]. rewrite <- R. assert (L0 : 1 <= length r) by (rewrite R; cbn; lia). clear R x0 r0.
  intros H. pose proof (f_equal (fun q => fst (fst q)) H) as H1. pose proof (f_equal snd H) as H2. cbn [fst snd] in H1, H2.
  clear H. subst c' t. destruct (Nat.le_gt_cases 32 (length r)) as [L|L].
  - left. exists (b ++ firstn 32 r). split; [now rewrite <- app_assoc, firstn_skipn|]. exists b.
    assert (HH : forall h, c_hash (s_hash c1 h) = h) by reflexivity. rewrite HH.
    rewrite firstn_length. replace (Nat.min 32 (length r)) with 32%nat by lia.
    change (skipn 32 zeros32) with (@nil byte). rewrite app_nil_r. split; [reflexivity|]. split; [exact A|]. rewrite firstn_length. lia.
  - right. exists (32 - length r)%nat. split; [apply skipn_all2; lia|]. split; [lia|].
    exists b. assert (HH : forall h, c_hash (s_hash c1 h) = h) by reflexivity. rewrite HH. rewrite (firstn_all2 (n := 32)) by lia.
    unfold zeros32. rewrite skipn_repeat, <- app_assoc. split; [reflexivity|]. split; [exact A|].
    rewrite app_length, repeat_length. lia.
Qed.
Lemma copied_true : forall n (cur : contrib E) rest b c, copied n cur rest = (b, Some c) ->
  exists l rb junk z, rest ++ repeat x00 z = rb ++ junk /\ are_recs rb l /\ length l = n /\ z < 32 /\ (l = [] -> z = 0%nat) /\
    b = recs_bytes l /\ c = last l cur.
Proof.
  induction n as [|n IH]; intros cur rest b c H; cbn [copied] in H.
  - injection H as <- <-. exists [], [], rest, 0%nat. cbn [repeat]. rewrite app_nil_r.
    split; [reflexivity|]. split; [constructor|]. split; [reflexivity|]. split; [lia|]. split; [reflexivity|]. split; reflexivity.
  - destruct (take_rec cur rest) as [[c1 ok] r1] eqn:T. destruct ok; [|discriminate].
    destruct (copied n c1 r1) as [b1 r] eqn:C. injection H as <- ->.
    apply take_rec_true in T as [[b0 [-> R0]]|[z [-> [Z R0]]]].
    + apply IH in C as [l [rb [junk [z [Q [A [L [Z [Z0 [-> ->]]]]]]]]]].
      exists (c1 :: l), (b0 ++ rb), junk, z. split; [rewrite <- !app_assoc; now rewrite Q|]. split; [constructor; auto|].
      split; [cbn; lia|]. split; [exact Z|]. split; [discriminate|]. split; [reflexivity|]. now rewrite last_cons_d.
    + destruct n as [|n].
      2:{ cbn [copied] in C. rewrite take_rec_nil in C. discriminate. }
      injection C as <- <-. exists [c1], (rest ++ repeat x00 z), [], z. rewrite app_nil_r. split; [reflexivity|].
      split; [rewrite <- (app_nil_r (rest ++ _)); constructor; [exact R0|constructor]|]. split; [reflexivity|]. split; [lia|].
      split; [discriminate|]. split; [|reflexivity]. cbn [recs_bytes flat_map]. reflexivity.
Qed.
(* and conversely *)
Lemma copied_is : forall (l : list (contrib E)) rb cur t, are_recs rb l -> copied (length l) cur (rb ++ t) = (recs_bytes l, Some (last l cur)).
Proof.
  induction l as [|r l IH]; intros rb cur t A.
  - inversion A. reflexivity.
  - inversion A as [|b1 r' t1 l' R A']; subst. cbn [length copied]. rewrite <- app_assoc, (take_rec_is b1 r) by auto.
    rewrite (IH t1 r t A'). now rewrite last_cons_d.
Qed.
End Records.
