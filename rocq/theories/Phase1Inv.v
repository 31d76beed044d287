(* Phase1Inv.v -- what follows from p1v accepting arbitrary bytes; corner cases of phase 1. *)
From Coq Require Import Ring Field.
From Verif Require Import Base Fld Conc Parallel IO Ext Spec1 Phase1 Phase1Io Phase1Verify Phase1Trans Phase1Facts.
Local Open Scope fld_scope.
Local Open Scope io_scope.

Section Inv.
Context {E : Ext}.
Add Field Kfld7 : (f_th E).

Lemma decode1_ok_inv h file cap p rest s (x : E) s' d : bigcap cap -> getr h s = at_ file cap p rest ->
  ev (decode1 h) s (Ok x) s' d -> exists b t, rest = b ++ t /\ is1 b x /\ s' = setr h (at_ file cap (p + length b) t) s.
Proof.
  intros C G H. destruct (decode1_cases (E := E) h file cap p rest s C G) as [[b [y [t [A [B D]]]]]|[e [p' [t [D _]]]]];
    destruct (ev_det _ _ _ _ _ _ _ _ H D) as [Q1 [Q2 _]]; [|discriminate].
  injection Q1 as <-. eauto.
Qed.
Lemma decode2_ok_inv h file cap p rest s (x : E) s' d : bigcap cap -> getr h s = at_ file cap p rest ->
  ev (decode2 h) s (Ok x) s' d -> exists b t, rest = b ++ t /\ is2 b x /\ s' = setr h (at_ file cap (p + length b) t) s.
Proof.
  intros C G H. destruct (decode2_cases (E := E) h file cap p rest s C G) as [[b [y [t [A [B D]]]]]|[e [p' [t [D _]]]]];
    destruct (ev_det _ _ _ _ _ _ _ _ H D) as [Q1 [Q2 _]]; [|discriminate].
  injection Q1 as <-. eauto.
Qed.
Lemma ret_inv {X} (a b : X) s s' d : ev (Ret a) s (Ok b) s' d -> a = b /\ s' = s.
Proof. intros [w [H _]]. cbn in H. injection H as -> -> <-. auto. Qed.

Definition dec_inv (dec : nat -> io (list E)) (P : bytes -> E -> Prop) (h : bool) file cap : Prop :=
  forall n p rest s l s' d, getr h s = at_ file cap p rest -> ev (dec n) s (Ok l) s' d ->
    exists b t, rest = b ++ t /\ parses P b l /\ length l = n /\ s' = setr h (at_ file cap (p + length b) t) s.
Lemma decodes1_inv h file cap : bigcap cap -> dec_inv (decodes1 h) is1 h file cap.
Proof.
  intros C. intros n. induction n as [|n IH]; intros p rest s l s' d G H; cbn [decodes1] in H.
  - apply ret_inv in H as [<- ->]. exists [], rest. split; [auto|]. split; [constructor|]. split; [auto|].
    cbn [length]. now rewrite Nat.add_0_r, <- G, setr_getr.
  - apply bind_ok_inv in H as [x [s1 [d1 [d2 [H1 [H2 _]]]]]].
    destruct (decode1_ok_inv h file cap p rest s x s1 d1 C G H1) as [b1 [t1 [-> [I1 ->]]]].
    apply bind_ok_inv in H2 as [l2 [s2 [d3 [d4 [H2 [H3 _]]]]]].
    destruct (IH _ _ _ _ _ _ (getr_setr _ _ _) H2) as [b2 [t2 [-> [I2 [L2 ->]]]]].
    apply ret_inv in H3 as [<- ->]. exists (b1 ++ b2), t2. rewrite app_assoc. split; [auto|].
    split; [now constructor|]. split; [cbn; lia|]. now rewrite setr_setr, app_length, Nat.add_assoc.
Qed.
Lemma decodes2_inv h file cap : bigcap cap -> dec_inv (decodes2 h) is2 h file cap.
Proof.
  intros C. intros n. induction n as [|n IH]; intros p rest s l s' d G H; cbn [decodes2] in H.
  - apply ret_inv in H as [<- ->]. exists [], rest. split; [auto|]. split; [constructor|]. split; [auto|].
    cbn [length]. now rewrite Nat.add_0_r, <- G, setr_getr.
  - apply bind_ok_inv in H as [x [s1 [d1 [d2 [H1 [H2 _]]]]]].
    destruct (decode2_ok_inv h file cap p rest s x s1 d1 C G H1) as [b1 [t1 [-> [I1 ->]]]].
    apply bind_ok_inv in H2 as [l2 [s2 [d3 [d4 [H2 [H3 _]]]]]].
    destruct (IH _ _ _ _ _ _ (getr_setr _ _ _) H2) as [b2 [t2 [-> [I2 [L2 ->]]]]].
    apply ret_inv in H3 as [<- ->]. exists (b1 ++ b2), t2. rewrite app_assoc. split; [auto|].
    split; [now constructor|]. split; [cbn; lia|]. now rewrite setr_setr, app_length, Nat.add_assoc.
Qed.

Lemma lincomb_loop_inv bs dec P h file cap (rho : nat -> nat -> E) : 1 <= bs -> dec_inv dec P h file cap ->
  forall fuel rem p rest s r L1 L2 t1 t2 v s' d, rem <= fuel -> getr h s = at_ file cap p rest ->
  ev (lincomb_loop bs dec rho fuel rem r L1 L2 t1 t2) s (Ok v) s' d ->
  exists l b t, rest = b ++ t /\ parses P b l /\ length l = rem /\ s' = setr h (at_ file cap (p + length b) t) s.
Proof.
  intros B1 D. induction fuel as [|fuel IH]; intros rem p rest s r L1 L2 t1 t2 v s' d F G H.
  - assert (rem = 0)%nat by lia. subst rem. cbn [lincomb_loop] in H. apply ret_inv in H as [_ ->]. exists [], [], rest.
    split; [auto|]. split; [constructor|]. split; [auto|]. cbn [length]. now rewrite Nat.add_0_r, <- G, setr_getr.
  - destruct rem as [|m].
    { cbn [lincomb_loop] in H. apply ret_inv in H as [_ ->]. exists [], [], rest.
      split; [auto|]. split; [constructor|]. split; [auto|]. cbn [length]. now rewrite Nat.add_0_r, <- G, setr_getr. }
    cbn [lincomb_loop] in H. set (rem := S m) in *. assert (HR : 1 <= rem) by (unfold rem; lia). clearbody rem.
    apply bind_ok_inv in H as [pts [s1 [d1 [d2 [H1 [H2 _]]]]]].
    destruct (D _ _ _ _ _ _ _ G H1) as [b1 [u1 [-> [I1 [N1 ->]]]]].
    cbv beta in H2. unfold randomize in H2. rewrite par_cells_spec in H2 by apply ncpu_pos. cbn [orBoom] in H2.
    assert (FU : rem - Nat.min rem bs <= fuel) by lia.
    destruct (IH _ _ _ _ _ _ _ _ _ _ _ _ FU (getr_setr _ _ _) H2) as [l2 [b2 [u2 [-> [I2 [N2 ->]]]]]].
    exists (pts ++ l2), (b1 ++ b2), u2. rewrite app_assoc. split; [auto|]. split; [now apply parses_app|].
    split; [rewrite app_length; lia|]. now rewrite setr_setr, app_length, Nat.add_assoc.
Qed.
Lemma lincombG1_inv bs h file cap (rho : nat -> nat -> E) N p rest s v s' d : 1 <= bs -> bigcap cap -> getr h s = at_ file cap p rest ->
  ev (linearCombinationG1 bs h rho N) s (Ok v) s' d ->
  (0 <= N)%Z /\ exists (l : list E) b t, rest = b ++ t /\ are1 b l /\ length l = Z.to_nat N /\ s' = setr h (at_ file cap (p + length b) t) s.
Proof.
  intros B1 C G H. unfold linearCombinationG1, lincomb in H. destruct (Z.ltb_spec N 0).
  { destruct H as [w [H _]]. discriminate. }
  split; [auto|]. eapply (lincomb_loop_inv bs (decodes1 h) is1); eauto. now apply decodes1_inv.
Qed.
Lemma lincombG2_inv bs h file cap (rho : nat -> nat -> E) N p rest s v s' d : 1 <= bs -> bigcap cap -> getr h s = at_ file cap p rest ->
  ev (linearCombinationG2 bs h rho N) s (Ok v) s' d ->
  (0 <= N)%Z /\ exists (l : list E) b t, rest = b ++ t /\ are2 b l /\ length l = Z.to_nat N /\ s' = setr h (at_ file cap (p + length b) t) s.
Proof.
  intros B1 C G H. unfold linearCombinationG2, lincomb in H. destruct (Z.ltb_spec N 0).
  { destruct H as [w [H _]]. discriminate. }
  split; [auto|]. eapply (lincomb_loop_inv bs (decodes2 h) is2); eauto. now apply decodes2_inv.
Qed.

Lemma read_header_inv h f s pw n s' d : getr h s = opened f -> ev (read_header h) s (Ok (pw, n)) s' d ->
  exists t, s' = setr h (at_ f 0 0 t) s /\ (n < 65536)%N /\
    (f = pw :: be16 n ++ t \/ f = [pw; b8 (n / 256)] /\ t = []).
Proof.
  intros G [w [H _]]. unfold read_header in H. cbn [run] in H. rewrite G in H. unfold opened, at_, rd_read in H.
  cbn [r_cap r_rest Nat.eqb] in H. destruct f as [|a f]; [discriminate|]. cbn in H. rewrite getr_setr in H. cbn in H.
  assert (R : forall c0 c1 : byte, (bN c0 * 256 + bN c1 < 65536)%N).
  { intros c0 c1. pose proof (bN_lt c0). pose proof (bN_lt c1). lia. }
  assert (Q : forall c0 c1 : byte, be16 (bN c0 * 256 + bN c1) = [c0; c1]).
  { intros c0 c1. unfold be16. pose proof (bN_lt c0). pose proof (bN_lt c1).
    assert (X : ((bN c0 * 256 + bN c1) / 256 = bN c0)%N) by (rewrite N.div_add_l by lia; rewrite N.div_small by lia; lia).
    rewrite X, b8_bN. f_equal. f_equal. apply bN_inj. rewrite bN_b8.
    rewrite N.add_comm, N.mod_add by lia. now apply N.mod_small. }
  destruct f as [|c0 f]; [discriminate|]. destruct f as [|c1 f]; cbn in H; injection H as <- <- <- <-.
  - exists []. rewrite setr_setr. split; [reflexivity|]. split; [apply (R c0 (b8 0))|]. right. split; [|auto].
    f_equal. f_equal. rewrite N.div_add_l by lia. rewrite N.div_small by reflexivity. rewrite N.add_0_r. now rewrite b8_bN.
  - exists f. rewrite setr_setr. split; [reflexivity|]. split; [apply R|]. left. now rewrite Q.
Qed.

Lemma pow2_neg pw : (62 < bN pw)%N -> (wrap64 (2 * pow2 pw - 1) < 0)%Z.
Proof.
  intros H. unfold pow2. destruct (N.ltb_spec (bN pw) 63); [lia|]. reflexivity.
Qed.

(* acceptance of arbitrary bytes *)
Lemma verify_ok_inv bs (rho : nat -> nat -> nat -> E) trans f g hs out0 : 1 <= bs ->
  exec (verify bs rho trans) f g = (Ok hs, out0) ->
  exists p n (s : srs E) sb tail o, p <= 62 /\ (n < 65536)%N /\ f = b8 (N.of_nat p) :: be16 n ++ sb ++ tail /\
    sized p s /\ is_srs sb s /\ fst (exec (default_contrib trans) [] g) = Ok o /\
    let cs := take_chain (N.to_nat n) zero_contrib tail in
    chain_err o cs = None /\ hs = map c_hash cs /\ beta2 s = c_beta2 (last cs zero_contrib).
Proof.
  intros B1 H. apply exec_ev in H as [s' [D [H _]]]. unfold verify in H.
  apply bind_ok_inv in H as [[pw n] [s1 [d1 [d2 [H1 [H _]]]]]].
  apply read_header_inv with (f := f) in H1; [|reflexivity]. destruct H1 as [t [-> [Hn Hf]]].
  cbv beta iota zeta in H.
  assert (NR : forall X (q : io X) r s2 d, ev (NewRd false bigBuf q) (setr false (at_ f 0 0 t) (opened f, opened g)) r s2 d ->
    ev q (setr false (at_ f bigBuf 0 t) (opened f, opened g)) r s2 d).
  { intros X q r s2 d [w [Q1 Q2]]. exists w. split; [|exact Q2]. cbn [run] in Q1. rewrite getr_setr, setr_setr, rd_buf_at in Q1. exact Q1. }
  apply NR in H. clear NR. pose proof bigBuf_big as BB.
  apply bind_ok_inv in H as [[x1 x2] [s2 [d3 [d4 [H1 [H _]]]]]].
  destruct (lincombG1_inv _ _ _ _ _ _ _ _ _ _ _ _ B1 BB (getr_setr _ _ _) H1) as [P1 [l1 [b1 [t1 [-> [I1 [N1 ->]]]]]]]. clear H1. cbv beta iota in H.
  apply bind_ok_inv in H as [[x3 x4] [s3 [d5 [d6 [H1 [H _]]]]]].
  destruct (lincombG1_inv _ _ _ _ _ _ _ _ _ _ _ _ B1 BB (getr_setr _ _ _) H1) as [P2 [l2 [b2 [t2 [-> [I2 [N2 ->]]]]]]]. clear H1. cbv beta iota in H.
  apply bind_ok_inv in H as [[x5 x6] [s4 [d7 [d8 [H1 [H _]]]]]].
  destruct (lincombG1_inv _ _ _ _ _ _ _ _ _ _ _ _ B1 BB (getr_setr _ _ _) H1) as [P3 [l3 [b3 [t3 [-> [I3 [N3 ->]]]]]]]. clear H1. cbv beta iota in H.
  apply bind_ok_inv in H as [[x7 x8] [s5 [d9 [d10 [H1 [H _]]]]]].
  destruct (lincombG2_inv _ _ _ _ _ _ _ _ _ _ _ _ B1 BB (getr_setr _ _ _) H1) as [P4 [l4 [b4 [t4 [-> [I4 [N4 ->]]]]]]]. clear H1. cbv beta iota in H.
  apply bind_ok_inv in H as [bt [s6 [d11 [d12 [H1 [H _]]]]]].
  destruct (decode2_ok_inv _ _ _ _ _ _ _ _ _ BB (getr_setr _ _ _) H1) as [b5 [t5 [-> [I5 ->]]]]. clear H1. cbv beta iota in H.
  apply bind_ok_inv in H as [o [s7 [d13 [d14 [HO [H _]]]]]].
  pose proof (uses_other true _ (uses_default trans) _ _ _ _ HO) as UF. cbn [negb] in UF.
  assert (Hp : (bN pw <= 62)%N).
  { destruct (N.le_gt_cases (bN pw) 62); [auto|]. pose proof (pow2_neg pw). lia. }
  assert (Hpw : b8 (N.of_nat (N.to_nat (bN pw))) = pw) by (rewrite N2Nat.id; apply b8_bN).
  set (p := N.to_nat (bN pw)) in *. assert (p62 : p <= 62) by (unfold p; lia).
  rewrite <- Hpw in P1, P2, P3, P4, N1, N2, N3, N4. rewrite count_tau in N1 by auto. rewrite pow2_small in N2, N3, N4 by auto.
  rewrite Nat2Z.id in N1, N2, N3, N4. pose proof (pow2_pos p) as PP.
  assert (F3 : f = pw :: be16 n ++ b1 ++ b2 ++ b3 ++ b4 ++ b5 ++ t5).
  { destruct Hf as [Hf|[_ Hf]]; [exact Hf|]. exfalso. destruct b1; [|discriminate].
    apply parses_nil_l in I1; [subst l1; cbn in N1; lia|]. intros x [[X _]|[X _]]; discriminate. }
  rewrite !setr_setr in UF. rewrite getr_setr in UF.
  cbv beta in H. apply bind_ok_inv in H as [[cur hs'] [s8 [d15 [d16 [HV [H _]]]]]]. cbv beta iota in H.
  assert (AL : al (0 + length b1 + length b2 + length b3 + length b4 + length b5) t5).
  { left. repeat apply mod32_add; eauto using are1_mod, are2_mod, is2_mod. }
  destruct (ev_verify_chain f bigBuf BB bigBuf_32 (N.to_nat n) zero_contrib o _ t5 s7 AL UF) as [s9 V]. cbv zeta in V.
  destruct (ev_det _ _ _ _ _ _ _ _ HV V) as [Q _].
  destruct (chain_err o (take_chain (N.to_nat n) zero_contrib t5)) as [e|] eqn:CE; [discriminate|].
  injection Q as Qc Qh.
  exists p, n, (mkSrs l1 l2 l3 l4 bt), (b1 ++ b2 ++ b3 ++ b4 ++ b5), t5, o.
  split; [auto|]. split; [auto|]. split; [rewrite Hpw, F3; now rewrite <- !app_assoc|].
  split; [repeat split; auto|]. split; [exists b1, b2, b3, b4, b5; split; [reflexivity|auto]|]. split.
  - (* the origin does not depend on the other input *)
    destruct HO as [w [R _]].
    rewrite !setr_setr in R.
    pose proof (fun G => uses_same true _ (uses_default trans) _ (opened [], opened g) _ _ _ G R) as X.
    destruct (X eq_refl) as [q [R2 _]].
    unfold exec. now rewrite R2.
  - cbv zeta. split; [auto|].
    assert (R : forall b e (q : io (list bytes)) s0 r s1 d, ev (require b e ;;; q) s0 (Ok r) s1 d -> b = true /\ exists d', ev q s0 (Ok r) s1 d').
    { intros b e q s0 r s10 d H0. unfold require in H0. destruct b; cbn [bind] in H0; [eauto|]. destruct H0 as [w [X _]]. discriminate. }
    apply R in H as [_ [dd1 H]]. apply R in H as [_ [dd2 H]]. apply R in H as [_ [dd3 H]]. apply R in H as [_ [dd4 H]].
    apply R in H as [Hb [dd5 H]]. apply ret_inv in H as [<- _]. apply feqb_ok in Hb. cbn [beta2]. rewrite <- Qc. auto.
Qed.
End Inv.
