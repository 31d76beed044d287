(* Trans3.v -- p1t at the command line for every pair of numbers. *)
From Coq Require Import String Ring Field.
From Verif Require Import Base Fld Conc Parallel IO Ext Spec1 Phase1 Gob GobLemmas Circuit Spec2 Phase2 Fs Init2 Init2More Spec3 Spec4 Keys Phase1Io Phase1Verify Phase1Facts Phase1Claims Phase2Claims KeysLemmas KeysClaims KeysProps Live LiveLemmas LiveCmd LiveClaims Spec5 LiveProps OnlyA Spec6 Cli CliClaims Session Phase1More LiveMore LiveTwin SessionClaims Spec21 Trans2 Cut1.
Local Open Scope lcmd_scope.

(* the points after one place are determined *)
Lemma are1_same (E : Ext) (l : list E) : forall l' b b' t t', are1 b l -> are1 b' l' -> b ++ t = b' ++ t' -> length l = length l' -> l = l'.
Proof.
  induction l as [|x l IH]; intros [|x' l'] b b' t t' A A' Q L; try discriminate L; [reflexivity|].
  inversion A as [|b1 x1 c1 l1 I1 I2]; inversion A' as [|b2 x2 c2 l2 J1 J2]; subst. rewrite <- !app_assoc in Q.
  pose proof (is1_det _ _ _ _ _ _ I1 J1 Q) as ->. apply app_inv_head in Q.
  assert (x = x') as -> by (destruct I1 as [[? [? ?]]|[? [? ?]]], J1 as [[? [? ?]]|[? [? ?]]]; congruence).
  f_equal. apply (IH _ _ _ _ _ I2 J2 Q). now injection L.
Qed.
Lemma start_same (E : Ext) b f (s : srs E) : sized b s -> start_holds f s -> alpha1 s = beta1 s /\ nth 0 (tau2 s) (0 : E)%F = beta2 s.
Proof.
  intros [L1 [L2 [L3 L4]]] [_ [[b4 [t4 [A4 B4]]] [[b2 [t2 [A2 B2]]] [[b3 [t3 [A3 B3]]] [b5 [t5 [A5 B5]]]]]]]. split.
  { apply (are1_same E _ _ b2 b3 t2 t3); congruence. }
  destruct (tau2 s) as [|y l]; [pose proof (Nat.pow_nonzero 2 b); cbn in L4; lia|]. cbn [nth].
  inversion B4 as [|c1 x1 c2 l1 I1 I2]; inversion B5 as [|d1 x2 d2 l2 J1 J2]; subst. rewrite A4 in A5. rewrite <- !app_assoc in A5.
  pose proof (is2_det _ _ _ _ _ _ I1 J1 A5) as ->.
  destruct I1 as [[? [? ?]]|[? [? ?]]], J1 as [[? [? ?]]|[? [? ?]]]; congruence.
Qed.
Section One.
Context {E : Ext}.
Add Field Eone : (f_th E).
Lemma start_one b f (T A B : E) : start_holds f (srs_of b T A B) -> A = (1 : E)%F /\ B = (1 : E)%F.
Proof.
  intros H. destruct (start_same E b f _ (srs_of_sized b T A B) H) as [Q1 Q2]. unfold srs_of in *. cbn [alpha1 beta1 tau2 beta2] in *.
  pose proof (Nat.pow_nonzero 2 b ltac:(lia)) as P. destruct (2 ^ b) as [|n]; [lia|]. cbn [seq map nth] in *.
  rewrite fpow_0 in *. injection Q1 as Q1 _. split; [|now symmetry].
  transitivity (A * 1)%F; [ring|rewrite Q1, <- Q2; ring].
Qed.
End One.

Lemma p1t_line (E : Ext2) bs (v : inv E) s t i o ip op f F : numeral s i -> numeral t o -> ip <> op -> f ip = Some F ->
  let c := tool no_limit bs v "p1t" [ip; op; s; t] in
  ((i < o)%Z -> result_of c f = Err EHigherPower /\ after c f = f) /\
  ((o <= i)%Z -> (forall q, q <> op -> after c f q = f q) /\
    forall a b, Z.of_nat a = (i mod 256)%Z -> Z.of_nat b = (o mod 256)%Z ->
      (a <= 54 ->
        (b <= 62 -> forall O, result_of c f = Ok [] /\ after c f op = Some O <->
           exists x : srs E, sized b x /\ holds a F x /\ O = file1 b x []) /\
        (63 <= b -> forall O, result_of c f = Ok [] /\ after c f op = Some O <->
           exists y : E, at2 F (384 * 2 ^ a) [y] /\ O = b8 (N.of_nat b) :: be16 0 ++ g2c y)) /\
      (55 <= a <= 57 -> exists e, result_of c f = Err e) /\
      (58 <= a ->
        (b <= 62 -> forall O, result_of c f = Ok [] /\ after c f op = Some O <->
           exists x : srs E, sized b x /\ start_holds F x /\ O = file1 b x []) /\
        (63 <= b -> forall O, result_of c f = Ok [] /\ after c f op = Some O <->
           exists y : E, at2 F 0 [y] /\ O = b8 (N.of_nat b) :: be16 0 ++ g2c y))).
Proof.
  intros N1 N2 NE HF c. unfold c.
  change (tool no_limit bs v "p1t" [ip; op; s; t]) with (int_arg s (fun i => int_arg t (fun o =>
      if (i <? o)%Z then lfail EHigherPower else quiet (l_transform (E := E) no_limit (to_byte i) (to_byte o) ip op)))).
  unfold int_arg. rewrite (proj2 (atoi_iff s i) N1), (proj2 (atoi_iff t o) N2). split; intros H.
  { rewrite (proj2 (Z.ltb_lt i o)) by lia. split; reflexivity. }
  rewrite (proj2 (Z.ltb_ge i o)) by lia. pose proof (Z.mod_pos_bound i 256 ltac:(lia)) as B1. pose proof (Z.mod_pos_bound o 256 ltac:(lia)) as B2.
  set (x := to_byte i). set (y := to_byte o). destruct (exec (transform (E := E) x y) F F) as [r W] eqn:X.
  destruct (c55_t (E := E) x y ip op f F _ _ NE HF X) as [A1 A2].
  assert (R : result_of (quiet (l_transform (E := E) no_limit x y ip op)) f = match r with Ok _ => Ok [] | Err e => Err e | Panic => Panic end).
  { unfold result_of, quiet, lbind in *. destruct (l_transform (E := E) no_limit x y ip op (start f)) as [r0 w]. cbn [fst] in A1. subst r0. now destruct r. }
  assert (Q : after (quiet (l_transform (E := E) no_limit x y ip op)) f = after (l_transform (E := E) no_limit x y ip op) f).
  { apply map_results. intros u w. exists []. reflexivity. }
  rewrite R, Q, A2. split.
  { intros q NQ. pose proof (c18_transform (E := E) no_limit x y ip op f) as C. refine (proj1 (C q _)). intros [<-|[]]. now apply NQ. }
  intros a b Pa Pb.
  assert (Qx : x = b8 (N.of_nat a)) by (unfold x, to_byte; f_equal; lia).
  assert (Qy : y = b8 (N.of_nat b)) by (unfold y, to_byte; f_equal; lia).
  assert (K : forall O, (match r with Ok _ => Ok [] | Err e => Err e | Panic => Panic end = Ok (@nil bytes) /\ Some W = Some O) <->
     exec (transform (E := E) (b8 (N.of_nat a)) (b8 (N.of_nat b))) F F = (Ok tt, O)).
  { intros O. rewrite <- Qx, <- Qy, X. split; [intros [Z1 Z2]; destruct r as [[]| |]; try discriminate; congruence|].
    intros Z. injection Z as -> ->. auto. }
  split; [intros La; split; intros Lb O; rewrite K; [now apply transform_iff|apply transform_big; [assumption|lia]]|]. split.
  - intros La. destruct (transform_negative (E := E) a y F F La) as [e Q0]. rewrite <- Qx, X in Q0. cbn [fst] in Q0. exists e. now rewrite Q0.
  - intros La. split; intros Lb O; rewrite K; [apply transform_wrapped|apply transform_wrapped_big]; lia.
Qed.

(* the comparison of the powers is made before they are cut to bytes *)
Lemma p1t_guard (E : Ext2) bs (v : inv E) s t a b ip op f h (y : E) junk : numeral s (Z.of_nat (256 + a)) -> numeral t (Z.of_nat b) ->
  a <= 54 -> 63 <= b <= 255 -> length h = 384 * 2 ^ a -> ip <> op -> f ip = Some (h ++ g2r y ++ junk) ->
  let c := tool no_limit bs v "p1t" [ip; op; s; t] in
  result_of c f = Ok [] /\ after c f op = Some (b8 (N.of_nat b) :: be16 0 ++ g2c y).
Proof.
  intros N1 N2 La Lb Lh NE HF c. destruct (p1t_line E bs v s t _ _ ip op f _ N1 N2 NE HF) as [_ P].
  destruct (P ltac:(lia)) as [_ Q]. destruct (Q a b) as [R0 _].
  - rewrite Nat2Z.inj_add. change (Z.of_nat 256) with 256%Z. rewrite Z.add_comm, <- (Z.mul_1_l 256), Z_mod_plus_full, Z.mod_small; lia.
  - rewrite Z.mod_small; lia.
  - destruct (R0 La) as [_ R]. apply (proj2 (R ltac:(lia) _)). exists y. split; [|reflexivity]. exists (g2r y), junk.
    split; [now rewrite Phase1Trans.skipn_len|]. rewrite <- (app_nil_r (g2r y)). constructor; [apply is2_r|constructor].
Qed.
