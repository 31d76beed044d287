(* SessionClaims.v -- ceremonies run from the command line. *)
From Coq Require Import String.
From Verif Require Import Base Fld Conc Parallel IO Ext Spec1 Phase1 Gob GobLemmas Circuit Spec2 Phase2 Fs Init2 Init2More Spec3 Spec4 Keys Phase1Io Phase1Verify
  Phase1Facts Phase1Claims Phase2Claims KeysLemmas KeysClaims KeysProps Live LiveLemmas LiveCmd LiveClaims Spec5 LiveProps OnlyA Spec6 Cli CliClaims Session.
Local Open Scope fld_scope.
Local Open Scope lcmd_scope.

Section Steps.
Context {E : Ext2}.
Variable bs : nat.
Notation tl := (tool no_limit bs).

Inductive steps (prog : inv E -> io bytes) : list (inv E) -> bytes -> list bytes -> bytes -> Prop :=
| steps_nil F : steps prog [] F [] F
| steps_cons v vs F h O hs F' : exec (prog v) F [] = (Ok h, O) -> steps prog vs O hs F' -> steps prog (v :: vs) F (h :: hs) F'.

Lemma fold1_steps : forall (vs : list (inv E)) F hs0 F' H,
  fold_left (step1 bs) (map v_w vs) (Ok (F, hs0)) = Ok (F', H) ->
  exists hs, H = hs0 ++ hs /\ steps (fun v => contribute bs (v_w v)) vs F hs F'.
Proof.
  assert (BAD : forall (r : res (bytes * list bytes)) ws, (forall x, r <> Ok x) -> fold_left (step1 (E := E) bs) ws r = r).
  { intros r ws N. induction ws as [|w ws IH]; cbn [fold_left]; [reflexivity|]. destruct r as [x|e|]; [now destruct (N x)| |]; exact IH. }
  induction vs as [|v vs IH]; intros F hs0 F' H Q; cbn [map fold_left] in Q.
  - injection Q as <- <-. exists []. split; [now rewrite app_nil_r|constructor].
  - cbn [step1] in Q. destruct (exec (contribute bs (v_w v)) F []) as [r O] eqn:X. unfold ok_out in Q. cbn [fst snd] in Q.
    destruct r as [h|e|]; [|rewrite BAD in Q; discriminate|rewrite BAD in Q; discriminate].
    destruct (IH _ _ _ _ Q) as [hs [-> S]]. exists (h :: hs). split; [now rewrite <- app_assoc|]. econstructor; eauto.
Qed.
Lemma fold2_steps : forall (vs : list (inv E)) F hs0 F' H,
  fold_left (step2 bs) (map (fun v => (v_d v, v_s v)) vs) (Ok (F, hs0)) = Ok (F', H) ->
  exists hs, H = hs0 ++ hs /\ steps (fun v => contribute2 bs (v_d v) (v_s v)) vs F hs F'.
Proof.
  assert (BAD : forall (r : res (bytes * list bytes)) ws, (forall x, r <> Ok x) -> fold_left (step2 (E := E) bs) ws r = r).
  { intros r ws N. induction ws as [|w ws IH]; cbn [fold_left]; [reflexivity|]. destruct r as [x|e|]; [now destruct (N x)| |]; exact IH. }
  induction vs as [|v vs IH]; intros F hs0 F' H Q; cbn [map fold_left] in Q.
  - injection Q as <- <-. exists []. split; [now rewrite app_nil_r|constructor].
  - cbn [step2 fst snd] in Q. destruct (exec (contribute2 bs (v_d v) (v_s v)) F []) as [r O] eqn:X. unfold ok_out in Q. cbn [fst snd] in Q.
    destruct r as [h|e|]; [|rewrite BAD in Q; discriminate|rewrite BAD in Q; discriminate].
    destruct (IH _ _ _ _ Q) as [hs [-> S]]. exists (h :: hs). split; [now rewrite <- app_assoc|]. econstructor; eauto.
Qed.

(* what one line does *)
Definition does (x : line E) (f : fs) (r : res (list bytes)) (f' : fs) : Prop :=
  result_of (tl (l_inv x) (l_name x) (l_args x)) f = r /\ after (tl (l_inv x) (l_name x) (l_args x)) f = f'.
Lemma session_cons x l f r f1 rs f2 : does x f r f1 -> session no_limit bs l f1 = (rs, f2) ->
  session no_limit bs (x :: l) f = (r :: rs, f2).
Proof.
  intros [A B] S. unfold result_of, after in A, B. cbn [session].
  destruct (tl (l_inv x) (l_name x) (l_args x) (start f)) as [r' w]. cbn [fst snd] in A, B. subst. now rewrite S.
Qed.
Lemma session_app (l1 l2 : list (line E)) f rs1 f1 rs2 f2 : session no_limit bs l1 f = (rs1, f1) -> session no_limit bs l2 f1 = (rs2, f2) ->
  session no_limit bs (l1 ++ l2) f = (rs1 ++ rs2, f2).
Proof.
  revert f rs1. induction l1 as [|x l1 IH]; intros f rs1 A B; cbn [session app] in *.
  - injection A as <- <-. exact B.
  - destruct (tl (l_inv x) (l_name x) (l_args x) (start f)) as [r w]. destruct (session no_limit bs l1 (w_fs w)) as [rs' f'] eqn:S.
    injection A as <- <-. now rewrite (IH _ _ S B).
Qed.
Lemma map_results {X Y} (g : X -> lcmd Y) (c : lcmd X) f : (forall x w, exists y, g x w = (Ok y, w)) ->
  after (lbind c g) f = after c f.
Proof.
  intros G. unfold after, lbind. destruct (c (start f)) as [[x|e|] w]; auto. destruct (G x w) as [y ->]. reflexivity.
Qed.

Lemma p1c_does (v : inv E) ip op f F h O : ip <> op -> f ip = Some F -> exec (contribute bs (v_w v)) F [] = (Ok h, O) ->
  exists f', does (mkLine v "p1c" [ip; op]) f (Ok [h]) f' /\ f' op = Some O /\ forall q, q <> op -> f' q = f q.
Proof.
  intros N H X. rewrite (contribute_alone bs (v_w v) F [] F) in X. destruct (c55_1 bs (v_w v) ip op f F _ _ N H X) as [A B].
  pose proof (c18_contribute no_limit bs (v_w v) ip op f) as C.
  exists (after (l_contribute no_limit bs (v_w v) ip op) f). split; [|split; [exact B|]].
  - split; cbn [l_inv l_name l_args].
    + change (result_of (h <- l_contribute no_limit bs (v_w v) ip op ;; lret [h]) f = Ok [h]). unfold result_of, lbind in *.
      destruct (l_contribute no_limit bs (v_w v) ip op (start f)) as [r w]. cbn [fst] in A. now subst r.
    + change (after (h <- l_contribute no_limit bs (v_w v) ip op ;; lret [h]) f = after (l_contribute no_limit bs (v_w v) ip op) f).
      apply map_results. intros x w. exists [x]. reflexivity.
  - intros q Q. refine (proj1 (C q _)). intros [<-|[]]. now apply Q.
Qed.
Lemma p2c_does (v : inv E) ip op f F h O : ip <> op -> f ip = Some F -> exec (contribute2 bs (v_d v) (v_s v)) F [] = (Ok h, O) ->
  exists f', does (mkLine v "p2c" [ip; op]) f (Ok [h]) f' /\ f' op = Some O /\ forall q, q <> op -> f' q = f q.
Proof.
  intros N H X. rewrite (contribute2_alone bs (v_d v) (v_s v) F [] F) in X. destruct (c55_2 bs (v_d v) (v_s v) ip op f F _ _ N H X) as [A B].
  pose proof (c18_contribute2 no_limit bs (v_d v) (v_s v) ip op f) as C.
  exists (after (l_contribute2 no_limit bs (v_d v) (v_s v) ip op) f). split; [|split; [exact B|]].
  - split; cbn [l_inv l_name l_args].
    + change (result_of (h <- l_contribute2 no_limit bs (v_d v) (v_s v) ip op ;; lret [h]) f = Ok [h]). unfold result_of, lbind in *.
      destruct (l_contribute2 no_limit bs (v_d v) (v_s v) ip op (start f)) as [r w]. cbn [fst] in A. now subst r.
    + change (after (h <- l_contribute2 no_limit bs (v_d v) (v_s v) ip op ;; lret [h]) f = after (l_contribute2 no_limit bs (v_d v) (v_s v) ip op) f).
      apply map_results. intros x w. exists [x]. reflexivity.
  - intros q Q. refine (proj1 (C q _)). intros [<-|[]]. now apply Q.
Qed.
Lemma chain_session name prog : (forall v ip op f F h O, ip <> op -> f ip = Some F -> exec (prog v) F [] = (Ok h, O) ->
    exists f', does (mkLine v name [ip; op]) f (Ok [h]) f' /\ f' op = Some O /\ forall q, q <> op -> f' q = f q) ->
  forall vs ps p f F hs F', length ps = length vs -> moves p ps -> f p = Some F -> steps prog vs F hs F' ->
  exists f', session no_limit bs (chain name vs p ps) f = (map (fun h => Ok [h]) hs, f') /\ f' (last ps p) = Some F' /\
    forall q, ~ In q ps -> f' q = f q.
Proof.
  intros D. induction vs as [|v vs IH]; intros [|q ps] p f F hs F' L M H S; try discriminate; inversion S as [|v' vs' F0 h O hs' F1 X S']; subst.
  - exists f. split; [reflexivity|]. split; [exact H|auto].
  - destruct M as [M1 M2]. destruct (D v p q f F h O M1 H X) as [f1 [A1 [A2 A3]]].
    destruct (IH ps q f1 O hs' F' ltac:(injection L; auto) M2 A2 S') as [f2 [B1 [B2 B3]]].
    exists f2. cbn [chain map]. split; [now apply (session_cons _ _ _ _ f1)|]. split.
    + destruct ps as [|q2 ps]; [exact B2|]. change (last (q :: q2 :: ps) p) with (last (q2 :: ps) p).
      assert (LL : forall (l : list string) x a b, last (x :: l) a = last (x :: l) b).
      { induction l as [|y l IHl]; intros x a b; [reflexivity|]. exact (IHl y a b). }
      rewrite (LL ps q2 p q). exact B2.
    + intros x N. rewrite B3 by (intros I; apply N; now right). apply A3. intros ->. apply N. now left.
Qed.
Lemma p1n_does (v : inv E) s p op f O : numeral s (Z.of_nat p) -> (p <= 26)%nat -> op <> EmptyString ->
  exec (initialize (E := E) (b8 (N.of_nat p))) [] [] = (Ok tt, O) ->
  exists f', does (mkLine v "p1n" [s; op]) f (Ok []) f' /\ f' op = Some O /\ forall q, q <> op -> f' q = f q.
Proof.
  intros N P O1 X. destruct (c55_i (E := E) (b8 (N.of_nat p)) op f _ _ O1 X) as [A B].
  pose proof (c18_initialize (E := E) no_limit (b8 (N.of_nat p)) op f) as C.
  assert (T : tl v "p1n" [s; op] = quiet (l_initialize (E := E) no_limit (b8 (N.of_nat p)) op)).
  { change (int_arg s (fun p => if (p >? 26)%Z then lfail EPower26 else quiet (l_initialize (E := E) no_limit (to_byte p) op)) =
      quiet (l_initialize (E := E) no_limit (b8 (N.of_nat p)) op)).
    unfold int_arg. rewrite (proj2 (atoi_iff s (Z.of_nat p)) N). rewrite Z.gtb_ltb, (proj2 (Z.ltb_ge 26 (Z.of_nat p))) by lia.
    unfold to_byte. rewrite Z.mod_small by lia. now rewrite <- nat_N_Z, N2Z.id. }
  exists (after (l_initialize (E := E) no_limit (b8 (N.of_nat p)) op) f). split; [|split; [exact B|]].
  - split; cbn [l_inv l_name l_args]; rewrite T.
    + unfold result_of, quiet, lbind in *. destruct (l_initialize (E := E) no_limit (b8 (N.of_nat p)) op (start f)) as [r0 w]. cbn [fst] in A. now subst r0.
    + apply map_results. intros x w. exists []. reflexivity.
  - intros q Q. refine (proj1 (C q _)). intros [<-|[]]. now apply Q.
Qed.
End Steps.

Section Phase1Session.
Context {E : Ext2}.
Variable bs : nat.
Notation secrets := (map (fun v : inv E => r_tau (v_w v))).

Lemma last_in : forall (ps : list string) p, In (last ps p) (p :: ps).
Proof.
  induction ps as [|q ps IH]; intros p; [now left|]. destruct ps as [|q2 ps]; [right; now left|].
  change (last (q :: q2 :: ps) p) with (last (q2 :: ps) p). destruct (IH p) as [H|H]; [now left|right; now right].
Qed.
Lemma check_does v name a (f : fs) : In name ["p1v"; "p1vt"; "p2v"]%string ->
  does bs (mkLine (E := E) v name a) f (result_of (tool no_limit bs v name a) f) f.
Proof. intros I. split; cbn [l_inv l_name l_args]; [reflexivity|]. unfold after. now rewrite checks_quiet. Qed.

(* p1n and the contributions *)
Lemma phase1_lines (v0 : inv E) vs s p p0 ps f : 2 <= bs -> 1 <= p <= 26 -> numeral s (Z.of_nat p) ->
  p0 <> EmptyString -> moves p0 ps -> length ps = length vs -> length vs <= N.to_nat 65535 ->
  exists F hs f', ceremony1 bs p (map v_w vs) = Ok (F, hs) /\
    session no_limit bs (mkLine v0 "p1n" [s; p0] :: chain "p1c" vs p0 ps) f = (Ok [] :: map (fun h => Ok [h]) hs, f') /\
    f' (last ps p0) = Some F /\ forall q, ~ In q (p0 :: ps) -> f' q = f q.
Proof.
  intros B P Nu NE M L1 L2. destruct (c04 bs p (map v_w vs) B ltac:(lia) ltac:(rewrite map_length; lia)) as [l [C _]].
  eexists _, _. rewrite C. unfold ceremony1 in C.
  destruct (exec (initialize (E := E) (b8 (N.of_nat p))) [] []) as [r O] eqn:X. unfold ok_out in C. cbn [fst snd] in C.
  destruct r as [[]|e|].
  - destruct (p1n_does bs v0 s p p0 f O Nu ltac:(lia) NE X) as [f1 [A1 [A2 A3]]].
    destruct (fold1_steps bs vs _ _ _ _ C) as [hs [EQ S]]. cbn [app] in EQ.
    destruct (chain_session bs "p1c" (fun v => contribute bs (v_w v)) (p1c_does bs) vs ps p0 f1 _ _ _ L1 M A2 S) as [f2 [B1 [B2 B3]]].
    exists f2. split; [reflexivity|]. split; [rewrite EQ; now apply (session_cons bs _ _ _ _ f1)|]. split; [exact B2|].
    intros q Q. rewrite B3 by (intros I; apply Q; now right). apply A3. intros ->. apply Q. now left.
  - exfalso. revert C. match goal with |- fold_left _ ?x _ = Ok ?y -> False => generalize y; generalize x end.
    intros ws y. induction ws as [|w ws IH]; [discriminate|exact IH].
  - exfalso. revert C. match goal with |- fold_left _ ?x _ = Ok ?y -> False => generalize y; generalize x end.
    intros ws y. induction ws as [|w ws IH]; [discriminate|exact IH].
Qed.
Lemma phase1_more (v0 v1 : inv E) vs s p p0 ps f : mexp_strict E -> 2 <= bs -> 1 <= p <= 26 -> numeral s (Z.of_nat p) ->
  p0 <> EmptyString -> moves p0 ps -> length ps = length vs -> vs <> [] -> length vs <= N.to_nat 65535 ->
  exists F hs f', ceremony1 bs p (map v_w vs) = Ok (F, hs) /\ length hs = length vs /\
    session no_limit bs (mkLine v0 "p1n" [s; p0] :: chain "p1c" vs p0 ps ++ [mkLine v1 "p1v" [last ps p0]]) f =
      (Ok [] :: map (fun h => Ok [h]) hs ++ [Ok hs], f') /\
    f' (last ps p0) = Some F /\ forall q, ~ In q (p0 :: ps) -> f' q = f q.
Proof.
  intros MS B P Nu NE M L1 NV L2. destruct (phase1_lines v0 vs s p p0 ps f B P Nu NE M L1 L2) as [F [hs [f1 [C [S [H1 H2]]]]]].
  destruct (c05 bs p (map v_w vs) MS B ltac:(lia) ltac:(destruct vs; [congruence|discriminate]) ltac:(rewrite map_length; lia)) as [F' [hs' [C' [L V]]]].
  assert (F' = F /\ hs' = hs) as [-> ->] by (rewrite C in C'; injection C'; auto).
  exists F, hs, f1. split; [exact C|]. split; [now rewrite L, map_length|]. split; [|split; [exact H1|exact H2]].
  rewrite app_comm_cons. rewrite app_comm_cons. eapply session_app; [exact S|].
  eapply session_cons; [|reflexivity]. pose proof (check_does v1 "p1v" [last ps p0] f1 ltac:(now left)) as D.
  rewrite (p1v_result no_limit bs v1 (last ps p0) f1 F H1) in D. rewrite (V bs (v_rho v1) F ltac:(lia)) in D. exact D.
Qed.
(* C59, phase 1 *)
Lemma phase1_session (v0 v1 : inv E) vs s p p0 ps f : mexp_strict E -> 2 <= bs -> 1 <= p <= 26 -> numeral s (Z.of_nat p) ->
  p0 <> EmptyString -> moves p0 ps -> length ps = length vs -> vs <> [] -> length vs <= N.to_nat 65535 ->
  exists hs f', length hs = length vs /\
    session no_limit bs (mkLine v0 "p1n" [s; p0] :: chain "p1c" vs p0 ps ++ [mkLine v1 "p1v" [last ps p0]]) f =
      (Ok [] :: map (fun h => Ok [h]) hs ++ [Ok hs], f') /\
    forall q, ~ In q (p0 :: ps) -> f' q = f q.
Proof.
  intros MS B P Nu NE M L1 NV L2. destruct (phase1_more v0 v1 vs s p p0 ps f MS B P Nu NE M L1 NV L2) as [F [hs [f' [_ [A [S [_ O]]]]]]].
  exists hs, f'. auto.
Qed.
End Phase1Session.

Section Whole.
Context {E : Ext2}.
Variable bs : nat.
Lemma aligned_unsplit (cs : r1cs E) k m (q : par2 E) : aligned cs k m ->
  length (p_Z q) = (2 ^ k - 1)%nat -> length (p_K q) = (nb_secret cs + nb_internal cs)%nat ->
  forall j, (1 <= j <= m)%nat -> unsplit (set_contribs (hdr_of cs k) (Z.of_nat j)) q j.
Proof.
  intros A L1 L2 j Hj i Hi. specialize (A j i Hj Hi). unfold hash_off, head2. rewrite app_length, par2_bytes_length, L1, L2. exact A.
Qed.
Lemma quiet_does (v : inv E) name a (c : lcmd unit) f r : tool no_limit bs v name a = quiet c -> result_of c f = Ok r ->
  does bs (mkLine v name a) f (Ok []) (after c f).
Proof.
  intros T R. split; cbn [l_inv l_name l_args]; rewrite T.
  - unfold result_of, quiet, lbind in *. destruct (c (start f)) as [r0 w]. cbn [fst] in R. now subst r0.
  - apply map_results. intros x w. exists []. reflexivity.
Qed.
(* C60 *)
Lemma whole_session (v0 v1 vn vv vk : inv E) vs1 vs2 s p p0 ps1 r1 p2 ps2 (cs : r1cs E) rb k f :
  let P1 := last ps1 p0 in let PZ := last ps2 p2 in
  mexp_strict E -> 2 <= bs -> 1 <= p <= 26 -> numeral s (Z.of_nat p) ->
  p0 <> EmptyString -> moves p0 ps1 -> length ps1 = length vs1 -> vs1 <> [] -> length vs1 <= N.to_nat 65535 ->
  f r1 = Some rb -> parse_r1cs rb = Some cs -> ~ In r1 (p0 :: ps1) -> names_ok P1 r1 p2 ->
  circuit_ok cs -> length (r_cons cs) <= 2 ^ p -> is_dom (length (r_cons cs)) k -> k <= kmax E -> no_cmt cs ->
  (N.of_nat (wires cs) < 4294967296)%N ->
  moves p2 ps2 -> ~ In p2 ps2 -> ~ In evals_path ps2 -> length ps2 = length vs2 -> vs2 <> [] ->
  (Z.of_nat (length vs2) < 9223372036854775808)%Z -> aligned cs k (length vs2) -> (forall v, In v vs2 -> v_d v <> 0) ->
  PZ <> pk_path -> PZ <> vk_path ->
  exists hs1 hs2 f' q w, length hs1 = length vs1 /\ length hs2 = length vs2 /\
    session no_limit bs
      (mkLine v0 "p1n" [s; p0] :: chain "p1c" vs1 p0 ps1 ++ mkLine v1 "p1v" [P1] ::
       mkLine vn "p2n" [P1; r1; p2] :: chain "p2c" vs2 p2 ps2 ++ [mkLine vv "p2v" [PZ; p2]; mkLine vk "key" [PZ]]) f =
      (Ok [] :: map (fun h => Ok [h]) hs1 ++ Ok hs1 :: Ok [] :: map (fun h => Ok [h]) hs2 ++ [Ok hs2; Ok []], f') /\
    f' pk_path = Some (pk_bytes k (N.of_nat (wires cs)) q) /\
    f' vk_path = Some (vk_bytes (ped (e := E) (v_g vk) (v_sg vk) []) (empty_info (E := E)) w) /\
    is_keypair cs k (root k) (prodl (map (fun v => r_alpha (v_w v)) vs1)) (prodl (map (fun v => r_beta (v_w v)) vs1))
      (prodl (map v_d vs2)) (prodl (map (fun v => r_tau (v_w v)) vs1)) q w /\
    forall x, ~ In x (p0 :: ps1 ++ p2 :: ps2 ++ [lag_path; evals_path; pk_path; vk_path]) -> f' x = f x.
Proof.
  intros P1 PZ MS B P Nu NE M1 L1 NV1 LE1 HR PR NR NO CO LC KD KM NC HW M2 I2 IE L2 NV2 LE2 AL NZ NP NK.
  destruct (phase1_more bs v0 v1 vs1 s p p0 ps1 f MS B P Nu NE M1 L1 NV1 LE1) as [F1 [hs1 [f1 [C1 [LH1 [S1 [H1 O1]]]]]]].
  set (T := prodl (map (fun v => r_tau (v_w v)) vs1)). set (A := prodl (map (fun v => r_alpha (v_w v)) vs1)).
  set (Bt := prodl (map (fun v => r_beta (v_w v)) vs1)).
  assert (II : init_input p (srs_of p T A Bt) cs f1 P1 r1 p2).
  { destruct (c04 bs p (map v_w vs1) B ltac:(lia) ltac:(rewrite map_length; lia)) as [l [C _]]. rewrite C1 in C. injection C as EF _.
    rewrite !map_map in EF. fold T A Bt in EF.
    split; [exact NO|]. split; [lia|]. split; [apply srs_of_sized|]. split.
    - eexists _, _, (recs_bytes l). fold P1 in H1. rewrite H1, EF. unfold file1, hdr1, be16, phase1_file. reflexivity.
    - split; [exists rb; split; [now rewrite O1|exact PR]|]. split; [exact CO|]. split; [exact LC|].
      destruct KD as [K1 [K2 K3]]. split; [|split; [lia|]].
      + assert (length (r_cons cs) <= 2 ^ 26)%nat by (eapply Nat.le_trans; [exact LC|]; apply Nat.pow_le_mono_r; lia).
        transitivity (Z.of_nat (2 ^ 26)); [lia|]. rewrite Nat2Z.inj_pow. apply Z.pow_le_mono_r; lia.
      + eapply Nat.le_trans; [exact K2|]. apply Nat.pow_le_mono_r; lia. }
  set (ws := map (fun v : inv E => (v_d v, v_s v)) vs2).
  assert (LW : length ws = length vs2) by (unfold ws; now rewrite map_length).
  destruct (after_ceremony p T A Bt cs f1 P1 r1 p2 bs ws II NC HW ltac:(lia) ltac:(rewrite LW; exact LE2)) as
    [fa [k' [t [z [h [q0 [v [N1 [N2 [N3 [N4 [N5 [N6 [N7 [N8 [N9 [N10 [N11 [N12 [N13 [N14 N15]]]]]]]]]]]]]]]]]]]]].
  assert (k' = k) by (destruct KD as [K1 [K2 K3]], N5 as [J1 [J2 J3]]; specialize (K3 k' J1 J2); specialize (J3 k K1 K2); lia).
  subst k'. assert (LZ : length (p_Z q0) = (2 ^ k - 1)%nat) by (rewrite N10; exact (proj1 N8)).
  assert (LK : length (p_K q0) = (nb_secret cs + nb_internal cs)%nat) by (rewrite N10; cbn [p_K]; now rewrite map_length, seq_length).
  assert (U : forall j, (1 <= j <= length ws)%nat -> unsplit (set_contribs h (Z.of_nat j)) q0 j).
  { rewrite LW, N9. now apply aligned_unsplit. }
  destruct (N15 U) as [F [hs2 [l [C2 [C3 C4]]]]].
  (* p2n *)
  pose proof NO as [NO1 [NO2 [NO3 [NO4 [NO5 [NO6 [NO7 NO8]]]]]]].
  destruct (c55_n (E := E) P1 r1 p2 f1 NO1 NO3 NO4 NO7 NO8) as [R2 Q2]. rewrite N1 in R2, Q2. cbn [fst snd] in R2, Q2.
  pose proof (quiet_does vn "p2n" [P1; r1; p2] (l_p2n (E := E) no_limit P1 r1 p2) f1 tt eq_refl R2) as D2.
  set (f2 := after (l_p2n (E := E) no_limit P1 r1 p2) f1) in *.
  (* the contributions *)
  destruct (fold2_steps bs vs2 _ _ _ _ C2) as [hs2' [EQ S2]]. cbn [app] in EQ. subst hs2'.
  destruct (chain_session bs "p2c" (fun v => contribute2 bs (v_d v) (v_s v)) (p2c_does bs) vs2 ps2 p2 f2 _ _ _ L2 M2 (eq_trans (Q2 p2) N3) S2)
    as [f3 [S3 [H3 O3]]]. fold PZ in H3.
  (* p2v *)
  assert (SZ : sized2 h q0).
  { rewrite N9. split; unfold hdr_of; cbn [h_domain h_witness]; [rewrite LZ; pose proof (pow2_pos k); lia|now rewrite LK]. }
  assert (HO : hdr_ok h).
  { rewrite N9. apply hdr_of_ok; [exact HW|apply II|]. destruct (init_dom _ _ _ _ _ _ _ II) as [k' [KD' [K27 _]]].
    destruct KD as [K1 [K2 K3]], KD' as [J1 [J2 J3]]. specialize (K3 k' J1 J2). lia. }
  assert (F0 : is_file2 (file2 h q0 []) h q0 []).
  { rewrite <- (app_nil_r (file2 _ _ _)). apply file2_is; [exact SZ|rewrite N9; reflexivity|intros c []|]. intros i Hi. cbn in Hi. lia. }
  destruct (c37 bs (file2 h q0 []) h q0 ws ltac:(lia) HO ltac:(rewrite N9; reflexivity) F0 ltac:(rewrite LW; exact LE2)
    ltac:(unfold ws; destruct vs2; [congruence|discriminate]) U) as [F' [hs' [C2' [LH2 [_ V2]]]]].
  { intros w I. unfold ws in I. apply in_map_iff in I as [x [<- I]]. exact (NZ x I). }
  assert (F' = F /\ hs' = hs2) as [-> ->] by (rewrite C2 in C2'; injection C2'; auto).
  assert (H3b : f3 p2 = Some (file2 h q0 [])) by (rewrite O3 by exact I2; now rewrite Q2).
  pose proof (check_does bs vv "p2v" [PZ; p2] f3 ltac:(right; right; now left)) as D3.
  rewrite (p2v_result no_limit bs vv PZ p2 f3 F _ H3 H3b) in D3. rewrite (V2 bs (v_rho vv) ltac:(lia)) in D3. cbn [fst] in D3.
  (* key *)
  assert (H3c : f3 evals_path = Some (evals_bytes v)) by (rewrite O3 by exact IE; now rewrite Q2).
  destruct (read_pk_ok F _ _ v C4 N13) as [s1 R1].
  assert (HWZ : h_wires (set_contribs h (Z.of_nat (length ws))) = Z.of_nat (wires cs)) by (rewrite N9; reflexivity).
  destruct (read_vk_ok wrap64 F _ _ v (wires cs) C4 N13 N14 HWZ) as [s2 R2v]; [apply pos64; lia|].
  destruct (extract_keys_run wrap64 (v_g vk) (v_sg vk) PZ f3 F (evals_bytes v) _ _ k _ s1 s2 NP NK H3 H3c R1 N12 R2v) as [fb [B1 [B2 [B3 B4]]]].
  destruct (c55_k wrap64 (v_g vk) (v_sg vk) PZ f3 NP NK) as [R4 Q4]. rewrite B1 in R4, Q4. cbn [fst snd] in R4, Q4.
  pose proof (quiet_does vk "key" [PZ] (l_keys no_limit wrap64 (v_g vk) (v_sg vk) PZ) f3 tt eq_refl R4) as D4.
  set (f4 := after (l_keys no_limit wrap64 (v_g vk) (v_sg vk) PZ) f3) in *.
  eexists hs1, hs2, f4, _, _. split; [exact LH1|]. split; [now rewrite LH2|]. split.
  - replace (mkLine v0 "p1n" [s; p0] :: chain "p1c" vs1 p0 ps1 ++ mkLine v1 "p1v" [P1] :: mkLine vn "p2n" [P1; r1; p2] ::
        chain "p2c" vs2 p2 ps2 ++ [mkLine vv "p2v" [PZ; p2]; mkLine vk "key" [PZ]]) with
      ((mkLine v0 "p1n" [s; p0] :: chain "p1c" vs1 p0 ps1 ++ [mkLine v1 "p1v" [last ps1 p0]]) ++
       mkLine vn "p2n" [P1; r1; p2] :: chain "p2c" vs2 p2 ps2 ++ [mkLine vv "p2v" [PZ; p2]; mkLine vk "key" [PZ]])
      by (cbn [app]; now rewrite <- app_assoc).
    replace (Ok [] :: map (fun h => Ok [h]) hs1 ++ Ok hs1 :: Ok [] :: map (fun h => Ok [h]) hs2 ++ [Ok hs2; Ok []]) with
      ((Ok [] :: map (fun h => Ok [h]) hs1 ++ [Ok hs1]) ++ Ok [] :: map (fun h => Ok [h]) hs2 ++ [Ok hs2; Ok []])
      by (cbn [app]; now rewrite <- app_assoc).
    eapply session_app; [exact S1|]. eapply session_cons; [exact D2|]. eapply session_app; [exact S3|].
    eapply session_cons; [exact D3|]. eapply session_cons; [exact D4|]. reflexivity.
  - split; [rewrite Q4, B2, HWZ, u64_nat by lia; reflexivity|]. split.
    { rewrite Q4, B3. unfold vk_of. cbn [w_ck]. rewrite N11. cbn [v_ckk]. reflexivity. }
    split.
    { rewrite N10, N11. replace (prodl (map v_d vs2)) with (prodf ws) by (unfold prodf, ws; now rewrite map_map). now apply keypair_of. }
    intros x NX. rewrite Q4, B4.
    + rewrite O3. 2:{ intros I. apply NX. right. apply in_or_app. right. right. apply in_or_app. now left. }
      rewrite Q2, N2.
      * apply O1. intros [I|I]; apply NX; [now left|right; apply in_or_app; now left].
      * intros ->. apply NX. right. apply in_or_app. right. now left.
      * intros ->. apply NX. right. apply in_or_app. right. right. apply in_or_app. right. now left.
      * intros ->. apply NX. right. apply in_or_app. right. right. apply in_or_app. right. right. now left.
    + intros ->. apply NX. right. apply in_or_app. right. right. apply in_or_app. right. right. right. now left.
    + intros ->. apply NX. right. apply in_or_app. right. right. apply in_or_app. right. right. right. right. now left.
Qed.
End Whole.
