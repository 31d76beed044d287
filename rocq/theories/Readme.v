(* Readme.v -- the ceremony of README.md with a check after every contribution. *)
From Coq Require Import Ring Field String.
From Verif Require Import Base Fld Conc Parallel Poly IO Ext Spec1 Phase1 Gob GobLemmas Circuit Spec2 Phase2 Fs Init2 Init2Io Init2More Spec3 Spec4 Keys Phase1Io Phase1Verify
  Phase1Facts Phase1Claims Phase2Claims KeysLemmas KeysClaims KeysProps Live LiveLemmas LiveCmd LiveClaims Spec5 LiveProps OnlyA Spec6 Cli CliClaims Session
  SessionClaims Sessions2 Spec19.
Local Open Scope fld_scope.
Local Open Scope lcmd_scope.

Section Readme.
Context {E : Ext2}.
Variable bs : nat.

Lemma ok_inj (a b : list bytes) : map (fun h => Ok [h]) a = map (fun h => Ok [h]) b -> a = b.
Proof.
  revert b. induction a as [|x a IH]; intros [|y b] H; try discriminate; [reflexivity|]. cbn in H. injection H as -> H. f_equal. now apply IH.
Qed.
Lemma last_to {X} (l : list X) x d : last (x :: l) d = last l x.
Proof. revert x d. induction l as [|y l IH]; intros x d; [reflexivity|]. change (last (y :: l) d = last (y :: l) x). now rewrite !IH. Qed.

Lemma checked_session name chk also : forall vs us ps p f past hs f', length us = length vs -> length ps = length vs ->
  session no_limit bs (chain (E := E) name vs p ps) f = (map (fun h => Ok [h]) hs, f') ->
  (forall i fi (u : inv E), (1 <= i <= length vs)%nat ->
     session no_limit bs (chain name (firstn i vs) p (firstn i ps)) f = (map (fun h => Ok [h]) (firstn i hs), fi) ->
     does bs (mkLine u chk (last (firstn i ps) p :: also)) fi (Ok (past ++ firstn i hs)) fi) ->
  session no_limit bs (checked name chk also vs us p ps) f = (shown past hs, f').
Proof.
  induction vs as [|v vs IH]; intros [|u us] [|q ps] p f past hs f' LU LP S C; try discriminate; cbn [chain checked] in *.
  - destruct hs; [|discriminate]. exact S.
  - cbn [session] in S. destruct (tool no_limit bs (l_inv (mkLine v name [p; q])) (l_name (mkLine v name [p; q])) (l_args (mkLine v name [p; q])) (start f)) as [r w] eqn:T.
    destruct (session no_limit bs (chain name vs q ps) (w_fs w)) as [rs fe] eqn:S'. injection S as S1 <-.
    destruct hs as [|h hs]; [discriminate|]. cbn [map] in S1. injection S1 as -> ->. cbn [shown].
    eapply (session_cons bs _ _ _ _ (w_fs w)); [split; [unfold result_of|unfold after]; now rewrite T|].
    eapply (session_cons bs _ _ _ _ (w_fs w)).
    + assert (Q := C 1%nat (w_fs w) u ltac:(cbn; lia)). cbn [firstn chain last] in Q. apply Q.
      cbn [session]. rewrite T. reflexivity.
    + apply IH; [cbn in LU; lia|cbn in LP; lia|exact S'|].
      intros i fi u' Hi Si. assert (Q := C (Datatypes.S i) fi u' ltac:(cbn [length]; lia)). cbn [firstn chain] in Q.
      rewrite last_to in Q. rewrite <- app_assoc. apply Q. cbn [session]. rewrite T, Si. reflexivity.
Qed.
Lemma moves_firstn : forall ps p i, moves p ps -> moves p (firstn i ps).
Proof. induction ps as [|q ps IH]; intros p [|i] M; cbn in *; auto. split; [tauto|]. apply IH. tauto. Qed.

Lemma aligned_le (cs : r1cs E) k m n : (n <= m)%nat -> aligned cs k m -> aligned cs k n.
Proof. intros L A j i Hj Hi. apply A; lia. Qed.
Lemma in_firstn {X} (x : X) i l : In x (firstn i l) -> In x l.
Proof. intros H. rewrite <- (firstn_skipn i l). apply in_or_app. now left. Qed.

Lemma readme (v0 vn vk : inv E) vs1 us1 vs2 us2 s p p0 ps1 r1 p2 ps2 (cs : r1cs E) rb k f :
  let P1 := last ps1 p0 in let PZ := last ps2 p2 in
  mexp_strict E -> 2 <= bs -> 1 <= p <= 26 -> numeral s (Z.of_nat p) ->
  p0 <> EmptyString -> moves p0 ps1 -> length ps1 = length vs1 -> length us1 = length vs1 -> length vs1 <= N.to_nat 65535 ->
  f r1 = Some rb -> parse_r1cs rb = Some cs -> ~ In r1 (p0 :: ps1) -> names_ok P1 r1 p2 ->
  circuit_ok cs -> length (r_cons cs) <= 2 ^ p -> is_dom (length (r_cons cs)) k -> k <= kmax E -> no_cmt cs ->
  (N.of_nat (wires cs) < 4294967296)%N ->
  moves p2 ps2 -> ~ In p2 ps2 -> ~ In evals_path ps2 -> length ps2 = length vs2 -> length us2 = length vs2 ->
  (Z.of_nat (length vs2) < 9223372036854775808)%Z -> aligned cs k (length vs2) -> (forall v, In v vs2 -> v_d v <> 0) ->
  PZ <> pk_path -> PZ <> vk_path ->
  exists hs1 hs2 f' q w, length hs1 = length vs1 /\ length hs2 = length vs2 /\
    session no_limit bs
      (mkLine v0 "p1n" [s; p0] :: checked "p1c" "p1v" [] vs1 us1 p0 ps1 ++
       mkLine vn "p2n" [P1; r1; p2] :: checked "p2c" "p2v" [p2] vs2 us2 p2 ps2 ++ [mkLine vk "key" [PZ]]) f =
      (Ok [] :: shown [] hs1 ++ Ok [] :: shown [] hs2 ++ [Ok []], f') /\
    f' pk_path = Some (pk_bytes k (N.of_nat (wires cs)) q) /\
    f' vk_path = Some (vk_bytes (ped (e := E) (v_g vk) (v_sg vk) []) (empty_info (E := E)) w) /\
    is_keypair cs k (root k) (prodl (map (fun v => r_alpha (v_w v)) vs1)) (prodl (map (fun v => r_beta (v_w v)) vs1))
      (prodl (map v_d vs2)) (prodl (map (fun v => r_tau (v_w v)) vs1)) q w.
Proof.
  intros P1 PZ MS B P Nu NE M1 L1 LU1 LE1 HR PR NR NO CO LC KD KM NC HW M2 I2 IE L2 LU2 LE2 AL NZ NP NK.
  destruct (phase1_start bs v0 vs1 s p p0 ps1 r1 p2 cs rb k f B P Nu NE M1 L1 LE1 HR PR NR NO CO LC KD KM) as [hs1 [f1 [LH1 [S1 [_ [II _]]]]]].
  destruct (phase2_lines bs vn vs2 p _ _ _ P1 r1 p2 ps2 cs k f1 B II KD NC HW M2 I2 IE L2 LE2 AL NZ) as [hs2 [f3 [LH2 [S2 [_ K]]]]].
  destruct (K NP NK vk) as [f4 [q [w [D4 [HP [HV KP]]]]]].
  exists hs1, hs2, f4, q, w. split; [exact LH1|]. split; [exact LH2|]. split; [|auto].
  (* phase 1 *)
  cbn [session] in S1. destruct (tool no_limit bs (l_inv (mkLine v0 "p1n" [s; p0])) (l_name (mkLine v0 "p1n" [s; p0])) (l_args (mkLine v0 "p1n" [s; p0])) (start f)) as [r0 w0] eqn:T0.
  destruct (session no_limit bs (chain "p1c" vs1 p0 ps1) (w_fs w0)) as [rs1 fe1] eqn:C1. injection S1 as -> -> ->.
  assert (X1 : session no_limit bs (checked "p1c" "p1v" [] vs1 us1 p0 ps1) (w_fs w0) = (shown [] hs1, f1)).
  { apply checked_session; auto. intros i fi u Hi Si. cbn [app].
    destruct (phase1_lines bs v0 (firstn i vs1) s p p0 (firstn i ps1) f B P Nu NE (moves_firstn _ _ i M1)) as [F [hs [g [CC [S [H1 _]]]]]];
      [now rewrite !firstn_length, L1|rewrite firstn_length; lia|].
    cbn [session] in S. rewrite T0, Si in S. injection S as S <-. apply ok_inj in S. subst hs.
    destruct (c05 bs p (map v_w (firstn i vs1)) MS B ltac:(lia)) as [F' [hs' [D [L V]]]];
      [destruct vs1; [cbn in Hi; lia|destruct i; [lia|discriminate]]|rewrite map_length, firstn_length; lia|].
    assert (F' = F /\ hs' = firstn i hs1) as [-> ->] by (rewrite CC in D; injection D; auto).
    pose proof (check_does bs u "p1v" [last (firstn i ps1) p0] fi ltac:(now left)) as Q.
    rewrite (p1v_result no_limit bs u (last (firstn i ps1) p0) fi F H1) in Q. rewrite (V bs (v_rho u) F ltac:(lia)) in Q. exact Q. }
  (* phase 2 *)
  cbn [session] in S2. destruct (tool no_limit bs (l_inv (mkLine vn "p2n" [P1; r1; p2])) (l_name (mkLine vn "p2n" [P1; r1; p2])) (l_args (mkLine vn "p2n" [P1; r1; p2])) (start f1)) as [r2 w2] eqn:T2.
  destruct (session no_limit bs (chain "p2c" vs2 p2 ps2) (w_fs w2)) as [rs2 fe2] eqn:C2. injection S2 as -> -> ->.
  assert (X2 : session no_limit bs (checked "p2c" "p2v" [p2] vs2 us2 p2 ps2) (w_fs w2) = (shown [] hs2, f3)).
  { apply checked_session; auto. intros i fi u Hi Si. cbn [app].
    destruct (phase2_lines bs vn (firstn i vs2) p _ _ _ P1 r1 p2 (firstn i ps2) cs k f1 B II KD NC HW (moves_firstn _ _ i M2)) as [hs [g [LH [S [V _]]]]].
    - intros I. apply I2. now apply in_firstn in I.
    - intros I. apply IE. now apply in_firstn in I.
    - now rewrite !firstn_length, L2.
    - rewrite firstn_length. lia.
    - eapply aligned_le; [|exact AL]. rewrite firstn_length. lia.
    - intros v I. apply NZ. now apply in_firstn in I.
    - cbn [session] in S. rewrite T2, Si in S. injection S as S <-. apply ok_inj in S. subst hs.
      apply V. destruct vs2; [cbn in Hi; lia|destruct i; [lia|discriminate]]. }
  eapply session_cons; [split; [unfold result_of|unfold after]; rewrite T0; reflexivity|].
  eapply session_app; [exact X1|].
  eapply session_cons; [split; [unfold result_of|unfold after]; rewrite T2; reflexivity|].
  eapply session_app; [exact X2|]. eapply session_cons; [exact D4|reflexivity].
Qed.
Lemma keys_line dev (v : inv E) a w : exists e, tool dev bs v "keys" [a] w = (Err e, w).
Proof. apply bad_line_safe. apply (bad_count "keys" 2); [cbn; tauto|discriminate]. Qed.
End Readme.
