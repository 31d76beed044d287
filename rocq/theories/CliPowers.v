(* CliPowers.v -- p1n at the command line for every number. *)
From Coq Require Import String.
From Verif Require Import Base Fld Conc Parallel IO Ext Spec1 Phase1 Gob GobLemmas Circuit Spec2 Phase2 Fs Init2 Init2More Spec3 Spec4 Keys Phase1Io Phase1Verify Phase1Facts Phase1Claims Phase2Claims KeysLemmas KeysClaims KeysProps Live LiveLemmas LiveCmd LiveClaims Spec5 LiveProps OnlyA Spec6 Cli CliClaims Session Phase1More LiveMore LiveTwin SessionClaims.
Local Open Scope lcmd_scope.

Lemma p1n_line (E : Ext2) bs (v : inv E) s z op f : numeral s z -> op <> EmptyString ->
  let c := tool no_limit bs v "p1n" [s; op] in
  ((26 < z)%Z -> result_of c f = Err EPower26 /\ after c f = f) /\
  ((z <= 26)%Z -> result_of c f = Ok [] /\ (forall q, q <> op -> after c f q = f q) /\
    exists p, Z.of_nat p = (z mod 256)%Z /\
      (p <= 62 -> after c f op = Some (file1 p (srs_of p (1 : E)%F 1%F 1%F) [])) /\
      (63 <= p -> after c f op = Some (b8 (N.of_nat p) :: be16 0 ++ g2c (1 : E)%F))).
Proof.
  intros N O c. unfold c.
  change (tool no_limit bs v "p1n" [s; op]) with
    (int_arg s (fun p => if (p >? 26)%Z then lfail EPower26 else quiet (l_initialize (E := E) no_limit (to_byte p) op))).
  unfold int_arg. rewrite (proj2 (atoi_iff s z) N). rewrite Z.gtb_ltb. split; intros H.
  { rewrite (proj2 (Z.ltb_lt 26 z)) by lia. split; reflexivity. }
  rewrite (proj2 (Z.ltb_ge 26 z)) by lia. pose proof (Z.mod_pos_bound z 256 ltac:(lia)) as B.
  set (b := to_byte z). destruct (exec (initialize (E := E) b) [] []) as [r W] eqn:X.
  destruct (c55_i (E := E) b op f _ _ O X) as [A1 A2].
  assert (R : result_of (quiet (l_initialize (E := E) no_limit b op)) f = match r with Ok _ => Ok [] | Err e => Err e | Panic => Panic end).
  { unfold result_of, quiet, lbind in *. destruct (l_initialize (E := E) no_limit b op (start f)) as [r0 w]. cbn [fst] in A1. subst r0. now destruct r. }
  assert (F : after (quiet (l_initialize (E := E) no_limit b op)) f = after (l_initialize (E := E) no_limit b op) f).
  { apply map_results. intros x w. exists []. reflexivity. }
  rewrite R, F, A2.
  assert (G : exists p, Z.of_nat p = (z mod 256)%Z) by (exists (Z.to_nat (z mod 256)); lia). destruct G as [p P].
  assert (Q : b = b8 (N.of_nat p)) by (unfold b, to_byte; f_equal; lia).
  assert (K : r = Ok tt /\ (p <= 62 -> W = file1 p (srs_of p (1 : E)%F 1%F 1%F) []) /\ (63 <= p -> W = b8 (N.of_nat p) :: be16 0 ++ g2c (1 : E)%F)).
  { destruct (Nat.le_gt_cases p 62) as [L|L].
    - pose proof (initialize_ev (E := E) p (opened [], opened []) L) as D. apply ev_exec in D. rewrite Q in X.
      unfold exec in X, D. rewrite X in D. injection D as -> ->. split; [reflexivity|]. split; [reflexivity|lia].
    - pose proof (p1n_negative (E := E) (Z.of_nat p - 256) [] [] ltac:(lia)) as D.
      replace ((Z.of_nat p - 256) mod 256)%Z with (Z.of_nat p) in D by (rewrite <- (Z_mod_plus_full (Z.of_nat p - 256) 1 256), Z.mod_small; lia).
      specialize (D ltac:(lia)). unfold p1n in D. destruct (Z.gtb_spec (Z.of_nat p - 256) 26) as [J|_]; [lia|].
      replace ((Z.of_nat p - 256) mod 256)%Z with (Z.of_nat p) in D by (rewrite <- (Z_mod_plus_full (Z.of_nat p - 256) 1 256), Z.mod_small; lia).
      replace (Z.to_N (Z.of_nat p)) with (N.of_nat p) in D by lia. rewrite <- Q, X in D. injection D as -> ->. rewrite Q.
      split; [reflexivity|]. split; [lia|reflexivity]. }
  destruct K as [-> [K1 K2]]. split; [reflexivity|]. split.
  - intros q NQ. pose proof (c18_initialize (E := E) no_limit b op f) as C. refine (proj1 (C q _)). intros [<-|[]]. now apply NQ.
  - exists p. split; [exact P|]. split; intros L; [now rewrite K1|now rewrite K2].
Qed.
