(* ProcClaims.v -- command lines run at the same time. *)
From Coq Require Import String.
From Verif Require Import Base Fld Conc Parallel IO Ext Spec1 Phase1 Gob Circuit Spec2 Phase2 Fs Init2 Keys Live LiveCmd LiveLemmas LiveClaims LiveTwin Spec5 Spec6 Cli CliClaims Session Spec10 Locality Proc ProcLemmas ProcUses ProcLogs.

Section Claims.
Context {E : Ext2}.
Variable bs : nat.
Definition job := (device * line E)%type.
Lemma launch_solo (j : job) f : exists l, solo (launch (fst j) bs (snd j)) f =
  ((result_of (tool (fst j) bs (l_inv (snd j)) (l_name (snd j)) (l_args (snd j))) f, l), after (tool (fst j) bs (l_inv (snd j)) (l_name (snd j)) (l_args (snd j))) f).
Proof. destruct j as [dev x]. eexists. exact (same_tool dev bs (l_inv x) (l_name x) (l_args x) (start f)). Qed.
Lemma concurrent (js : list job) f :
  (forall i j x y, i <> j -> nth_error js i = Some x -> nth_error js j = Some y ->
     strangers (l_name (snd x)) (l_args (snd x)) (l_name (snd y)) (l_args (snd y))) ->
  exists need : nat -> nat, forall sch,
  let '(ps, g) := together sch (map (fun x : job => launch (fst x) bs (snd x)) js) f in
  (forall i x, nth_error js i = Some x ->
     let c := tool (fst x) bs (l_inv (snd x)) (l_name (snd x)) (l_args (snd x)) in
     ((need i <= count_occ Nat.eq_dec sch i)%nat -> exists rl, nth_error ps i = Some (Done rl)) /\
     forall r l, nth_error ps i = Some (Done (r, l)) -> r = result_of c f /\ forall q, In q (outputs (l_name (snd x)) (l_args (snd x))) -> g q = after c f q) /\
  (forall i x, nth_error js i = Some x -> exists h, killed (tool (fst x) bs (l_inv (snd x)) (l_name (snd x)) (l_args (snd x))) f h /\
     forall q, In q (outputs (l_name (snd x)) (l_args (snd x))) -> g q = h q) /\
  forall q, (forall x, In x js -> ~ In q (outputs (l_name (snd x)) (l_args (snd x)))) -> g q = f q.
Proof.
  intros D.
  set (O := fun i q => match nth_error js i with Some x => In q (outputs (l_name (snd x)) (l_args (snd x))) | None => False end).
  set (V := fun i q => match nth_error js i with Some x => In q (inputs (l_name (snd x)) (l_args (snd x))) \/ In q (outputs (l_name (snd x)) (l_args (snd x))) | None => False end).
  assert (NE : exists need : nat -> nat, forall i x, nth_error js i = Some x -> forall n, (need i <= n)%nat ->
    let p := launch (fst x) bs (snd x) in steps n p f = (snd (solo p f), Done (fst (solo p f)))).
  { clear. induction js as [|x js [need IH]]; [exists (fun _ => 0%nat); intros [|i] x H; discriminate H|].
    destruct (finishes (launch (fst x) bs (snd x)) f) as [m M]. exists (fun i => match i with 0%nat => m | S i => need i end).
    intros [|i] y H; cbn [nth_error] in H; [injection H as <-; exact M|now apply IH]. }
  destruct NE as [need NE]. exists need. intros sch.
  pose proof (together_apart V O sch (map (fun x : job => launch (fst x) bs (snd x)) js) f (fun _ => f)) as T.
  destruct (together sch (map (fun x : job => launch (fst x) bs (snd x)) js) f) as [ps g].
  destruct T as [T1 T2].
  - intros i q. unfold O, V. destruct (nth_error js i); auto.
  - intros i j q N. unfold O, V. destruct (nth_error js i) as [x|] eqn:X; [|intros []]. destruct (nth_error js j) as [y|] eqn:Y; [|intros _ []].
    intros Q. destruct (D i j x y N X Y q) as [D1 _]. destruct (D1 Q). tauto.
  - intros i p P. split; [|intros ? ?; reflexivity].
    rewrite nth_error_map in P. unfold O, V. destruct (nth_error js i) as [x|] eqn:X; [|discriminate P]. injection P as <-.
    apply keeps_tool; auto.
  - split.
    + intros i x X c. assert (M : nth_error (map (fun x : job => launch (fst x) bs (snd x)) js) i = Some (launch (fst x) bs (snd x))) by (rewrite nth_error_map, X; reflexivity).
      specialize (T1 i _ M). split.
      * intros L. rewrite (NE i x X _ L) in T1. destruct T1 as [T1 _]. eexists. exact T1.
      * intros r l R. pose proof (steps_solo (count_occ Nat.eq_dec sch i) (launch (fst x) bs (snd x)) f) as S.
        destruct (steps (count_occ Nat.eq_dec sch i) (launch (fst x) bs (snd x)) f) as [h p']. destruct T1 as [T0 T1]. rewrite R in T0. injection T0 as <-. cbn [solo] in S.
        destruct (launch_solo x f) as [l1 L1]. rewrite L1 in S. injection S as -> _ ->. split; [reflexivity|]. intros q Q. apply T1. unfold V. rewrite X. now right.
    + split; [|intros q Q; apply T2; intros i p P; rewrite nth_error_map in P; unfold O; destruct (nth_error js i) as [x|] eqn:X; [|intros []];
        apply Q; eapply nth_error_In; exact X].
      intros i x X. assert (M : nth_error (map (fun x : job => launch (fst x) bs (snd x)) js) i = Some (launch (fst x) bs (snd x))) by (rewrite nth_error_map, X; reflexivity).
      specialize (T1 i _ M). destruct (launch_killed (fst x) bs (l_inv (snd x)) (l_name (snd x)) (l_args (snd x)) f (count_occ Nat.eq_dec sch i)) as [h [K1 K2]].
      exists h. split; [exact K1|]. intros q Q. rewrite <- K2. unfold launch in T1.
      destruct (steps (count_occ Nat.eq_dec sch i) (ptool (fst x) bs (l_inv (snd x)) (l_name (snd x)) (l_args (snd x)) (mkL 0 0 [])) f) as [h' p'].
      destruct T1 as [_ T1]. apply T1. unfold V. rewrite X. now right.
Qed.
End Claims.
