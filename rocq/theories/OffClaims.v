(* OffClaims.v -- outputs with offsets: the claims. *)
From Coq Require Import String.
From Verif Require Import Base Fld Conc Parallel IO Ext Spec1 Phase1 Gob Circuit Spec2 Phase2 Fs Init2 Keys Live LiveCmd LiveLemmas LiveClaims LiveTwin Spec5 Spec6 Cli CliClaims Session Spec10 Locality Proc ProcLemmas ProcUses ProcClaims Spec24 Off OffLemmas OffCmd.

Lemma append_cancel (s a b : string) : (s ++ a)%string = (s ++ b)%string -> a = b.
Proof. induction s as [|c s IH]; cbn; intros H; [exact H|]. injection H as H. auto. Qed.
Lemma NoDup_map_cancel s l : NoDup l -> NoDup (map (fun x => s ++ x)%string l).
Proof.
  intros N. induction N as [|x l Nx N IH]; cbn; constructor; [|exact IH]. intros H. apply in_map_iff in H as (y & H1 & H2). apply append_cancel in H1. congruence.
Qed.
Lemma three (o a b : string) : a <> b -> (~ NoDup [o; a; b] <-> o = a \/ o = b).
Proof.
  intros AB. split.
  - intros H. destruct (string_dec o a) as [->|A]; [now left|]. destruct (string_dec o b) as [->|B]; [now right|]. elim H.
    constructor; [intros [Q|[Q|[]]]; congruence|]. constructor; [intros [Q|[]]; congruence|]. constructor; [intros []|constructor].
  - intros H N. inversion N as [|? ? N1 _]. apply N1. destruct H as [->| ->]; cbn; auto.
Qed.
Lemma folded_iff n a : folded n a <-> ~ NoDup (outputs n a).
Proof.
  assert (LE : "srs.lag"%string <> "evals"%string) by discriminate.
  assert (N1 : forall s : string, ~ ~ NoDup [s]) by (intros s H; apply H; constructor; [intros []|constructor]).
  assert (N0 : ~ ~ NoDup (@nil string)) by (intros H; apply H; constructor).
  split.
  - intros (p1 & r1 & o & O & [[-> ->]|(s & t & u & -> & ->)]); cbn [outputs String.eqb]; apply three; auto.
  - intros H. unfold outputs in H. destruct a as [|x [|y [|z [|u [|w [|t [|? ?]]]]]]]; try contradiction.
    + destruct (n =? "key")%string; [|destruct (n =? "sol")%string; [|contradiction]].
      * elim H. constructor; [intros [Q|[]]; discriminate|]. constructor; [intros []|constructor].
      * elim (N1 _ H).
    + destruct (_ || _ || _); [elim (N1 _ H)|]. destruct (n =? "keys")%string; [|contradiction]. elim H. apply NoDup_map_cancel.
      repeat (constructor; [cbn; intuition discriminate|]). constructor.
    + destruct (String.eqb_spec n "p2n") as [->|]; [|contradiction]. exists x, y, z. split; [now apply three in H|left; now split].
    + destruct (n =? "p1t")%string; [elim (N1 _ H)|contradiction].
    + destruct (String.eqb_spec n "p2np") as [->|]; [|contradiction]. exists x, y, z. split; [now apply three in H|right; exists u, w, t; now split].
Qed.
Lemma nodup_or (l : list string) : NoDup l \/ ~ NoDup l.
Proof.
  induction l as [|x l IH]; [left; constructor|]. destruct (in_dec string_dec x l) as [I|I]; [right; intros N; inversion N; contradiction|].
  destruct IH as [N|N]; [left; now constructor|right; intros M; inversion M; contradiction].
Qed.
Lemma not_folded n a : ~ folded n a -> NoDup (outputs n a).
Proof. intros H. rewrite folded_iff in H. destruct (nodup_or (outputs n a)); tauto. Qed.

Section Claims.
Context {E : Ext2}.
Variable bs : nat.
Lemma launch_sim (W : string -> Prop) dev (x : line E) f : ~ folded (l_name x) (l_args x) -> (forall q, In q (outputs (l_name x) (l_args x)) -> W q) ->
  sim W (post (fun _ => True) any) (flaunch dev bs x) (launch dev bs x) f.
Proof.
  intros N T. unfold flaunch, launch. apply sim_tool; [now apply not_folded|exact T| |exact Logic.I]. intros [|o] q Q; discriminate Q.
Qed.
Lemma post_ending {X} (a : res X * (loc * (nat -> nat))) b f : post (fun _ => True) any a b f -> fst a = fst b.
Proof. intros (_ & _ & H). destruct (fst a), (fst b); try contradiction; unfold any in *; congruence. Qed.
Lemma offsets_together (js : list (device * line E)) sch f :
  (forall x, In x js -> ~ folded (l_name (snd x)) (l_args (snd x))) ->
  apart_outputs (map (fun x => (l_name (snd x), l_args (snd x))) js) ->
  let real := together sch (map (fun x => flaunch (fst x) bs (snd x)) js) f in
  let model := together sch (map (fun x => launch (fst x) bs (snd x)) js) f in
  snd real = snd model /\ map ending (fst real) = map ending (fst model).
Proof.
  intros N D. cbv zeta.
  pose (W := fun i q => match nth_error js i with Some x => In q (outputs (l_name (snd x)) (l_args (snd x))) | None => False end).
  pose proof (sim_together (post (X := list bytes) (fun _ => True) any) W) as T.
  specialize (T) with (sch := sch) (ps := map (fun x => flaunch (fst x) bs (snd x)) js) (qs := map (fun x => launch (fst x) bs (snd x)) js) (f := f).
  destruct (together sch (map (fun x => flaunch (fst x) bs (snd x)) js) f) as [ps g], (together sch (map (fun x => launch (fst x) bs (snd x)) js) f) as [qs g'].
  destruct T as (<- & L & S).
  - intros i j q Nij. unfold W. destruct (nth_error js i) as [x|] eqn:X; [|intros []]. destruct (nth_error js j) as [y|] eqn:Y; [|intros _ []]. intros A B.
    refine (D i j (l_name (snd x)) (l_args (snd x)) (l_name (snd y)) (l_args (snd y)) q Nij _ _ A B); rewrite nth_error_map; [rewrite X|rewrite Y]; reflexivity.
  - now rewrite !map_length.
  - intros i p q. rewrite !nth_error_map. destruct (nth_error js i) as [x|] eqn:X; [|discriminate]. cbn. intros P Q. injection P as <-. injection Q as <-.
    apply launch_sim; [apply N; eapply nth_error_In, X|]. intros q Q. unfold W. rewrite X. exact Q.
  - cbn [fst snd]. split; [reflexivity|]. clear - L S.
    assert (H : forall i, nth_error (map ending ps) i = nth_error (map ending qs) i).
    { intros i. rewrite !nth_error_map. destruct (nth_error ps i) as [p|] eqn:P, (nth_error qs i) as [q|] eqn:Q; try reflexivity.
      - cbn. f_equal. specialize (S i p q P Q). destruct S as [a b h S|k k' h _ _ _]; [|reflexivity]. specialize (S h (agree_refl _ h)). apply post_ending in S.
        destruct a, b. cbn in *. congruence.
      - apply nth_error_None in Q. assert (nth_error ps i <> None) by congruence. apply nth_error_Some in H. lia.
      - apply nth_error_None in P. assert (nth_error qs i <> None) by congruence. apply nth_error_Some in H. lia. }
    revert H. generalize (map ending ps) (map ending qs). clear. intros l1. induction l1 as [|x l1 IH]; intros [|y l2] H; try reflexivity; try (specialize (H 0%nat); discriminate H).
    f_equal; [specialize (H 0%nat); cbn in H; congruence|]. apply IH. intros i. apply (H (S i)).
Qed.
Lemma offsets_alone dev (x : line E) f : ~ folded (l_name x) (l_args x) ->
  let c := tool dev bs (l_inv x) (l_name x) (l_args x) in
  exists l, solo (flaunch dev bs x) f = ((result_of c f, l), after c f).
Proof.
  intros N c. destruct (sim_solo (fun q => In q (outputs (l_name x) (l_args x))) _ _ _ f (launch_sim _ dev x f N (fun q Q => Q))) as [A B].
  destruct (launch_solo bs (dev, x) f) as [l L]. cbn [fst snd] in L. apply post_ending in B. rewrite L in A, B. cbn [fst snd] in *.
  destruct (solo (flaunch dev bs x) f) as [[r l'] g]. cbn [fst snd] in *. subst. exists l'. reflexivity.
Qed.
End Claims.
