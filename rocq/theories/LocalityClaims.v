(* LocalityClaims.v -- commands depend on their inputs only; interrupted commands; sessions side by side. *)
From Coq Require Import String.
From Verif Require Import Base Fld Conc Parallel IO Ext Spec1 Phase1 Gob Circuit Spec2 Phase2 Fs Init2 Keys Live LiveCmd LiveLemmas LiveClaims LiveTwin Spec5 Spec6 Cli CliClaims Session Spec10 Locality.
Local Open Scope lcmd_scope.

Section Tool.
Context {E : Ext2}.
Variable dev : device.
Variable bs : nat.
Variable v : inv E.
Variable I : string -> Prop.
Lemma local_quiet l l' c : local dev I l l' c -> local dev I l l' (quiet c).
Proof. intros H. unfold quiet. eapply local_bind; [exact H|intros _; apply local_ret]. Qed.
Lemma local_int l l' s k : (forall z, local dev I l l' (k z)) -> local dev I l l' (int_arg s k).
Proof. intros H. unfold int_arg. destruct (atoi s); [apply H|apply local_fail]. Qed.
Lemma local_verify ip tp : I ip -> I tp -> local dev I [] [] (l_verify dev bs v ip tp).
Proof.
  intros H T. unfold l_verify. eapply local_bind; [apply local_open; now left|intros _]. intros w1 w2 P M.
  assert (Q : w_fs w1 tp = w_fs w2 tp) by (destruct P as (_ & _ & _ & S & _); apply S; now left). cbv zeta. rewrite Q.
  exact (local_stage dev I [] (verify bs (v_rho v) (match tp with EmptyString => None | _ => Some (match w_fs w2 tp with Some _ => true | None => false end) end))
    ip (match tp with EmptyString => ip | _ => tp end) [] ltac:(intros q []) ltac:(right; split; left; [exact H|destruct tp; assumption]) w1 w2 P M).
Qed.
Lemma local_verify1 ip : I ip -> local dev I [] [] (l_verify dev bs v ip EmptyString).
Proof.
  intros H. unfold l_verify. eapply local_bind; [apply local_open; now left|intros _].
  exact (local_stage dev I [] (verify bs (v_rho v) None) ip ip [] ltac:(intros q []) ltac:(right; split; left; exact H)).
Qed.
Lemma local_verify2 ip op : I ip -> I op -> local dev I [] [] (l_verify2 dev bs v ip op).
Proof.
  intros H O. unfold l_verify2. do 2 (eapply local_bind; [apply local_open; now left|intros _]).
  apply local_stage; [intros q []|]. right. split; now left.
Qed.
Lemma local_sol s : I (vks_path s) -> local dev I [] [sol_path s] (l_sol dev v s).
Proof.
  intros H w1 w2 P M. unfold l_sol. assert (Q : w_fs w1 (vks_path s) = w_fs w2 (vks_path s)) by (destruct P as (_ & _ & _ & S & _); apply S; now left).
  rewrite Q. destruct (match w_fs w2 (vks_path s) with Some b => v_sol v b | None => None end) as [text|]; [|split; [reflexivity|split; [exact P|exact Logic.I]]].
  assert (L : local dev I [] [sol_path s] (lcreate dev (sol_path s) ;;; lstage dev (write 0 text) EmptyString EmptyString [sol_path s])).
  { eapply local_bind; [apply local_create|intros _]. apply local_stage; [auto|]. left. apply noread_write. }
  destruct (L w1 w2 P M) as [A [B C]].
  destruct ((lcreate dev (sol_path s) ;;; lstage dev (write 0 text) EmptyString EmptyString [sol_path s]) w1) as [r1 v1],
           ((lcreate dev (sol_path s) ;;; lstage dev (write 0 text) EmptyString EmptyString [sol_path s]) w2) as [r2 v2].
  cbn [fst snd] in *. subst r2. destruct r1; cbn [fst snd]; auto.
Qed.
Lemma tool_local n a : (forall q, In q (inputs n a) -> I q) -> local dev I [] (outputs n a) (tool dev bs v n a).
Proof.
  intros S. unfold tool. destruct (find (fun x => String.eqb (fst x) n) (table dev bs v)) as [[m act]|] eqn:F; [|apply local_fail].
  apply find_some in F as [J Q]. cbn [fst] in Q. apply String.eqb_eq in Q. subst m.
  cbn [table In] in J.
  destruct J as [J|[J|[J|[J|[J|[J|[J|[J|[J|[J|[J|[J|[]]]]]]]]]]]]]; injection J as <- <-.
  - destruct a as [|x [|o [|? ?]]]; try apply local_fail. apply local_int. intros z. destruct (z >? 26)%Z; [apply local_fail|].
    apply local_quiet, local_initialize.
  - destruct a as [|x [|o [|? ?]]]; try apply local_fail. eapply local_bind; [|intros h; apply local_ret].
    apply (local_one dev I (contribute bs (v_w v)) x o). apply S. now left.
  - destruct a as [|x [|? ?]]; try apply local_fail. apply local_verify1. apply S. now left.
  - destruct a as [|x [|o [|s [|t [|? ?]]]]]; try apply local_fail. apply local_int. intros i. apply local_int. intros j.
    destruct (i <? j)%Z; [apply local_fail|]. apply local_quiet. apply (local_one dev I (transform (E := E) (to_byte i) (to_byte j)) x o). apply S. now left.
  - destruct a as [|x [|o [|? ?]]]; try apply local_fail. apply local_verify; apply S; [now left|right; now left].
  - destruct a as [|x [|r [|o [|? ?]]]]; try apply local_fail. apply local_quiet. eapply local_weak; [|apply local_p2n; apply S; [now left|right; now left]].
    intros q [<-|[<-|[<-|[]]]]; cbn; tauto.
  - destruct a as [|x [|r [|o [|s [|t [|u [|? ?]]]]]]]; try apply local_fail. do 3 (apply local_int; intros ?). apply local_quiet.
    eapply local_weak; [|apply local_p2np; apply S; now left]. intros q [<-|[<-|[<-|[]]]]; cbn; tauto.
  - destruct a as [|x [|o [|? ?]]]; try apply local_fail. eapply local_bind; [|intros h; apply local_ret].
    apply (local_one dev I (contribute2 bs (v_d v) (v_s v)) x o). apply S. now left.
  - destruct a as [|x [|o [|? ?]]]; try apply local_fail. apply local_verify2; apply S; [now left|right; now left].
  - destruct a as [|x [|? ?]]; try apply local_fail. apply local_quiet. eapply local_weak; [|apply local_keys; apply S; [now left|right; now left]].
    intros q [<-|[<-|[]]]; cbn; tauto.
  - destruct a as [|x [|o [|? ?]]]; try apply local_fail. apply local_quiet.
    eapply local_weak; [|apply local_split_keys; apply S; [now left|right; now left]].
    intros q H. cbn -[append] in H |- *. tauto.
  - destruct a as [|x [|? ?]]; try apply local_fail. apply local_quiet, local_sol. apply S. now left.
Qed.
End Tool.

Section Claims.
Context {E : Ext2}.
Variable bs : nat.

(* the same to both file systems, and what is not done the same way is not done at all *)
Lemma depends dev (v : inv E) n a f f' : (forall q, In q (inputs n a) -> f q = f' q) ->
  result_of (tool dev bs v n a) f = result_of (tool dev bs v n a) f' /\
  (forall q, after (tool dev bs v n a) f q = after (tool dev bs v n a) f' q \/
     after (tool dev bs v n a) f q = f q /\ after (tool dev bs v n a) f' q = f' q) /\
  forall x q, result_of (tool dev bs v n a) f = Ok x -> In q (outputs n a) -> after (tool dev bs v n a) f q = after (tool dev bs v n a) f' q.
Proof.
  intros H. unfold result_of, after.
  destruct (tool_local dev bs v (fun q => In q (inputs n a)) n a (fun q Q => Q) (start f) (start f')) as [A [(_ & _ & O & S & T & _) M]].
  - unfold par, cut. cbn [start w_used w_calls w_ops w_fs In]. repeat split; auto; [intros q [Q|[]]; auto|intros [|k] q Q; discriminate Q].
  - intros q [].
  - split; [exact A|]. destruct (tool_only dev bs v n a (start f)) as [l [L1 [L2 _]]], (tool_only dev bs v n a (start f')) as [l' [L1' [L2' _]]].
    cbn [start w_ops w_fs app] in L1, L2, L1', L2'. rewrite O, L1' in L1. subst l'. split.
    + intros q. assert (D : In (OTrunc q) l \/ ~ In (OTrunc q) l).
      { assert (DD : forall x : osop, {x = OTrunc q} + {x <> OTrunc q}).
        { intros [p|p d]; [|right; discriminate]. destruct (string_dec p q) as [->|N]; [now left|right; congruence]. }
        clear -DD. induction l as [|x l IH]; [right; intros []|]. destruct (DD x) as [->|N]; [left; now left|].
        destruct IH as [IH|IH]; [left; now right|right; intros [K|K]; auto]. }
      destruct D as [D|D].
      * left. apply S. right. unfold cut. now rewrite O, L1'.
      * right. rewrite L2, L2'. assert (U : forall g, replay l g q = g q); [|now rewrite !U].
        assert (NA : forall d, ~ In (OApp q d) l). { intros d K. apply D. rewrite <- L1', <- O. apply (T q d). now rewrite O, L1'. }
        clear -D NA. induction l as [|o l IH]; intros g; [reflexivity|]. change (replay (o :: l) g) with (replay l (op_do g o)).
        rewrite IH; [|intros K; apply D; now right|intros d K; apply (NA d); now right].
        destruct o as [p|p d]; cbn [op_do]; apply fset_other; intros ->; [apply D; now left|apply (NA d); now left].
    + intros x q R Q. rewrite R in M. apply S. right. now apply M.
Qed.

Lemma interrupted_same n a f g q : interrupted (E := E) bs n a f g -> ~ In q (outputs n a) -> g q = f q.
Proof.
  intros H N. induction H as [|dev v f g h K _ IH]; [reflexivity|]. rewrite IH. exact (proj2 (tool_confined dev bs v n a f q N) g K).
Qed.
Lemma again n a f g : apart n a -> interrupted (E := E) bs n a f g -> forall dev (v : inv E),
  result_of (tool dev bs v n a) g = result_of (tool dev bs v n a) f /\
  forall x, result_of (tool dev bs v n a) f = Ok x -> forall q, after (tool dev bs v n a) g q = after (tool dev bs v n a) f q.
Proof.
  intros D H dev v. destruct (depends dev v n a f g) as [A [_ C]].
  - intros q Q. symmetry. apply (interrupted_same n a f g q H). now apply D.
  - split; [now symmetry|]. intros x R q. destruct (in_dec string_dec q (outputs n a)) as [J|J].
    + symmetry. exact (C x q R J).
    + rewrite (proj1 (tool_confined dev bs v n a f q J)), (proj1 (tool_confined dev bs v n a g q J)). exact (interrupted_same n a f g q H J).
Qed.

(* ---- sessions side by side ---- *)
Definition used (l : list (line E)) (q : string) : Prop := exists x, In x l /\ (In q (inputs (l_name x) (l_args x)) \/ In q (outputs (l_name x) (l_args x))).
Lemma session_cons dev (x : line E) l f : session dev bs (x :: l) f =
  let c := tool dev bs (l_inv x) (l_name x) (l_args x) in
  (result_of c f :: fst (session dev bs l (after c f)), snd (session dev bs l (after c f))).
Proof.
  cbn [session]. unfold result_of, after. destruct (tool dev bs (l_inv x) (l_name x) (l_args x) (start f)) as [r w]. cbn [fst snd].
  destruct (session dev bs l (w_fs w)) as [rs g]. reflexivity.
Qed.
Lemma side_by_side dev (U1 U2 : string -> Prop) (l1 l2 l : list (line E)) : merge l1 l2 l -> forall f f1 f2,
  (forall x q, In x l1 -> In q (inputs (l_name x) (l_args x)) \/ In q (outputs (l_name x) (l_args x)) -> U1 q) ->
  (forall x q, In x l2 -> In q (inputs (l_name x) (l_args x)) \/ In q (outputs (l_name x) (l_args x)) -> U2 q) ->
  (forall x q, In x l1 -> In q (outputs (l_name x) (l_args x)) -> ~ U2 q) ->
  (forall x q, In x l2 -> In q (outputs (l_name x) (l_args x)) -> ~ U1 q) ->
  (forall q, U1 q -> f q = f1 q) -> (forall q, U2 q -> f q = f2 q) ->
  merge (combine l1 (fst (session dev bs l1 f1))) (combine l2 (fst (session dev bs l2 f2))) (combine l (fst (session dev bs l f))) /\
  (forall q, U1 q -> snd (session dev bs l f) q = snd (session dev bs l1 f1) q) /\
  (forall q, U2 q -> snd (session dev bs l f) q = snd (session dev bs l2 f2) q) /\
  (forall q, ~ In q (written l1) -> ~ In q (written l2) -> snd (session dev bs l f) q = f q).
Proof.
  assert (STEP : forall (U : string -> Prop) (x : line E) f f', (forall q, In q (inputs (l_name x) (l_args x)) -> U q) -> (forall q, U q -> f q = f' q) ->
    let c := tool dev bs (l_inv x) (l_name x) (l_args x) in result_of c f = result_of c f' /\ forall q, U q -> after c f q = after c f' q).
  { intros U x f f' IU A c. destruct (depends dev (l_inv x) (l_name x) (l_args x) f f') as [R [S _]]; [auto|]. split; [exact R|].
    intros q Q. destruct (S q) as [K|[K K']]; [exact K|]. unfold c. rewrite K, K'. auto. }
  intros M. induction M as [|x l1 l2 l M IH|x l1 l2 l M IH]; intros f f1 f2 I1 I2 O1 O2 A1 A2.
  - split; [constructor|]. split; [exact A1|]. split; [exact A2|]. reflexivity.
  - rewrite !session_cons. cbv zeta. cbn [fst snd combine].
    destruct (STEP U1 x f f1) as [R S]; [intros q Q; apply (I1 x q); [now left|now left]|exact A1|].
    set (c := tool dev bs (l_inv x) (l_name x) (l_args x)) in *. rewrite R.
    destruct (IH (after c f) (after c f1) f2) as [B1 [B2 [B3 B4]]].
    + intros y q Y. exact (I1 y q (or_intror Y)).
    + exact I2.
    + intros y q Y. exact (O1 y q (or_intror Y)).
    + exact O2.
    + exact S.
    + intros q Q. rewrite <- A2 by exact Q. refine (proj1 (tool_confined dev bs (l_inv x) (l_name x) (l_args x) f q _)). intros K. exact (O1 x q (or_introl eq_refl) K Q).
    + split; [constructor; exact B1|]. split; [exact B2|]. split; [exact B3|]. intros q N1 N2. rewrite B4; [|intros K; apply N1; cbn [written flat_map]; apply in_or_app; now right|exact N2].
      refine (proj1 (tool_confined dev bs (l_inv x) (l_name x) (l_args x) f q _)). intros K. apply N1. cbn [written flat_map]. apply in_or_app. now left.
  - rewrite !session_cons. cbv zeta. cbn [fst snd combine].
    destruct (STEP U2 x f f2) as [R S]; [intros q Q; apply (I2 x q); [now left|now left]|exact A2|].
    set (c := tool dev bs (l_inv x) (l_name x) (l_args x)) in *. rewrite R.
    destruct (IH (after c f) f1 (after c f2)) as [B1 [B2 [B3 B4]]].
    + exact I1.
    + intros y q Y. exact (I2 y q (or_intror Y)).
    + exact O1.
    + intros y q Y. exact (O2 y q (or_intror Y)).
    + intros q Q. rewrite <- A1 by exact Q. refine (proj1 (tool_confined dev bs (l_inv x) (l_name x) (l_args x) f q _)). intros K. exact (O2 x q (or_introl eq_refl) K Q).
    + exact S.
    + split; [constructor; exact B1|]. split; [exact B2|]. split; [exact B3|]. intros q N1 N2. rewrite B4; [|exact N1|intros K; apply N2; cbn [written flat_map]; apply in_or_app; now right].
      refine (proj1 (tool_confined dev bs (l_inv x) (l_name x) (l_args x) f q _)). intros K. apply N2. cbn [written flat_map]. apply in_or_app. now left.
Qed.
Lemma sessions_apart dev (l1 l2 l : list (line E)) f : merge l1 l2 l ->
  (forall x y, In x l1 -> In y l2 -> strangers (l_name x) (l_args x) (l_name y) (l_args y)) ->
  merge (combine l1 (fst (session dev bs l1 f))) (combine l2 (fst (session dev bs l2 f))) (combine l (fst (session dev bs l f))) /\
  forall q, (In q (written l1) -> snd (session dev bs l f) q = snd (session dev bs l1 f) q) /\
            (In q (written l2) -> snd (session dev bs l f) q = snd (session dev bs l2 f) q) /\
            (~ In q (written l1) -> ~ In q (written l2) -> snd (session dev bs l f) q = f q).
Proof.
  intros M S. destruct (side_by_side dev (used l1) (used l2) l1 l2 l M f f f) as [A [B [C D]]].
  - intros x q X Q. exists x. auto.
  - intros x q X Q. exists x. auto.
  - intros x q X Q [y [Y K]]. destruct (S x y X Y q) as [P _]. destruct (P Q) as [P1 P2]. destruct K; auto.
  - intros y q Y Q [x [X K]]. destruct (S x y X Y q) as [P1 P2]. destruct K as [K|K]; [now apply P2|]. now apply (P1 K).
  - reflexivity.
  - reflexivity.
  - assert (W : forall m q, In q (written m) -> used m q).
    { intros m q Q. apply in_flat_map in Q as [x [X Q]]. exists x. auto. }
    split; [exact A|]. intros q. split; [intros Q; apply B, W, Q|]. split; [intros Q; apply C, W, Q|apply D].
Qed.
End Claims.
