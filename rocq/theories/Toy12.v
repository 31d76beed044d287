(* Toy12.v -- directories and sessions for Prop12.v. *)
From Coq Require Import String.
From Verif Require Import Base Fld IO Ext Spec1 Phase1 Gob Circuit Spec2 Fs Live Spec5 Spec6 Cli Session Spec10 Toy2 Toy3 Toy4 Toy6 Toy7.

(* a directory with the phase-1 file and the circuit, and the same one full of old files *)
Definition cf : fs := snd (session no_limit 2 (firstn 3 wlines) wfs).
Definition cf' : fs := fset (fset (fset cf "evals" [b8 1; b8 2]) "p2" [b8 9]) "srs.lag" [b8 3].
(* a second phase 1 for other powers while the ceremony of Toy7.v goes on *)
Definition olines : list (line Toy2) := mkLine i0 "p1n" ["1"; "o1"]%string :: chain "p1c" ivs1 "o1" ["o2"; "o3"]%string ++ [mkLine i0 "p1v" ["o3"]%string].
Fixpoint alternate {A} (l1 l2 : list A) : list A :=
  match l1 with [] => l2 | x :: l1' => x :: match l2 with [] => l1' | y :: l2' => y :: alternate l1' l2' end end.
Lemma merge_left {A} (l : list A) : merge l [] l.
Proof. induction l; constructor; auto. Qed.
Lemma merge_right {A} (l : list A) : merge [] l l.
Proof. induction l; constructor; auto. Qed.
Lemma merge_alternate {A} (l1 : list A) : forall l2, merge l1 l2 (alternate l1 l2).
Proof.
  induction l1 as [|x l1 IH]; intros l2; cbn [alternate]; [apply merge_right|]. destruct l2 as [|y l2]; constructor; [apply merge_left|].
  constructor. apply IH.
Qed.
Definition strangersb (x y : line Toy2) : bool :=
  let ins z := inputs (l_name z) (l_args z) in let outs z := outputs (l_name z) (l_args z) in
  let no l l' := forallb (fun q => negb (existsb (String.eqb q) l')) l in
  no (outs x) (ins y) && no (outs x) (outs y) && no (outs y) (ins x).
Lemma strangersb_ok x y : strangersb x y = true -> strangers (l_name x) (l_args x) (l_name y) (l_args y).
Proof.
  assert (K : forall l l', forallb (fun q => negb (existsb (String.eqb q) l')) l = true -> forall q, In q l -> ~ In q l').
  { intros l l' H q Q N. apply (proj1 (forallb_forall _ _) H) in Q. apply Bool.negb_true_iff in Q.
    assert (X : existsb (String.eqb q) l' = true) by (apply existsb_exists; exists q; split; [exact N|apply String.eqb_refl]). congruence. }
  unfold strangersb. intros H. apply andb_prop in H as [H H3]. apply andb_prop in H as [H1 H2]. intros q. split.
  - intros Q. split; [exact (K _ _ H1 q Q)|exact (K _ _ H2 q Q)].
  - exact (K _ _ H3 q).
Qed.
