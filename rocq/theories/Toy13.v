(* Toy13.v -- processes for Prop14.v in the directory of Toy12.v. *)
From Coq Require Import String.
From Verif Require Import Base Fld IO Ext Spec1 Phase1 Gob Circuit Spec2 Fs Live Spec5 Spec6 Cli Session Spec10 Toy2 Toy3 Toy4 Toy6 Toy7 Toy12 Proc Spec11.

Definition done (p : proc (res (list bytes) * loc)) : option nat := match p with Done (Ok l, _) => Some (List.length l) | _ => None end.
(* a contribution on a disk that is big enough, p2n and a verification, all from the same phase-1 file *)
Definition trio : list (device * line Toy2) :=
  [(disk 5000, mkLine i0 "p1c" ["p1b"; "c1"]); (no_limit, mkLine i0 "p2n" ["p1b"; "r1cs"; "p2"]); (no_limit, mkLine i0 "p1v" ["p1b"])]%string.
Definition turns (n m : nat) : list nat := flat_map (fun _ => seq 0 n) (seq 0 m).
Lemma trio_strangers i j x y : i <> j -> nth_error trio i = Some x -> nth_error trio j = Some y ->
  strangers (l_name (snd x)) (l_args (snd x)) (l_name (snd y)) (l_args (snd y)).
Proof.
  intros N X Y. apply strangersb_ok.
  destruct i as [|[|[|i]]]; [| | |destruct i; discriminate X]; (destruct j as [|[|[|j]]]; [| | |destruct j; discriminate Y]); try congruence;
    injection X as <-; injection Y as <-; vm_compute; reflexivity.
Qed.
(* p2n for two phase-1 files at the same time: the first has written srs.lag when the second starts, and goes on when
   it has finished *)
Definition race : list nat := repeat 0 49 ++ repeat 1 132 ++ repeat 0 83.
Lemma sizes_succeeded l : forallb (fun x => match x with Some _ => true | None => false end) (sizes l) = true -> succeeded l.
Proof.
  intros H r R. induction l as [|x l IH]; [destruct R|]. cbn [sizes map forallb] in H. apply andb_prop in H as [H1 H2].
  destruct R as [->|R]; [destruct r as [y|e|]; [now exists y|discriminate H1|discriminate H1]|now apply IH].
Qed.
Lemma race_lost : exists (E : Ext2) bs (v : inv E) sch f,
  let run := together sch [launch no_limit bs (mkLine v "p2n" ["p1b"; "r1cs"; "pA"]); launch no_limit bs (mkLine v "p2n" ["p1a"; "r1cs"; "pB"])]%string f in
  let alone := tool no_limit bs v "p2n" ["p1b"; "r1cs"; "pA"]%string in
  let rest := session no_limit bs [mkLine v "p2c" ["pA"; "pC"]; mkLine v "p2v" ["pC"; "pA"]; mkLine v "key" ["pC"]]%string in
  succeeded (map outcome (fst run)) /\ succeeded [result_of alone f] /\
  succeeded (fst (rest (snd run))) /\ succeeded (fst (rest (after alone f))) /\
  forall q, In q ["pA"; "pk"; "vk"]%string -> snd (rest (snd run)) q <> snd (rest (after alone f)) q.
Proof.
  exists Toy2, 2%nat, i0, race, cf. cbv zeta. do 4 (split; [apply sizes_succeeded; vm_compute; reflexivity|]).
  intros q [<-|[<-|[<-|[]]]]; vm_compute; discriminate.
Qed.
