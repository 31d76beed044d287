(* Prop14.v -- C75, C76: command lines at the same time.  launch, together: Proc.v; result_of, after, killed: Spec5.v;
   outputs: Spec6.v; strangers: Spec10.v; outcome, succeeded: Spec11.v. *)
From Coq Require Import String.
From Verif Require Import Base Fld IO Ext Spec1 Phase1 Gob Circuit Spec2 Fs Live Spec5 Spec6 Cli Session Spec10 Proc Spec11 ProcClaims Toy2 Toy3 Toy4 Toy6 Toy7 Toy12 Toy13.

(* C75: any number of command lines, none of which writes what another uses, started in the directory f and run at the
   same time under any schedule, each with its own device.  Every one finishes when it has had enough turns; then it
   has the result and its outputs have the contents they have when it runs alone.  At every moment its outputs are
   those of a run alone that was killed, and all other files are as they were *)
Theorem C75_at_the_same_time : forall (E : Ext2) bs (js : list (device * line E)) f,
  (forall i j x y, i <> j -> nth_error js i = Some x -> nth_error js j = Some y ->
     strangers (l_name (snd x)) (l_args (snd x)) (l_name (snd y)) (l_args (snd y))) ->
  exists need : nat -> nat, forall sch,
  let '(ps, g) := together sch (map (fun x => launch (fst x) bs (snd x)) js) f in
  (forall i x, nth_error js i = Some x ->
     let c := tool (fst x) bs (l_inv (snd x)) (l_name (snd x)) (l_args (snd x)) in
     ((need i <= count_occ Nat.eq_dec sch i)%nat -> exists rl, nth_error ps i = Some (Done rl)) /\
     forall r l, nth_error ps i = Some (Done (r, l)) -> r = result_of c f /\ forall q, In q (outputs (l_name (snd x)) (l_args (snd x))) -> g q = after c f q) /\
  (forall i x, nth_error js i = Some x -> exists h, killed (tool (fst x) bs (l_inv (snd x)) (l_name (snd x)) (l_args (snd x))) f h /\
     forall q, In q (outputs (l_name (snd x)) (l_args (snd x))) -> g q = h q) /\
  forall q, (forall x, In x js -> ~ In q (outputs (l_name (snd x)) (l_args (snd x)))) -> g q = f q.
Proof. exact @concurrent. Qed.
Print Assumptions C75_at_the_same_time.

(* a contribution, p2n and a verification that read the same file, step by step in turns; after 20 rounds none has
   finished and p2n has written part of its files *)
Example C75_case : (forall i j x y, i <> j -> nth_error trio i = Some x -> nth_error trio j = Some y ->
     strangers (l_name (snd x)) (l_args (snd x)) (l_name (snd y)) (l_args (snd y))) /\
  map done (fst (together (turns 3 140) (map (fun x => launch (fst x) 2 (snd x)) trio) cf)) = [Some 1; Some 0; Some 2]%nat /\
  let '(ps, g) := together (turns 3 20) (map (fun x => launch (fst x) 2 (snd x)) trio) cf in
  map done ps = [None; None; None] /\ option_map (@length _) (g "srs.lag"%string) = Some 132 /\ g "evals"%string = None.
Proof. split; [exact trio_strangers|]. split; [vm_compute; reflexivity|]. vm_compute. repeat split. Qed.

(* C76: two runs of p2n with different outputs are not such, since both use srs.lag and evals.  The two runs race:
   both succeed, the contribution to and the verification of the first one's output succeed too, but this output, the
   proving key and the verifying key are others than when the first runs alone.  No file is open for writing in both
   processes at any time *)
Theorem C76_two_p2n_refuted : exists (E : Ext2) bs (v : inv E) sch f,
  let run := together sch [launch no_limit bs (mkLine v "p2n" ["p1b"; "r1cs"; "pA"]); launch no_limit bs (mkLine v "p2n" ["p1a"; "r1cs"; "pB"])]%string f in
  let alone := tool no_limit bs v "p2n" ["p1b"; "r1cs"; "pA"]%string in
  let rest := session no_limit bs [mkLine v "p2c" ["pA"; "pC"]; mkLine v "p2v" ["pC"; "pA"]; mkLine v "key" ["pC"]]%string in
  succeeded (map outcome (fst run)) /\ succeeded [result_of alone f] /\
  succeeded (fst (rest (snd run))) /\ succeeded (fst (rest (after alone f))) /\
  forall q, In q ["pA"; "pk"; "vk"]%string -> snd (rest (snd run)) q <> snd (rest (after alone f)) q.
Proof. exact race_lost. Qed.
Print Assumptions C76_two_p2n_refuted.

(* they are no strangers in the sense of C75, although their arguments have no output in common *)
Example C76_case : ~ strangers "p2n" ["p1b"; "r1cs"; "pA"]%string "p2n" ["p1a"; "r1cs"; "pB"]%string /\
  outputs "p2n" ["p1b"; "r1cs"; "pA"]%string = ["pA"; "srs.lag"; "evals"]%string /\
  outputs "p2n" ["p1a"; "r1cs"; "pB"]%string = ["pB"; "srs.lag"; "evals"]%string.
Proof.
  split; [|split; reflexivity]. intros H. destruct (H "evals"%string) as [H1 _]. apply H1; cbn; auto 8.
Qed.
