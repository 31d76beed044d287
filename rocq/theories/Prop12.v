(* Prop12.v -- properties C71 to C73: what commands depend on.  inputs, outputs: the files of a command line
   (Spec10.v, Spec6.v); interrupted, merge, strangers: Spec10.v; result_of, after: Spec5.v. *)
From Coq Require Import String.
From Verif Require Import Base Fld IO Ext Spec1 Phase1 Gob Circuit Spec2 Fs Live Spec5 Spec6 Cli Session Spec10 LocalityClaims Toy2 Toy3 Toy4 Toy6 Toy7 Toy12.

(* C71: on directories that agree on the inputs a command line gives the same result and treats every file the
   same way: it ends up the same in both or is left alone in both; after success all outputs are the same *)
Theorem C71_inputs : forall (E : Ext2) bs dev (v : inv E) n a f f', (forall q, In q (inputs n a) -> f q = f' q) ->
  result_of (tool dev bs v n a) f = result_of (tool dev bs v n a) f' /\
  (forall q, after (tool dev bs v n a) f q = after (tool dev bs v n a) f' q \/
     after (tool dev bs v n a) f q = f q /\ after (tool dev bs v n a) f' q = f' q) /\
  forall x q, result_of (tool dev bs v n a) f = Ok x -> In q (outputs n a) -> after (tool dev bs v n a) f q = after (tool dev bs v n a) f' q.
Proof. exact @depends. Qed.
Print Assumptions C71_inputs.

(* cf holds the phase-1 file and the circuit, cf' also old files *)
Example C71_case : (forall q, In q (inputs "p2n" ["p1b"; "r1cs"; "p2"]%string) -> cf q = cf' q) /\ cf "p2"%string <> cf' "p2"%string /\
  sizes [result_of (tool no_limit 2 i0 "p2n" ["p1b"; "r1cs"; "p2"]%string) cf; result_of (tool (disk 700) 2 i0 "p2n" ["p1b"; "r1cs"; "p2"]%string) cf] =
    [Some 0; None]%nat.
Proof.
  split; [intros q [<-|[<-|[]]]; vm_compute; reflexivity|]. split; vm_compute; [discriminate|reflexivity].
Qed.

(* C72: a command line whose files are apart can be run again after any number of runs that were killed *)
Theorem C72_run_again : forall (E : Ext2) bs n a f g, apart n a -> interrupted (E := E) bs n a f g ->
  forall dev (v : inv E), result_of (tool dev bs v n a) g = result_of (tool dev bs v n a) f /\
    forall x, result_of (tool dev bs v n a) f = Ok x -> forall q, after (tool dev bs v n a) g q = after (tool dev bs v n a) f q.
Proof. exact @again. Qed.
Print Assumptions C72_run_again.

(* p2n killed after half of its file operations *)
Example C72_case : let c := tool no_limit 2 i0 "p2n" ["p1b"; "r1cs"; "p2"]%string in
  apart "p2n" ["p1b"; "r1cs"; "p2"]%string /\ exists g, interrupted (E := Toy2) 2 "p2n" ["p1b"; "r1cs"; "p2"]%string cf g /\
    g "p2"%string <> cf "p2"%string /\ g "p2"%string <> after c cf "p2"%string /\ sizes [result_of c g] = [Some 0]%nat.
Proof.
  cbv zeta. split; [intros q [<-|[<-|[]]] H; vm_compute in H; intuition discriminate|].
  set (ops := w_ops (snd (tool no_limit 2 i0 "p2n" ["p1b"; "r1cs"; "p2"]%string (start cf)))).
  exists (replay (firstn 5 ops) cf). split.
  { eapply (int_more 2 _ _ no_limit i0); [|apply int_none]. exists (firstn 5 ops). split; [|reflexivity].
    left. exists (skipn 5 ops). symmetry. apply firstn_skipn. }
  split; [vm_compute; discriminate|]. split; vm_compute; [discriminate|reflexivity].
Qed.

(* C73: two sessions in one directory, mixed in any way, of which neither writes what the other uses: every
   line has the result it has without the other session, and so has every file *)
Theorem C73_sessions : forall (E : Ext2) bs dev (l1 l2 l : list (line E)) f, merge l1 l2 l ->
  (forall x y, In x l1 -> In y l2 -> strangers (l_name x) (l_args x) (l_name y) (l_args y)) ->
  merge (combine l1 (fst (session dev bs l1 f))) (combine l2 (fst (session dev bs l2 f))) (combine l (fst (session dev bs l f))) /\
  forall q, (In q (written l1) -> snd (session dev bs l f) q = snd (session dev bs l1 f) q) /\
            (In q (written l2) -> snd (session dev bs l f) q = snd (session dev bs l2 f) q) /\
            (~ In q (written l1) -> ~ In q (written l2) -> snd (session dev bs l f) q = f q).
Proof. exact @sessions_apart. Qed.
Print Assumptions C73_sessions.

(* olines: a second phase 1 for another power while the ceremony of Toy7.v goes on *)
Example C73_case : merge wlines olines (alternate wlines olines) /\
  (forall x y, In x wlines -> In y olines -> strangers (l_name x) (l_args x) (l_name y) (l_args y)) /\
  sizes (fst (session no_limit 2 (alternate wlines olines) wfs)) =
    [Some 0; Some 0; Some 1; Some 1; Some 1; Some 1; Some 2; Some 2; Some 0; Some 1; Some 1; Some 2; Some 0]%nat.
Proof.
  split; [apply merge_alternate|]. split; [|vm_compute; reflexivity].
  assert (H : forallb (fun x => forallb (strangersb x) olines) wlines = true) by (vm_compute; reflexivity).
  intros x y X Y. apply strangersb_ok. exact (proj1 (forallb_forall _ _) (proj1 (forallb_forall _ _) H x X) y Y).
Qed.
