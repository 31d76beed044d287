(* Prop29.v -- C89: outputs with offsets of their own (Off.v).  flaunch, put: Off.v; launch, together, solo: Proc.v; ending,
   folded, apart_outputs: Spec24.v; outputs: Spec6.v; result_of, after: Spec5.v; succeeded: Spec11.v. *)
From Coq Require Import String.
From Verif Require Import Base Fld IO Ext Spec1 Phase1 Gob Circuit Spec2 Fs Live Spec5 Spec6 Cli Session Spec10 Proc Spec11 Spec24 Off OffClaims Toy2 Toy3 Toy4 Toy6 Toy7 Toy12 Toy13 Toy19.

(* C89: any command lines at the same time, each on its device, under any schedule; they may read what others write, but
   no file is written by two of them.  Writing at offsets is then the same as appending, in every moment: all
   files have the same contents and the processes that have finished have the same results *)
Theorem C89_offsets : forall (E : Ext2) bs (js : list (device * line E)) sch f,
  (forall x, In x js -> ~ folded (l_name (snd x)) (l_args (snd x))) ->
  apart_outputs (map (fun x => (l_name (snd x), l_args (snd x))) js) ->
  let real := together sch (map (fun x => flaunch (fst x) bs (snd x)) js) f in
  let model := together sch (map (fun x => launch (fst x) bs (snd x)) js) f in
  snd real = snd model /\ map ending (fst real) = map ending (fst model).
Proof. exact @offsets_together. Qed.
Print Assumptions C89_offsets.

(* the contribution reads what the initialisation is writing *)
Example C89_case : let js := [(no_limit, mkLine i0 "p1n" ["2"; "q"]); (disk 5000, mkLine i0 "p1c" ["q"; "c"])]%string in
  (forall x, In x js -> ~ folded (l_name (snd x)) (l_args (snd x))) /\
  apart_outputs (map (fun x => (l_name (snd x), l_args (snd x))) js) /\
  map (fun r => match r with Some (Ok _) => true | _ => false end)
    (map ending (fst (together (repeat 0 100 ++ repeat 1 100) (map (fun x => flaunch (fst x) 2 (snd x)) js) (fun _ => None)))) = [true; true].
Proof.
  cbv zeta. split; [intros x [<-|[<-|[]]] (? & ? & ? & _ & [[H _]|(? & ? & ? & H & _)]); discriminate H|]. split; [|vm_compute; reflexivity].
  intros i j n a m b q N I J. destruct i as [|[|i]]; [| |destruct i; discriminate I]; (destruct j as [|[|j]]; [| |destruct j; discriminate J]); try congruence;
    injection I as <- <-; injection J as <- <-; intros [<-|[]] [H|[]]; discriminate H.
Qed.

(* one command line alone: Cli.v *)
Theorem C89_alone : forall (E : Ext2) bs dev (x : line E) f, ~ folded (l_name x) (l_args x) ->
  let c := tool dev bs (l_inv x) (l_name x) (l_args x) in
  exists l, solo (flaunch dev bs x) f = ((result_of c f, l), after c f).
Proof. exact @offsets_alone. Qed.
Print Assumptions C89_alone.

(* which command lines have an output twice *)
Theorem C89_folded : forall n a, folded n a <-> ~ NoDup (outputs n a).
Proof. exact folded_iff. Qed.
Print Assumptions C89_folded.

Example C89_folded_case : folded "p2n" ["p1"; "r1cs"; "evals"]%string /\ NoDup (outputs "keys" ["p2"; "s"]%string).
Proof.
  split; [exists "p1"%string, "r1cs"%string, "evals"%string; split; [now right|left; now split]|]. apply not_folded.
  intros (? & ? & ? & _ & [[H _]|(? & ? & ? & H & _)]); discriminate H.
Qed.

(* C89 fails for two contributions that are written to one name: both succeed and p1v accepts what is left, but it is
   no file of parameters, whatever tau, alpha and beta *)
Theorem C89_same_output_refuted : exists (E : Ext2) bs (v v' w : inv E) sch,
  let f := snd (session no_limit bs [mkLine w "p1n" ["5"; "q"]]%string (fun _ => None)) in
  let run := together sch [flaunch no_limit bs (mkLine v "p1c" ["q"; "c"]); flaunch no_limit bs (mkLine v' "p1c" ["q"; "c"])]%string f in
  (exists h h', map ending (fst run) = [Some (Ok [h]); Some (Ok [h'])]) /\
  (exists h, result_of (tool no_limit bs w "p1v" ["c"]%string) (snd run) = Ok [h]) /\
  forall (t a b : E) l, snd run "c"%string <> Some (file1 5 (srs_of 5 t a b) l).
Proof. exact rivals_accepted. Qed.
Print Assumptions C89_same_output_refuted.

(* nor is it noticed that the phase-2 file is called evals: p2n succeeds and no command takes the file *)
Theorem C89_folded_refuted : exists (E : Ext2) bs (v : inv E) f,
  let real := solo (flaunch no_limit bs (mkLine v "p2n" ["p1b"; "r1cs"; "evals"]%string)) f in
  fst (fst real) = Ok [] /\
  (forall q, In q [mkLine v "p2c" ["evals"; "n"]; mkLine v "p2v" ["evals"; "evals"]; mkLine v "key" ["evals"]]%string -> ~ succeeded (fst (session no_limit bs [q] (snd real)))) /\
  succeeded (fst (session no_limit bs [mkLine v "p2n" ["p1b"; "r1cs"; "p2"]; mkLine v "p2c" ["p2"; "n"]; mkLine v "p2v" ["n"; "p2"]; mkLine v "key" ["n"]]%string f)).
Proof. exact folded_lost. Qed.
Print Assumptions C89_folded_refuted.
