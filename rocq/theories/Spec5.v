(* Spec5.v -- what a command leaves behind, when it ends and when it is killed. *)
From Coq Require String.
From Verif Require Import Base IO Fs Live.

(* the result and the files after the command c was run in file system f *)
Definition result_of {X} (c : lcmd X) (f : fs) : res X := fst (c (start f)).
Definition after {X} (c : lcmd X) (f : fs) : fs := w_fs (snd (c (start f))).
(* g: a file system the process can leave behind when it is killed at any time (a write may have been
   carried out in part) *)
Definition killed {X} (c : lcmd X) (f g : fs) : Prop :=
  exists l, died (w_ops (snd (c (start f)))) l /\ g = replay l f.
(* whatever happens only the files ps change *)
Definition confined {X} (ps : list string) (c : lcmd X) : Prop :=
  forall f q, ~ In q ps -> after c f q = f q /\ forall g, killed c f g -> g q = f q.
(* killed at any time, every file is as before or a prefix of what the run would have left *)
Definition prefixes {X} (c : lcmd X) : Prop :=
  forall f g q, killed c f g -> g q = f q \/ exists O n, after c f q = Some O /\ g q = Some (firstn n O).
(* the bytes of an output that do not fit into the last buffer of 4096 bytes *)
Definition full_blocks (b : bytes) : N := (4096 * ((N.of_nat (length b) - 1) / 4096))%N.
(* those that do *)
Definition last_block (b : bytes) : N := (N.of_nat (length b) - full_blocks b)%N.
