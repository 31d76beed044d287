(* Spec10.v -- which files a command line uses; runs that were interrupted; two sessions mixed; files that cannot be
   created. *)
From Coq Require Import String.
From Verif Require Import Base Fld IO Ext Spec1 Circuit Spec2 Fs Live Spec5 Spec6 Cli Session.

(* the files a command line reads, apart from those it creates itself and from the parts of a parted circuit *)
Definition inputs (n : string) (a : list string) : list string :=
  match a with
  | [x] => if (n =? "p1v")%string then [x]
           else if (n =? "key")%string then [x; "evals"%string]
           else if (n =? "sol")%string then [(x ++ ".vk.save")%string]
           else []
  | [x; y] => if (n =? "p1c")%string || (n =? "p2c")%string then [x]
              else if (n =? "p1vt")%string || (n =? "p2v")%string then [x; y]
              else if (n =? "keys")%string then [x; "evals"%string]
              else []
  | [x; y; _] => if (n =? "p2n")%string then [x; y] else []
  | [x; _; _; _] => if (n =? "p1t")%string then [x] else []
  | [x; _; _; _; _; _] => if (n =? "p2np")%string then [x] else []
  | _ => []
  end.
(* no file is both read and written *)
Definition apart (n : string) (a : list string) : Prop := forall q, In q (inputs n a) -> ~ In q (outputs n a).
(* neither command line writes what the other reads or writes *)
Definition strangers (n : string) (a : list string) (n' : string) (a' : list string) : Prop :=
  forall q, (In q (outputs n a) -> ~ In q (inputs n' a') /\ ~ In q (outputs n' a')) /\ (In q (outputs n' a') -> ~ In q (inputs n a)).

(* l consists of the elements of l1 and l2, each in their order *)
Inductive merge {A} : list A -> list A -> list A -> Prop :=
| merge_nil : merge [] [] []
| merge_l x l1 l2 l : merge l1 l2 l -> merge (x :: l1) l2 (x :: l)
| merge_r x l1 l2 l : merge l1 l2 l -> merge l1 (x :: l2) (x :: l).

(* what a session writes *)
Definition written {E : Ext2} (l : list (line E)) : list string := flat_map (fun x => outputs (l_name x) (l_args x)) l.
(* g is what is left of f after any number of runs of the command line n a, each killed at any time, on any
   device and with its own random choices *)
Inductive interrupted {E : Ext2} (bs : nat) (n : string) (a : list string) : fs -> fs -> Prop :=
| int_none f : interrupted bs n a f f
| int_more dev (v : inv E) f g h : killed (tool dev bs v n a) f g -> interrupted bs n a g h -> interrupted bs n a f h.

(* the same device with every file creatable *)
Definition creating (dev : device) : device := mkDev (takes dev) (fun _ _ => true).
