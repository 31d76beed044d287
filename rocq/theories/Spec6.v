(* Spec6.v -- decimal numerals and well-formed command lines, written without reference to the program. *)
From Coq Require Import String Ascii.
From Verif Require Import Base.
Local Open Scope Z_scope.

(* a digit and its value *)
Definition digit (c : ascii) (d : Z) : Prop := 0 <= d <= 9 /\ N_of_ascii c = (48 + Z.to_N d)%N.
(* one or more digits *)
Inductive decimal : string -> Z -> Prop :=
| decimal1 c d : digit c d -> decimal (String c EmptyString) d
| decimal_app s n c d : decimal s n -> digit c d -> decimal (s ++ String c EmptyString) (10 * n + d).
(* an int64 with an optional sign *)
Definition numeral (s : string) (z : Z) : Prop :=
  - 2 ^ 63 <= z < 2 ^ 63 /\
  (decimal s z \/ (exists t, s = String "+" t /\ decimal t z) \/ (exists t, s = String "-" t /\ decimal t (- z))).
Definition number (s : string) : Prop := exists z, numeral s z.

(* the commands and the numbers of their arguments *)
Definition arities : list (string * nat) :=
  [("p1n", 2); ("p1c", 2); ("p1v", 1); ("p1t", 4); ("p1vt", 2); ("p2n", 3); ("p2np", 6); ("p2c", 2); ("p2v", 2);
   ("key", 1); ("keys", 2); ("sol", 1)]%string%nat.
(* command lines the tool has no use for *)
Inductive bad_line : string -> list string -> Prop :=
| bad_name n a : ~ In n (map fst arities) -> bad_line n a
| bad_count n k a : In (n, k) arities -> length a <> k -> bad_line n a
| bad_power s o : ~ number s -> bad_line "p1n" [s; o]
| big_power s z o : numeral s z -> 26 < z -> bad_line "p1n" [s; o]
| bad_powers i o s t : ~ number s \/ ~ number t -> bad_line "p1t" [i; o; s; t]
| higher_power i o s t a b : numeral s a -> numeral t b -> a < b -> bad_line "p1t" [i; o; s; t]
| bad_sizes i r o s t u : ~ number s \/ ~ number t \/ ~ number u -> bad_line "p2np" [i; r; o; s; t; u].

(* the files a command line may create, overwrite or change *)
Definition outputs (n : string) (a : list string) : list string :=
  match a with
  | [_; o] => if (n =? "p1n")%string || (n =? "p1c")%string || (n =? "p2c")%string then [o]
              else if (n =? "keys")%string then
                map (fun x => o ++ x)%string [".pk.E.save"; ".pk.A.save"; ".pk.B1.save"; ".pk.Z.save"; ".pk.K.save"; ".pk.B2.save";
                  ".vk.save"; ".pk.CommitmentKey.save"]%string
              else []
  | [_; o; _; _] => if (n =? "p1t")%string then [o] else []
  | [_; _; o] => if (n =? "p2n")%string then [o; "srs.lag"; "evals"]%string else []
  | [_; _; o; _; _; _] => if (n =? "p2np")%string then [o; "srs.lag"; "evals"]%string else []
  | [s] => if (n =? "key")%string then ["pk"; "vk"]%string else if (n =? "sol")%string then [(s ++ ".sol")%string] else []
  | _ => []
  end.
