(* Toy7.v -- concrete data for Prop7.v: a whole ceremony for the circuit of Toy3.v. *)
From Coq Require Import String.
From Verif Require Import Base Fld IO Ext Toy Spec1 Phase1 Circuit Gob Spec2 Fs Spec3 Init2 Toy2 Toy3 Toy4 Keys Live Spec6 Cli Session.
Local Open Scope string_scope.

Definition inv_of (t a b d s : Z) : inv Toy2 :=
  mkInv Toy2 (mkRnd1 (u t) (u a) (u b) (u 2) (u 4) (u 6)) (u d) (u s) (fun i j n => u (Z.of_nat (1 + i + 3 * j + 5 * n) mod 17)) (u 2) (u 6)
    (fun _ _ _ => tcs 0) (fun b => match b with [] => None | _ => Some (firstn 3 b) end).
Definition i0 : inv Toy2 := inv_of 1 1 1 1 1.
Definition ivs1 : list (inv Toy2) := [inv_of 1 5 2 1 1; inv_of 3 1 12 1 1].    (* tau 3, alpha 5, beta 7 *)
Definition ivs2 : list (inv Toy2) := [inv_of 1 1 1 3 5; inv_of 1 1 1 7 2].     (* delta 4 *)
Definition wfs : fs := fset (fun _ => None) "r1cs" [b8 0].
Definition p1s : list string := ["p1a"; "p1b"].
Definition p2s : list string := ["p2a"; "p2b"].
Definition wlines : list (line Toy2) :=
  mkLine i0 "p1n" ["2"; "p1"] :: chain "p1c" ivs1 "p1" p1s ++ mkLine i0 "p1v" ["p1b"] ::
  mkLine i0 "p2n" ["p1b"; "r1cs"; "p2"] :: chain "p2c" ivs2 "p2" p2s ++ [mkLine i0 "p2v" ["p2b"; "p2"]; mkLine i0 "key" ["p2b"]].
Definition sizes (l : list (res (list bytes))) : list (option nat) := map (fun r => match r with Ok h => Some (List.length h) | _ => None end) l.
Lemma num2 : numeral "2" 2.
Proof. split; [lia|]. left. apply (decimal1 _ 2). split; [lia|reflexivity]. Qed.
Lemma num_neg : numeral "-13" (-13).
Proof.
  split; [lia|]. right. right. exists "13". split; [reflexivity|]. apply (decimal_app "1" 1 _ 3); [|split; [lia|reflexivity]].
  apply (decimal1 _ 1). split; [lia|reflexivity].
Qed.
Lemma num27 : numeral "+027" 27.
Proof.
  split; [lia|]. right. left. exists "027". split; [reflexivity|]. apply (decimal_app "02" 2 _ 7); [|split; [lia|reflexivity]].
  apply (decimal_app "0" 0 _ 2); [|split; [lia|reflexivity]]. apply (decimal1 _ 0). split; [lia|reflexivity].
Qed.
Lemma w_aligned : aligned (tcs 0) 2 2.
Proof.
  intros j i Hj Hi. assert (j = 1 \/ j = 2)%nat as [-> | ->] by lia.
  - destruct i as [|i]; [|lia]. apply tle. vm_compute. reflexivity.
  - destruct i as [|[|i]]; [| |lia]; apply tle; vm_compute; reflexivity.
Qed.
