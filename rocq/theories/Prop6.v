(* Prop6.v -- property C53: the two readers of a phase-1 file.  verify is p1v/p1vt (Phase1.v), p2n is
   phase-2 initialisation (Init2.v); is_file1 says what a file contains when read from front to back. *)
From Verif Require Import Base Fld IO Ext Spec1 Phase1 Phase1Verify Phase1Claims Gob Circuit Spec2 Fs Spec3 Init2 Init2Differ Toy2 Toy3 Toy6.
Local Open Scope fld_scope.

(* C53: re-encoding one point of an acceptable file (no contribution involved) leaves the contents and the
   verdict of p1v as they are, but p2n then takes the last element of the tau2 section for [beta]_2 *)
Theorem C53_same_parameters_refuted : forall (E : Ext2) bs (rho : nat -> nat -> nat -> E) trans g p (S0 : srs E)
  (l : list (contrib E)) o (cs : r1cs E) f p1 r1 p2,
  mexp_strict E -> 1 <= bs -> origin_is (E := E) trans g o ->
  length l < N.to_nat 65536 -> Forall (fun c => length (c_hash c) = 32%nat) l ->
  init_input p S0 cs f p1 r1 p2 -> r1 <> p1 -> no_cmt cs ->
  let n := N.of_nat (length l) in
  let F := file1 p S0 l in
  let F' := phase1_raw p (b8 (n / 256)) (b8 n) S0 (recs_bytes l) in
  f p1 = Some F ->
  is_file1 F p S0 l /\ is_file1 F' p S0 l /\
  exec (verify bs rho trans) F' g = exec (verify bs rho trans) F g /\
  exists f1 f2 (a b : E) v, p2n (E := E) p1 r1 p2 f = (Ok tt, f1) /\ p2n (E := E) p1 r1 p2 (fset f p1 F') = (Ok tt, f2) /\
    f1 evals_path = Some (g1c a ++ g1c b ++ g2c (beta2 S0) ++ v) /\
    f2 evals_path = Some (g1c a ++ g1c b ++ g2c (last (tau2 S0) 0) ++ v) /\
    f2 p2 = f1 p2 /\ f2 lag_path = f1 lag_path.
Proof. exact @c53. Qed.
Print Assumptions C53_same_parameters_refuted.

Example C53_case : init_input 2 dsrs (tcs 0) dfs p1n r1n p2n' /\ no_cmt (tcs 0) /\ mexp_strict Toy2 /\
  (exists hs, fst (exec (verify 2 drho None) (file1 2 dsrs drecs) []) = Ok hs /\ length hs = 2%nat /\
     fst (exec (verify 2 drho None) draw []) = Ok hs) /\
  feqb (beta2 dsrs) (last (tau2 dsrs) 0) = false /\
  fst (p2n (E := Toy2) p1n r1n p2n' (fset dfs p1n draw)) = Ok tt /\
  match snd (p2n (E := Toy2) p1n r1n p2n' dfs) evals_path, snd (p2n (E := Toy2) p1n r1n p2n' (fset dfs p1n draw)) evals_path with
  | Some a, Some b => (negb (bytes_eqb a b) && bytes_eqb (firstn 64 a) (firstn 64 b) && bytes_eqb (skipn 128 a) (skipn 128 b))%bool
  | _, _ => false end = true.
Proof.
  split; [exact dfs_input|]. split; [split; reflexivity|]. split; [exact toy2_strict|].
  split; [eexists; split; [vm_compute; reflexivity|]; split; vm_compute; reflexivity|].
  vm_compute. repeat split; reflexivity.
Qed.
