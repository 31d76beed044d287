(* Prop15.v -- property C77: what p1v's parameter checks would establish if MultiExp combined the common
   prefix of its arguments.  lower, upper, rising, falling, piecewise, off, same_but: Spec12.v. *)
From Verif Require Import Base Fld IO Ext Toy Spec1 Spec12 Phase1 Phase1Io Phase1Verify Phase1Facts Phase1Claims Phase1Lenient Toy1.
Local Open Scope fld_scope.
Local Open Scope io_scope.

(* the records l of a ceremony followed by p1v on a file with these records and any parameters s: the
   equations that decide *)
Theorem C77_equations : forall (E : Ext) bs bs' p (ws : list (@rnd1 E)),
  mexp_lenient E -> 2 <= bs -> 1 <= bs' -> 1 <= p <= 62 -> ws <> [] -> length ws <= N.to_nat 65535 ->
  let T := prodl (map (fun w => r_tau w) ws) in
  let B := prodl (map (fun w => r_beta w) ws) in
  exists (s0 : srs E) l, ceremony1 bs p ws = Ok (file1 p s0 l, map c_hash l) /\
    forall (s : srs E) (rho : nat -> nat -> nat -> E), sized p s ->
    ((forall g, exec (verify bs' rho None) (file1 p s l) g = (Ok (map c_hash l), [])) <->
     beta2 s = B /\
     upper (rho 0%nat) bs' (tau1 s) = T * lower (rho 0%nat) bs' (tau1 s) /\
     upper (rho 1%nat) bs' (alpha1 s) = T * lower (rho 1%nat) bs' (alpha1 s) /\
     upper (rho 2%nat) bs' (beta1 s) = T * lower (rho 2%nat) bs' (beta1 s) /\
     lower (rho 3%nat) bs' (tau2 s) = T * upper (rho 3%nat) bs' (tau2 s)).
Proof. exact @c77_checks. Qed.
Print Assumptions C77_equations.

(* accepted whatever the randomness: exactly the files that are geometric inside each batch *)
Theorem C77_every_randomness : forall (E : Ext) bs bs' p (ws : list (@rnd1 E)),
  mexp_lenient E -> 2 <= bs -> 1 <= bs' -> 1 <= p <= 62 -> ws <> [] -> length ws <= N.to_nat 65535 ->
  let T := prodl (map (fun w => r_tau w) ws) in
  let B := prodl (map (fun w => r_beta w) ws) in
  exists (s0 : srs E) l, ceremony1 bs p ws = Ok (file1 p s0 l, map c_hash l) /\
    forall s : srs E, sized p s ->
    ((forall (rho : nat -> nat -> nat -> E) g, exec (verify bs' rho None) (file1 p s l) g = (Ok (map c_hash l), [])) <->
     beta2 s = B /\ rising bs' T (tau1 s) /\ rising bs' T (alpha1 s) /\ rising bs' T (beta1 s) /\ falling bs' T (tau2 s)).
Proof. exact @c77_every. Qed.
Print Assumptions C77_every_randomness.

(* two neighbours in one batch that are off: at most one value of their random scalar is accepted *)
Theorem C77_one_scalar : forall (E : Ext) bs bs' p (ws : list (@rnd1 E)),
  mexp_lenient E -> 2 <= bs -> 1 <= bs' -> 1 <= p <= 62 -> ws <> [] -> length ws <= N.to_nat 65535 ->
  let T := prodl (map (fun w => r_tau w) ws) in
  exists (s0 : srs E) l, ceremony1 bs p ws = Ok (file1 p s0 l, map c_hash l) /\
    forall (s : srs E) k i (rho rho' : nat -> nat -> nat -> E), sized p s -> k <= 3 -> off bs' k T s i -> same_but bs' k s i rho rho' ->
    (forall g, exec (verify bs' rho None) (file1 p s l) g = (Ok (map c_hash l), [])) ->
    (forall g, exec (verify bs' rho' None) (file1 p s l) g = (Ok (map c_hash l), [])) ->
    forall k' r j, rho k' r j = rho' k' r j.
Proof. exact @c77_one_scalar. Qed.
Print Assumptions C77_one_scalar.

(* the claim that accepted parameters are powers of tau fails: every batch of every section may have its
   own factor, and the powers in G2 go down *)
Theorem C77_powers_refuted : forall (E : Ext) bs bs' p (ws : list (@rnd1 E)),
  mexp_lenient E -> 2 <= bs -> 1 <= bs' -> 1 <= p <= 62 -> ws <> [] -> length ws <= N.to_nat 65535 ->
  let T := prodl (map (fun w => r_tau w) ws) in
  let B := prodl (map (fun w => r_beta w) ws) in
  T <> 0 ->
  exists (s0 : srs E) l, ceremony1 bs p ws = Ok (file1 p s0 l, map c_hash l) /\
    forall k0 k1 k2 k3 : nat -> E, let N := (2 ^ p)%nat in
    let s := mkSrs (piecewise bs' (2 * N - 1) k0 T) (piecewise bs' N k1 T) (piecewise bs' N k2 T) (piecewise bs' N k3 (1 / T)) B in
    forall (rho : nat -> nat -> nat -> E) g, exec (verify bs' rho None) (file1 p s l) g = (Ok (map c_hash l), []).
Proof. exact @c77_not_powers. Qed.
Print Assumptions C77_powers_refuted.

(* a file with a jump in the middle of the powers of tau, accepted with batches of 2 points and not with
   batches of 4 *)
Example C77_case :
  let T := z17 false 6 in
  let s := mkSrs (piecewise 2 3 (fun b => if (b =? 0)%nat then 1 else z17 false 5) T)
                 (piecewise 2 2 (fun _ => z17 false 11) T) (piecewise 2 2 (fun _ => z17 false 12) T)
                 (piecewise 2 2 (fun _ => z17 false 13) (1 / T)) (z17 false 63) in
  let f := firstn 3 (tfile false) ++ srs_bytes s ++ skipn 419 (tfile false) in
  mexp_lenient (Toy false) /\ bytes_eqb (srs_bytes s) (srs_bytes (srs_of 1 T (z17 false 25) (z17 false 63))) = false /\
  nth 2 (tau1 s) 0 <> T * nth 1 (tau1 s) 0 /\
  fst (exec (verify 2 (trho false) None) f []) = Ok (thashes false) /\
  fst (exec (verify 4 (trho false) None) f []) = Err EPairing.
Proof. cbv zeta. split; [exact toy_lenient|]. vm_compute. repeat split; intros H; discriminate H. Qed.
