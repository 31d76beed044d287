(* Prop30.v -- property C90: a contribution to phase 1 whose hash p1v shows is part of the chain of records; of the
   parameters it reaches only [beta]_2.  updates1, taus, alphas, betas, no_challenge1, sha_clash1: Spec25.v; take_chain n c b
   decodes n records the way readFrom with ignored errors does (as in C09). *)
From Verif Require Import Base Fld IO Ext Toy Spec1 Phase1 Phase1Verify Phase1Facts Phase1Claims Spec25 Attest1 Toy1 Toy2 Toy4.
Local Open Scope fld_scope.

(* for all bytes F that p1v accepts and all bytes X that the contributor was given *)
Theorem C90_attested : forall (E : Ext) bs (rho : nat -> nat -> nat -> E) trans F g hs, 1 <= bs ->
  fst (exec (verify bs rho trans) F g) = Ok hs ->
  exists p n (s : srs E) sb tail o, (n < 65536)%N /\ F = b8 (N.of_nat p) :: be16 n ++ sb ++ tail /\
    sized p s /\ is_srs sb s /\ origin_is trans g o /\
    let cs := take_chain (N.to_nat n) zero_contrib tail in
    hs = map c_hash cs /\
    (no_challenge1 o cs \/ exists xs, updates1 o cs xs /\
      c_tau1 (last cs o) = prodl (taus xs) * c_tau1 o /\ c_alpha1 (last cs o) = prodl (alphas xs) * c_alpha1 o /\
      c_beta1 (last cs o) = prodl (betas xs) * c_beta1 o /\
      (cs <> [] -> (forall c, In c cs -> kS (c_kb c) <> 0) -> beta2 s = prodl (betas xs) * c_beta2 o) /\
      forall bs' (w : @rnd1 E) X g' h O i, r_st w <> 0 -> r_sa w <> 0 -> r_sb w <> 0 ->
        exec (contribute bs' w) X g' = (Ok h, O) -> nth_error hs i = Some h ->
        nth_error xs i = Some (r_tau w, r_alpha w, r_beta w) \/
        exists r o' c, O = o' ++ rec_bytes r /\ nth_error cs i = Some c /\ sha_clash1 c r).
Proof. exact @attested1. Qed.
Print Assumptions C90_attested.

(* two contributions (3, 5, 7) and (2, 5, 9): the second hash is the second one that p1v shows, and the factors multiply
   to tau 6, alpha 25 = 8, beta 63 = 12 *)
Example C90_case : exists l h1 h2 X1 X2 X3, fst (exec (verify 2 (trho true) None) (tfile true ++ [b8 7]) []) = Ok [h1; h2] /\
  l = trecs /\ map c_hash l = [h1; h2] /\ exec (initialize (E := Toy true) (b8 1)) [] [] = (Ok tt, X1) /\
  exec (contribute 2 (tw1 true)) X1 [] = (Ok h1, X2) /\ exec (contribute 2 (tw2 true)) X2 [] = (Ok h2, X3) /\
  r_st (tw2 true) <> 0 /\ r_sa (tw2 true) <> 0 /\ r_sb (tw2 true) <> 0 /\
  ~ no_challenge1 origin_gen l /\ (forall c, In c l -> kS (c_kb c) <> 0) /\
  updates1 origin_gen l [(z17 true 3, z17 true 5, z17 true 7); (z17 true 2, z17 true 5, z17 true 9)] /\
  c_beta2 (last l origin_gen) = z17 true 12 /\
  prodl (betas [(z17 true 3, z17 true 5, z17 true 7); (z17 true 2, z17 true 5, z17 true 9)]) = z17 true 12.
Proof.
  do 6 eexists. split; [vm_compute; reflexivity|]. split; [reflexivity|]. split; [vm_compute; reflexivity|].
  split; [vm_compute; reflexivity|]. split; [vm_compute; reflexivity|]. split; [vm_compute; reflexivity|].
  do 3 (split; [fld_neq|]). split.
  { intros [i [c [q [Hi [Hq Q]]]]]. destruct i as [|[|[|i]]]; [| |discriminate|discriminate]; injection Hi as <-; injection Hq as <-;
    destruct Q as [Q|[Q|Q]]; revert Q; fld_neq. }
  split; [intros c [<-|[<-|[]]]; fld_neq|]. split; [|split; by17].
  do 2 (constructor; [by17|by17|by17|intros; by17|intros; by17|split; by17|split; by17|split; by17|reflexivity|]). constructor.
Qed.

(* not a part of the other parameters: whatever tau and alpha the parameters are replaced by, p1v shows the hashes of the
   contributors *)
Theorem C90_parameters_refuted : forall (E : Ext) bs bs' p (ws : list (@rnd1 E)) (rho : nat -> nat -> nat -> E) g,
  mexp_strict E -> 2 <= bs -> 1 <= bs' -> 1 <= p <= 62 -> ws <> [] -> length ws <= N.to_nat 65535 ->
  exists F hs l, ceremony1 bs p ws = Ok (F, hs) /\ hs = map c_hash l /\
    forall T A : E, exec (verify bs' rho None) (file1 p (srs_of p T A (prodl (map (fun w => r_beta w) ws))) l) g = (Ok hs, []).
Proof. exact @attested1_replaced. Qed.
Print Assumptions C90_parameters_refuted.

(* (3, 5, 7) and (2, 5, 9) again, with tau 4 and alpha 1 put in *)
Example C90_parameters_case : let f := firstn 3 (tfile true) ++ srs_bytes (srs_of 1 (z17 true 4) (z17 true 1) (z17 true 12)) ++ skipn 419 (tfile true) in
  bytes_eqb f (tfile true) = false /\ fst (exec (verify 2 (trho true) None) f []) = Ok (thashes true).
Proof. vm_compute. auto. Qed.
