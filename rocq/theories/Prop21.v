(* Prop21.v -- property C82: what the proofs made with the keys tell about the witness.  Keys, proofs and the
   verification equation are in Spec4.v; put3 rho sec i j x is rho with one scalar changed to x. *)
From Coq Require Import String.
From Verif Require Import Base Fld IO Ext Spec1 Phase1 Phase1Verify Gob GobLemmas Circuit Spec2 Phase2 Phase2Claims Phase2Bad Fs Spec3 Init2 Spec4 Keys Hiding Toy1 Toy2 Toy3 Toy4 Toy8 Toy17.
Local Open Scope fld_scope.

(* For every Ar and Bs one Krs is accepted, and exactly one choice of the prover's randomness makes that proof:
   over uniform randomness the proof is uniform among the accepted ones, whatever the witness. *)
Theorem C82_uniform : forall (E : Ext2) k (cs : r1cs E) alpha beta delta tau (q : pkey E) (v : vkey E),
  1 <= k <= kmax E -> (length (r_cons cs) <= 2 ^ k)%nat -> delta <> 0 -> is_keypair cs k (root k) alpha beta delta tau q v ->
  forall x, satisfies cs x -> (exists h, quotient cs x (2 ^ k) (root k) h) /\ (forall ar bs, exists! krs, accepts v cs x ar bs krs) /\
  forall h, quotient cs x (2 ^ k) (root k) h -> forall ar bs krs,
    (accepts v cs x ar bs krs <-> exists r s, proves q cs k x h r s ar bs krs) /\
    forall r s r' s', proves q cs k x h r s ar bs krs -> proves q cs k x h r' s' ar bs krs -> r = r' /\ s = s'.
Proof. exact @uniform. Qed.
Print Assumptions C82_uniform.
Theorem C82_same_proofs : forall (E : Ext2) k (cs : r1cs E) alpha beta delta tau (q : pkey E) (v : vkey E),
  1 <= k <= kmax E -> (length (r_cons cs) <= 2 ^ k)%nat -> delta <> 0 -> is_keypair cs k (root k) alpha beta delta tau q v ->
  forall x y h h', (forall i, (i < nb_public cs)%nat -> x i = y i) -> quotient cs x (2 ^ k) (root k) h -> quotient cs y (2 ^ k) (root k) h' ->
  forall r s ar bs krs, proves q cs k x h r s ar bs krs ->
  exists r' s', proves q cs k y h' r' s' ar bs krs /\ forall r'' s'', proves q cs k y h' r'' s'' ar bs krs -> r'' = r' /\ s'' = s'.
Proof. exact @same_proofs. Qed.
Print Assumptions C82_same_proofs.
(* whoever contributed: for all bytes F that p2v accepts against the output of p2n and from which key extracts keys *)
Theorem C82_accepted : forall (E : Ext2) p T A B (cs : r1cs E) f p1 r1 p2 k,
  init_input p (srs_of p T A B) cs f p1 r1 p2 -> no_cmt cs -> (N.of_nat (wires cs) < 4294967296)%N ->
  is_dom (length (r_cons cs)) k -> T ^ (2 ^ k) <> 1 ->
  exists fa F0 G, p2n (E := E) p1 r1 p2 f = (Ok tt, fa) /\ fa p2 = Some F0 /\ fa evals_path = Some G /\
  forall bs (rho : nat -> nat -> nat -> E) F hs g sg pz f1 f2, 1 <= bs -> fst (exec (verify2 bs rho) F F0) = Ok hs ->
    pz <> pk_path -> pz <> vk_path -> f1 pz = Some F -> f1 evals_path = Some G -> extract_keys wrap64 g sg pz f1 = (Ok tt, f2) ->
    (exists sec i j, forall x hs', fst (exec (verify2 bs (put3 rho sec i j x)) F F0) = Ok hs' -> x = rho sec i j) \/
    exists (q : pkey E) (v : vkey E),
      f2 pk_path = Some (pk_bytes k (N.of_nat (wires cs)) q) /\
      f2 vk_path = Some (vk_bytes (ped (e := E) g sg []) (empty_info (E := E)) v) /\
      forall x h, quotient cs x (2 ^ k) (root k) h -> forall ar bs krs,
        (accepts v cs x ar bs krs <-> exists r s, proves q cs k x h r s ar bs krs) /\
        forall r s r' s', proves q cs k x h r s ar bs krs -> proves q cs k x h r' s' ar bs krs -> r = r' /\ s = s'.
Proof. exact @accepted_even. Qed.
Print Assumptions C82_accepted.
(* without p2v: key extracts keys from a file whose delta is 0, and with them the two witnesses of one public
   input never have the same Ar *)
Theorem C82_unchecked_refuted : exists (E : Ext2) g sg pz f f2 (cs : r1cs E) k (q : pkey E) x y h h',
  extract_keys (E := E) wrap64 g sg pz f = (Ok tt, f2) /\ f2 pk_path = Some (pk_bytes k (N.of_nat (wires cs)) q) /\
  (forall i, (i < nb_public cs)%nat -> x i = y i) /\ quotient cs x (2 ^ k) (root k) h /\ quotient cs y (2 ^ k) (root k) h' /\
  forall r s r' s' ar bs krs ar' bs' krs', proves q cs k x h r s ar bs krs -> proves q cs k y h' r' s' ar' bs' krs' -> ar <> ar'.
Proof. exact unchecked. Qed.
Print Assumptions C82_unchecked_refuted.

(* out = 2 x^2 + 3 x for x = 2 and y = 3 or 5: one proof, made with randomness (2, 3) or (6, 15); the file of
   an honest ceremony *)
Example C82_case : 1 <= 2 <= kmax Toy2 /\ (length (r_cons (tcs 0)) <= 2 ^ 2)%nat /\ is_keypair (tcs 0) 2 (root (e := Toy2) 2) (u 5) (u 7) (u 4) (u 3) kpk kvk /\
  satisfies (tcs 0) kx /\ (forall i, (i < nb_public (tcs 0))%nat -> kx i = ky i) /\ kx 3 <> ky 3 /\
  quotient (tcs 0) kx (2 ^ 2) (root (e := Toy2) 2) [u 14; u 3; u 6] /\ quotient (tcs 0) ky (2 ^ 2) (root (e := Toy2) 2) [u 15; u 15; u 2] /\
  proves kpk (tcs 0) 2 kx [u 14; u 3; u 6] (u 2) (u 3) (u 5) (u 9) (u 5) /\ proves kpk (tcs 0) 2 ky [u 15; u 15; u 2] (u 6) (u 15) (u 5) (u 9) (u 5) /\
  init_input 2 (srs_of 2 (u 3) (u 5) (u 7)) (tcs 0) (tfs 0) p1n r1n p2n' /\ is_ok (fst (exec (verify2 2 trho2) kF kF0)) = true.
Proof.
  split; [vm_compute; lia|]. split; [vm_compute; lia|]. split; [exact kpair|]. split; [exact kx_sat|]. split.
  { intros [|[|i]] Hi; [reflexivity|reflexivity|change (S (S i) < 2)%nat in Hi; lia]. }
  split; [fld_neq|]. split; [exact kquot|]. split; [exact kyquot|]. split; [exact kproves|]. split; [exact kyproves|].
  split; [apply (tfs_input 0); lia|vm_compute; reflexivity].
Qed.
