(* Prop18.v -- property C80: p2np with a number of constraints that is not the circuit's.  parted_input: names, a
   phase-1 file of power p for the trapdoor T, A, B, a circuit without commitment, and m, at most its number of
   constraints; trunc m cs: the circuit with its first m constraints only. *)
From Coq Require Import String.
From Verif Require Import Base Fld IO Ext Toy Spec1 Phase1 Phase1Io Phase1Verify Phase1Facts Gob GobLemmas Circuit Spec2 Phase2 Phase2Lemmas Phase2Claims
  Fs Spec3 Init2 Init2More Spec4 Keys KeysClaims Toy1 Toy2 Toy3 Toy4 Spec14 Parted Negative.
Local Open Scope fld_scope.

(* every step succeeds, p2v included, and every assignment that satisfies the first m constraints has accepted proofs *)
Theorem C80_fewer_constraints_refuted : forall (E : Ext2) p T A B (cs : r1cs E) m f p1 p2 bs (ws : list (E * E)),
  parted_input p T A B cs m f p1 p2 ->
  1 <= bs -> (Z.of_nat (length ws) < 9223372036854775808)%Z -> ws <> [] -> (forall w, In w ws -> fst w <> 0) ->
  exists fa k h (q0 : par2 E), p2np (E := E) cs p1 p2 (Z.of_nat m) f = (Ok tt, fa) /\ fa p2 = Some (file2 h q0 []) /\
    is_dom m k /\
    ((forall j, (1 <= j <= length ws)%nat -> unsplit (set_contribs h (Z.of_nat j)) q0 j) ->
     exists F hs, ceremony2 (E := E) bs (file2 h q0 []) ws = Ok (F, hs) /\
     (forall bs' (rho : nat -> nat -> nat -> E), 1 <= bs' -> exec (verify2 bs' rho) F (file2 h q0 []) = (Ok hs, [])) /\
     forall g sg pz, pz <> pk_path -> pz <> vk_path -> pz <> evals_path ->
     exists fb (q : pkey E) (v : vkey E), extract_keys wrap64 g sg pz (fset fa pz F) = (Ok tt, fb) /\
       fb pk_path = Some (pk_bytes k (N.of_nat (wires cs)) q) /\
       fb vk_path = Some (vk_bytes (ped (e := E) g sg []) (empty_info (E := E)) v) /\
       is_keypair (trunc m cs) k (root k) A B (prodf ws) T q v /\
       forall x, (forall c, In c (firstn m (r_cons cs)) -> lin cs x (r_L c) * lin cs x (r_R c) = lin cs x (r_O c)) ->
       exists hq, forall r s ar bs krs, proves q cs k x hq r s ar bs krs -> accepts v cs x ar bs krs).
Proof. exact @parted_keys. Qed.
Print Assumptions C80_fewer_constraints_refuted.

(* 2 of 3 constraints: kbad, with the wrong result 13 for 14, satisfies these; 0 and -5 constraints are not refused *)
Example C80_case : parted_input 2 (u 3) (u 5) (u 7) (tcs 0) 2 (tfs 0) p1n p2n' /\
  (let h := mkHdr 6 4 2 0 2 2 0 in let q0 := mkPar2 (u 1) (u 1) [u 8] [u 12; u 0; u 2; u 16] in
   has (snd (p2np (E := Toy2) (tcs 0) p1n p2n' 2 (tfs 0))) p2n' (file2 h q0 []) = true /\
   (forall j, (1 <= j <= length kws)%nat -> unsplit (set_contribs h (Z.of_nat j)) q0 j)) /\
  kws <> [] /\ (forall w, In w kws -> fst w <> 0) /\
  (forall c, In c (firstn 2 (r_cons (tcs 0))) -> lin (tcs 0) kbad (r_L c) * lin (tcs 0) kbad (r_R c) = lin (tcs 0) kbad (r_O c)) /\
  ~ satisfies (tcs 0) kbad /\ parted_input 2 (u 3) (u 5) (u 7) (tcs 0) 0 (tfs 0) p1n p2n' /\
  fst (p2np (E := Toy2) (tcs 0) p1n p2n' 0 (tfs 0)) = Ok tt /\ fst (p2np (E := Toy2) (tcs 0) p1n p2n' (-5) (tfs 0)) = Ok tt.
Proof.
  assert (I : forall m, m <= 3 -> parted_input 2 (u 3) (u 5) (u 7) (tcs 0) m (tfs 0) p1n p2n').
  { intros m Hm. destruct (tfs_input 0 ltac:(lia)) as [_ [_ [_ [_ [_ [CO _]]]]]].
    split; [repeat split; discriminate|]. split; [lia|]. split; [exists (b8 0), (b8 4), [b8 9; b8 8]; reflexivity|].
    split; [exact CO|]. split; [repeat split|]. split; [reflexivity|]. split; [exact Hm|]. split; [cbn; lia|]. split; [lia|].
    split; [vm_compute; lia|]. change (kmax Toy2) with 4%nat. cbn; lia. }
  split; [apply I; lia|]. split.
  { cbv zeta. split; [vm_compute; reflexivity|]. intros j Hj i Hi. assert (Hj2 : (j = 1 \/ j = 2)%nat) by (cbn in Hj; lia).
    destruct Hj2 as [-> | ->].
    - destruct i as [|i]; [|lia]. apply tle. vm_compute. reflexivity.
    - destruct i as [|[|i]]; [| |lia]; apply tle; vm_compute; reflexivity. }
  split; [discriminate|]. split; [intros w [<-|[<-|[]]]; fld_neq|]. split; [|split; [exact kbad_sat|split; [apply I; lia|split; vm_compute; reflexivity]]].
  intros c Hc. change (In c (firstn 2 tcons)) in Hc. destruct Hc as [<-|[<-|[]]]; by17.
Qed.

(* a negative number is taken like 0: then every assignment, that is any public input, has accepted proofs *)
Theorem C80_negative_refuted : forall (E : Ext2) p T A B (cs : r1cs E) z f p1 p2 bs (ws : list (E * E)),
  parted_input p T A B cs 0 f p1 p2 -> (-9223372036854775808 <= z < 0)%Z ->
  1 <= bs -> (Z.of_nat (length ws) < 9223372036854775808)%Z -> ws <> [] -> (forall w, In w ws -> fst w <> 0) ->
  exists fa h (q0 : par2 E), p2np (E := E) cs p1 p2 z f = (Ok tt, fa) /\ fa p2 = Some (file2 h q0 []) /\ h_cons h = z /\
    ((forall j, (1 <= j <= length ws)%nat -> unsplit (set_contribs h (Z.of_nat j)) q0 j) ->
     exists F hs, ceremony2 (E := E) bs (file2 h q0 []) ws = Ok (F, hs) /\
     (forall bs' (rho : nat -> nat -> nat -> E), 1 <= bs' -> exec (verify2 bs' rho) F (file2 h q0 []) = (Ok hs, [])) /\
     forall g sg pz, pz <> pk_path -> pz <> vk_path -> pz <> evals_path ->
     exists fb (q : pkey E) (v : vkey E), extract_keys wrap64 g sg pz (fset fa pz F) = (Ok tt, fb) /\
       fb pk_path = Some (pk_bytes 1 (N.of_nat (wires cs)) q) /\
       fb vk_path = Some (vk_bytes (ped (e := E) g sg []) (empty_info (E := E)) v) /\
       forall x, exists hq, forall r s ar bs krs, proves q cs 1 x hq r s ar bs krs -> accepts v cs x ar bs krs).
Proof. exact @negative_keys. Qed.
Print Assumptions C80_negative_refuted.

Example C80_negative_case : parted_input 2 (u 3) (u 5) (u 7) (tcs 0) 0 (tfs 0) p1n p2n' /\
  (let h := mkHdr 6 4 2 0 (-5) 2 0 in let q0 := mkPar2 (u 1) (u 1) [u 8] [u 0; u 0; u 0; u 0] in
   has (snd (p2np (E := Toy2) (tcs 0) p1n p2n' (-5) (tfs 0))) p2n' (file2 h q0 []) = true /\
   (forall j, (1 <= j <= length kws)%nat -> unsplit (set_contribs h (Z.of_nat j)) q0 j)) /\
  kws <> [] /\ (forall w, In w kws -> fst w <> 0).
Proof.
  destruct C80_case as [_ [_ [W1 [W2 [_ [_ [I _]]]]]]]. split; [exact I|]. split; [|split; [exact W1|exact W2]].
  cbv zeta. split; [vm_compute; reflexivity|]. intros j Hj i Hi. assert (Hj2 : (j = 1 \/ j = 2)%nat) by (cbn in Hj; lia).
  destruct Hj2 as [-> | ->].
  - destruct i as [|i]; [|lia]. apply tle. vm_compute. reflexivity.
  - destruct i as [|[|i]]; [| |lia]; apply tle; vm_compute; reflexivity.
Qed.
