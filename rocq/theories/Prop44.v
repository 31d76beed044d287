(* Prop44.v -- property C105: the verifying key when the origin given to p2v is not the file of p2n.  keypair_but_KZ is in
   Spec35.v, is_keypair in Spec4.v, shown2 in Spec29.v, linked2 in Spec31.v, updates, no_challenge and sha_clash in Spec18.v. *)
From Coq Require Import String.
From Verif Require Import Base Fld Poly IO Ext Spec1 Phase1 Phase1Facts Phase1Verify Gob GobLemmas Circuit Spec2 Phase2 Phase2Claims Fs Spec3 Init2 Spec4 Keys Toy1 Toy2 Toy3 Toy4
  Toy8 Toy18 Spec18 Spec29 Spec30 Spec31 V2Iff Spec34 Toy23 Spec35 VkRight.
Local Open Scope fld_scope.

(* F and t are any bytes: the origin has the header and the deltas of the file of p2n and, behind them, anything or nothing.
   The keys are right but for K and Z of the proving key, and delta is the product of the numbers contributed *)
Theorem C105_verifying_key : forall (E : Ext2) p T A Bt (cs : r1cs E) f p1 r1 p2 k,
  init_input p (srs_of p T A Bt) cs f p1 r1 p2 -> no_cmt cs -> (N.of_nat (wires cs) < 4294967296)%N -> is_dom (length (r_cons cs)) k ->
  exists fa h pts G, p2n (E := E) p1 r1 p2 f = (Ok tt, fa) /\ fa p2 = Some (gob_hdr h ++ g1c (1 : E) ++ g2c (1 : E) ++ pts) /\ fa evals_path = Some G /\
  forall bs (rho : nat -> nat -> nat -> E) F t hs, fst (exec (verify2 bs rho) F (gob_hdr h ++ g1c (1 : E) ++ g2c (1 : E) ++ t)) = Ok hs ->
    exists l : list (contrib2 E), shown2 F l /\ hs = map d_hash l /\ linked2 1 [] l /\
    forall g sg pz f1 f2, pz <> pk_path -> pz <> vk_path -> f1 pz = Some F -> f1 evals_path = Some G -> extract_keys wrap64 g sg pz f1 = (Ok tt, f2) ->
    exists (q : pkey E) (v : vkey E), let D := last (map d_delta l) 0 in
      f2 pk_path = Some (pk_bytes k (N.of_nat (wires cs)) q) /\
      f2 vk_path = Some (vk_bytes (ped (e := E) g sg []) (empty_info (E := E)) v) /\
      keypair_but_KZ cs k (root k) A Bt D T q v /\
      (D <> 0 -> (exists q', is_keypair cs k (root k) A Bt D T q' v) /\
       (no_challenge l \/ exists xs, updates 1 [] l xs /\ D = prodl xs /\
        forall bs' (d s : E) X h O i, d <> 0 -> s <> 0 -> exec (contribute2 bs' d s) X [] = (Ok h, O) -> nth_error hs i = Some h ->
          nth_error xs i = Some d \/ exists r o c, O = o ++ rec2_bytes r /\ nth_error l i = Some c /\ sha_clash c r)).
Proof. exact @vk_right. Qed.
Print Assumptions C105_verifying_key.

(* nF has other points in PKK; it is accepted with an origin that ends behind the deltas.  The verifying key is the one of
   the ceremony, K of the proving key is not *)
Example C105_case : let r := extract_keys (E := Toy2) wrap64 (u 2) (u 6) pzn (fset kfa pzn nF) in
  let o := gob_hdr kh ++ g1c (1 : Toy2) ++ g2c (1 : Toy2) in
  init_input 2 (srs_of 2 (u 3) (u 5) (u 7)) (tcs 0) (tfs 0) p1n r1n p2n' /\ no_cmt (tcs 0) /\ is_dom (length (r_cons (tcs 0))) 2 /\
  has kfa p2n' (o ++ skipn (length o) kF0) = true /\ fst (exec (verify2 2 trho2) nF kF0) = Err EInconsPKK /\
  fst (exec (verify2 4 trho2) nF (o ++ [])) = Ok (map d_hash nrecs) /\ linked2 1 [] nrecs /\ last (map d_delta nrecs) 0 = u 4 /\
  updates 1 [] nrecs [u 3; u 7] /\
  is_ok (fst r) = true /\ has (snd r) pk_path (pk_bytes 2 6 npk) = true /\ has (snd r) vk_path (vk_bytes (g1r (u 2) ++ g1r (u 6)) (empty_info (E := Toy2)) kvk) = true /\
  keypair_but_KZ (tcs 0) 2 (root (e := Toy2) 2) (u 5) (u 7) (u 4) (u 3) npk kvk /\
  is_keypair (tcs 0) 2 (root (e := Toy2) 2) (u 5) (u 7) (u 4) (u 3) kpk kvk /\ q_K npk <> q_K kpk.
Proof.
  cbv zeta. split; [exact (tfs_input 0 ltac:(lia))|]. split; [split; reflexivity|]. split.
  { split; [lia|]. split; [vm_compute; lia|]. intros j J H. destruct j as [|[|j]]; [lia| |lia]. exfalso. revert H. vm_compute. lia. }
  split; [vm_compute; reflexivity|]. split; [vm_compute; reflexivity|]. split; [vm_compute; reflexivity|].
  split; [apply linked2_iff; vm_compute; reflexivity|]. split; [by17|]. split.
  { constructor; [by17|by17|by17|reflexivity|]. constructor; [by17|by17|by17|reflexivity|]. constructor. }
  split; [vm_compute; reflexivity|]. split; [vm_compute; reflexivity|]. split; [vm_compute; reflexivity|]. split.
  { destruct kpair as [t [L [K1 [K2 [K3 [K4 [K5 [K6 [K7 [K8 [_ [_ [_ W]]]]]]]]]]]]]. exists t. split; [exact L|]. do 8 (split; [assumption|]). exact W. }
  split; [exact kpair|]. intros Q. apply (f_equal (fun l => nth 0 l 0)) in Q. revert Q. fld_neq.
Qed.
