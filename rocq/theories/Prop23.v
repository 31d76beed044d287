(* Prop23.v -- property C84: a contribution to phase 2 whose hash p2v shows is part of the keys.  updates, no_challenge
   and sha_clash are in Spec18.v, keys in Spec4.v; put3 rho sec i j x is rho with one scalar changed to x. *)
From Coq Require Import String.
From Verif Require Import Base Fld IO Ext Spec1 Phase1 Phase1Verify Phase1 Gob GobLemmas Circuit Spec2 Phase2 Phase2Claims Phase2Bad Fs Spec3 Init2 Spec4 Keys Spec18 Attest Toy1 Toy2 Toy3 Toy4 Toy7 Toy8.
Local Open Scope fld_scope.

(* for all bytes F that p2v accepts and all bytes X that the contributor was given *)
Theorem C84_attested : forall (E : Ext2) p T A B (cs : r1cs E) f p1 r1 p2 k,
  init_input p (srs_of p T A B) cs f p1 r1 p2 -> no_cmt cs -> (N.of_nat (wires cs) < 4294967296)%N ->
  is_dom (length (r_cons cs)) k -> T ^ (2 ^ k) <> 1 ->
  exists fa F0 G, p2n (E := E) p1 r1 p2 f = (Ok tt, fa) /\ fa p2 = Some F0 /\ fa evals_path = Some G /\
  forall bs (rho : nat -> nat -> nat -> E) F hs g sg pz f1 f2, 1 <= bs -> fst (exec (verify2 bs rho) F F0) = Ok hs ->
    pz <> pk_path -> pz <> vk_path -> f1 pz = Some F -> f1 evals_path = Some G -> extract_keys wrap64 g sg pz f1 = (Ok tt, f2) ->
    (exists sec i j, forall x hs', fst (exec (verify2 bs (put3 rho sec i j x)) F F0) = Ok hs' -> x = rho sec i j) \/
    exists l D (q : pkey E) (v : vkey E), hs = map d_hash l /\ D <> 0 /\
      f2 pk_path = Some (pk_bytes k (N.of_nat (wires cs)) q) /\
      f2 vk_path = Some (vk_bytes (ped (e := E) g sg []) (empty_info (E := E)) v) /\
      is_keypair cs k (root k) A B D T q v /\
      (no_challenge l \/ exists xs, updates 1 [] l xs /\ D = prodl xs /\
        forall bs' (d s : E) X h O i, d <> 0 -> s <> 0 -> exec (contribute2 bs' d s) X [] = (Ok h, O) -> nth_error hs i = Some h ->
          nth_error xs i = Some d \/ exists r o c, O = o ++ rec2_bytes r /\ nth_error l i = Some c /\ sha_clash c r).
Proof. exact @attested. Qed.
Print Assumptions C84_attested.

(* for a readable file F: l are the records in it *)
Theorem C84_attested_file : forall (E : Ext2) p T A B (cs : r1cs E) f p1 r1 p2 k,
  init_input p (srs_of p T A B) cs f p1 r1 p2 -> no_cmt cs -> (N.of_nat (wires cs) < 4294967296)%N ->
  is_dom (length (r_cons cs)) k -> T ^ (2 ^ k) <> 1 ->
  exists fa F0 G, p2n (E := E) p1 r1 p2 f = (Ok tt, fa) /\ fa p2 = Some F0 /\ fa evals_path = Some G /\
  forall bs (rho : nat -> nat -> nat -> E) F hF (qF : par2 E) l hs g sg pz f1 f2, 1 <= bs -> hdr_ok hF -> is_file2 F hF qF l -> fst (exec (verify2 bs rho) F F0) = Ok hs ->
    pz <> pk_path -> pz <> vk_path -> f1 pz = Some F -> f1 evals_path = Some G -> extract_keys wrap64 g sg pz f1 = (Ok tt, f2) ->
    (exists sec i j, forall x hs', fst (exec (verify2 bs (put3 rho sec i j x)) F F0) = Ok hs' -> x = rho sec i j) \/
    exists D (q : pkey E) (v : vkey E), hs = map d_hash l /\ D <> 0 /\
      f2 pk_path = Some (pk_bytes k (N.of_nat (wires cs)) q) /\
      f2 vk_path = Some (vk_bytes (ped (e := E) g sg []) (empty_info (E := E)) v) /\
      is_keypair cs k (root k) A B D T q v /\
      (no_challenge l \/ exists xs, updates 1 [] l xs /\ D = prodl xs /\
        forall bs' (d s : E) X h O i, d <> 0 -> s <> 0 -> exec (contribute2 bs' d s) X [] = (Ok h, O) -> nth_error hs i = Some h ->
          nth_error xs i = Some d \/ exists r o c, O = o ++ rec2_bytes r /\ nth_error l i = Some c /\ sha_clash c r).
Proof. exact @attested_file. Qed.
Print Assumptions C84_attested_file.

(* secrets 3 and 7; the second contributor's hash is the second one that p2v shows, and delta is 3 * 7 = 4 *)
Example C84_case : init_input 2 (srs_of 2 (u 3) (u 5) (u 7)) (tcs 0) (tfs 0) p1n r1n p2n' /\ no_cmt (tcs 0) /\
  is_dom (length (r_cons (tcs 0))) 2 /\ u 3 ^ (2 ^ 2) <> 1 /\ has kfa p2n' kF0 = true /\
  is_ok (fst (extract_keys (E := Toy2) wrap64 (u 2) (u 6) pzn (fset kfa pzn (kF ++ [b8 7])))) = true /\
  (exists l h1 h2 X O, fst (exec (verify2 2 trho2) (kF ++ [b8 7]) kF0) = Ok [h1; h2] /\ l = snd (honest2 kq0 [] kws) /\
    [h1; h2] = map d_hash l /\ exec (contribute2 2 (u 3) (u 5)) kF0 [] = (Ok h1, X) /\
    exec (contribute2 2 (u 7) (u 2)) X [] = (Ok h2, O) /\ updates 1 [] l [u 3; u 7] /\ u 4 = prodl [u 3; u 7] /\ ~ no_challenge l).
Proof.
  split; [apply (tfs_input 0); lia|]. split; [split; reflexivity|]. split.
  { split; [lia|]. split; [vm_compute; lia|]. intros j J H. destruct j as [|[|j]]; [lia| |lia]. exfalso. revert H. vm_compute. lia. }
  split; [fld_neq|]. split; [vm_compute; reflexivity|]. split; [vm_compute; reflexivity|].
  do 5 eexists. split; [vm_compute; reflexivity|]. split; [reflexivity|]. split; [vm_compute; reflexivity|].
  split; [vm_compute; reflexivity|]. split; [vm_compute; reflexivity|]. split.
  { constructor; [by17|by17|by17|reflexivity|]. constructor; [by17|by17|by17|reflexivity|]. constructor. }
  split; [by17|]. intros [i [c [Hi Q]]]. destruct i as [|[|[|i]]]; [| |discriminate|discriminate]; injection Hi as <-; revert Q; fld_neq.
Qed.
