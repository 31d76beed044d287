(* Prop34.v -- property C94: the last hash that p2v shows determines the keys.  clash2 is in Spec26.v; put3 rho sec i j x
   is rho with one scalar changed to x. *)
From Coq Require Import String.
From Verif Require Import Base Fld IO Ext Spec1 Phase1 Phase1Verify Gob GobLemmas Circuit Spec2 Phase2 Phase2Claims Phase2Bad Fs Spec3 Init2 Spec4 Keys Spec18 Spec26 Final Toy1 Toy2 Toy3 Toy4 Toy7 Toy8.
Local Open Scope fld_scope.

(* two readable files accepted against the file F0 that p2n made, in any two runs; the keys are extracted twice,
   with p2n's evals and with any randomness of the commitment key *)
Theorem C94_final_keys : forall (E : Ext2) p T A B (cs : r1cs E) f p1 r1 p2 k,
  init_input p (srs_of p T A B) cs f p1 r1 p2 -> no_cmt cs -> (N.of_nat (wires cs) < 4294967296)%N ->
  is_dom (length (r_cons cs)) k -> T ^ (2 ^ k) <> 1 ->
  exists fa F0 G, p2n (E := E) p1 r1 p2 f = (Ok tt, fa) /\ fa p2 = Some F0 /\ fa evals_path = Some G /\
  forall bs bs' (rho rho' : nat -> nat -> nat -> E) F F' h h' (qF qF' : par2 E) l l' hs hs' g sg g' sg' pz pz' f1 f1' f2 f2',
    1 <= bs -> hdr_ok h -> is_file2 F h qF l -> fst (exec (verify2 bs rho) F F0) = Ok hs ->
    1 <= bs' -> hdr_ok h' -> is_file2 F' h' qF' l' -> fst (exec (verify2 bs' rho') F' F0) = Ok hs' ->
    (forall c, In c l' -> kS (d_key c) <> 0 /\ kSX (d_key c) <> 0) -> last hs [] = last hs' [] ->
    pz <> pk_path -> pz <> vk_path -> f1 pz = Some F -> f1 evals_path = Some G -> extract_keys wrap64 g sg pz f1 = (Ok tt, f2) ->
    pz' <> pk_path -> pz' <> vk_path -> f1' pz' = Some F' -> f1' evals_path = Some G -> extract_keys wrap64 g' sg' pz' f1' = (Ok tt, f2') ->
    (exists sec i j, forall x ys, fst (exec (verify2 bs (put3 rho sec i j x)) F F0) = Ok ys -> x = rho sec i j) \/
    (exists sec i j, forall x ys, fst (exec (verify2 bs' (put3 rho' sec i j x)) F' F0) = Ok ys -> x = rho' sec i j) \/
    (exists a b, clash2 l l' a b) \/
    (f2 pk_path = f2' pk_path /\ exists v : vkey E,
      f2 vk_path = Some (vk_bytes (ped (e := E) g sg []) (empty_info (E := E)) v) /\
      f2' vk_path = Some (vk_bytes (ped (e := E) g' sg' []) (empty_info (E := E)) v)).
Proof. exact @final_keys. Qed.
Print Assumptions C94_final_keys.

(* secrets 3 and 7: two files with different bytes, verified in batches of 2 and 3, extracted with different
   randomness; the proving keys are the same, the verifying keys differ in the commitment key *)
Example C94_case : exists h (q : par2 Toy2) l hs,
  let e := extract_keys (E := Toy2) wrap64 (u 2) (u 6) pzn (fset kfa pzn kF) in
  let e' := extract_keys (E := Toy2) wrap64 (u 3) (u 4) pzn (fset kfa pzn (kF ++ [b8 7])) in
  init_input 2 (srs_of 2 (u 3) (u 5) (u 7)) (tcs 0) (tfs 0) p1n r1n p2n' /\ no_cmt (tcs 0) /\
  is_dom (length (r_cons (tcs 0))) 2 /\ u 3 ^ (2 ^ 2) <> 1 /\ has kfa p2n' kF0 = true /\ hdr_ok h /\
  is_file2 kF h q l /\ is_file2 (kF ++ [b8 7]) h q l /\ (forall c, In c l -> kS (d_key c) <> 0 /\ kSX (d_key c) <> 0) /\ length l = 2%nat /\
  fst (exec (verify2 2 trho2) kF kF0) = Ok hs /\ fst (exec (verify2 3 trho2) (kF ++ [b8 7]) kF0) = Ok hs /\
  is_ok (fst e) = true /\ is_ok (fst e') = true /\
  match snd e pk_path, snd e' pk_path with Some a, Some b => bytes_eqb a b = true | _, _ => False end /\
  match snd e vk_path, snd e' vk_path with Some a, Some b => bytes_eqb a b = false | _, _ => False end.
Proof.
  exists (set_contribs kh 2), (upd_par2 (u 4) kq0), (snd (honest2 kq0 [] kws)). eexists. cbv zeta.
  split; [apply (tfs_input 0); lia|]. split; [split; reflexivity|]. split.
  { split; [lia|]. split; [vm_compute; lia|]. intros j J H. destruct j as [|[|j]]; [lia| |lia]. exfalso. revert H. vm_compute. lia. }
  split; [fld_neq|]. split; [vm_compute; reflexivity|].
  split; [apply hdr_ok_set; [unfold hdr_ok, hdr_fields, int64, kh, two63; cbn; repeat constructor; lia|apply int_small; lia]|].
  assert (IF : forall junk, is_file2 (kF ++ junk) (set_contribs kh 2) (upd_par2 (u 4) kq0) (snd (honest2 kq0 [] kws))).
  { intros junk. assert (K : kF = file2 (set_contribs kh 2) (upd_par2 (u 4) kq0) (snd (honest2 kq0 [] kws))) by (apply bytes_eqb_true; vm_compute; reflexivity).
    rewrite K. apply file2_is; [split; reflexivity|reflexivity| |].
    - intros c [<-|[<-|[]]]; reflexivity.
    - intros [|[|i]] Hi; [| |cbn in Hi; lia]; apply tle; vm_compute; reflexivity. }
  split; [rewrite <- (app_nil_r kF); apply IF|]. split; [apply IF|].
  split; [intros c [<-|[<-|[]]]; split; fld_neq|]. split; [reflexivity|].
  split; [vm_compute; reflexivity|]. split; [vm_compute; reflexivity|].
  split; [vm_compute; reflexivity|]. split; [vm_compute; reflexivity|]. split; vm_compute; reflexivity.
Qed.
