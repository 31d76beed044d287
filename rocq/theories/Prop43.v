(* Prop43.v -- property C104: from an origin without its last byte to keys under which honest proofs fail.  tilt is in
   Spec34.v, file2 in Spec2.v, quotient, proves and accepts in Spec4.v, init_input in Spec3.v. *)
From Coq Require Import String.
From Verif Require Import Base Fld Poly IO Ext Spec1 Phase1 Phase1Facts Gob GobLemmas Circuit Spec2 Phase2 Phase2Claims Fs Spec3 Init2 Spec4 Keys Toy1 Toy2 Toy3 Toy4
  Toy8 Toy18 Phase1Verify Spec34 Toy23 CutKeys.
Local Open Scope fld_scope.

(* p2n and every contribution are honest; then known multiples of the generator, whatever d is, are added to the points of
   PKK in the final file, and the origin lacks its last byte.  p2v lists the hashes of the contributors, key succeeds, and
   an honest proof is accepted if and only if the private wires, weighted with d, add up to 0: whoever chose d learns
   whether they do *)
Theorem C104_cut_origin_refuted : forall (E : Ext2) p T A B (cs : r1cs E) f p1 r1 p2 bs (ws : list (E * E)),
  init_input p (srs_of p T A B) cs f p1 r1 p2 -> no_cmt cs -> (N.of_nat (wires cs) < 4294967296)%N -> (nb_public cs < wires cs)%nat ->
  1 <= bs -> (Z.of_nat (length ws) < 9223372036854775808)%Z -> ws <> [] -> (forall w, In w ws -> fst w <> 0) ->
  exists fa k h (q0 : par2 E) fo b, p2n (E := E) p1 r1 p2 f = (Ok tt, fa) /\ fa p2 = Some (fo ++ [b]) /\ fo ++ [b] = file2 h q0 [] /\
    ((forall j, (1 <= j <= length ws)%nat -> unsplit (set_contribs h (Z.of_nat j)) q0 j) ->
     exists h' (q1 : par2 E) l hs, ceremony2 (E := E) bs (fo ++ [b]) ws = Ok (file2 h' q1 l, hs) /\ (length (p_K q1) = wires cs - nb_public cs)%nat /\
     forall d, length d = length (p_K q1) -> let F := file2 h' (tilt d q1) l in
     (forall bs' (rho : nat -> nat -> nat -> E), 1 <= bs' -> exec (verify2 bs' rho) F fo = (Ok hs, [])) /\
     forall g sg pz, pz <> pk_path -> pz <> vk_path -> pz <> evals_path ->
     exists fb (q : pkey E) (v : vkey E), extract_keys wrap64 g sg pz (fset fa pz F) = (Ok tt, fb) /\
       fb pk_path = Some (pk_bytes k (N.of_nat (wires cs)) q) /\
       fb vk_path = Some (vk_bytes (ped (e := E) g sg []) (empty_info (E := E)) v) /\
       forall x hq r s ar br krs, quotient cs x (2 ^ k) (root k) hq -> proves q cs k x hq r s ar br krs ->
         (accepts v cs x ar br krs <-> sumn (wires cs - nb_public cs) (fun i => x (nb_public cs + i)%nat * nth i d 0) = 0)).
Proof. exact @cut_keys. Qed.
Print Assumptions C104_cut_origin_refuted.

(* out = 2 x^2 + 3 x with a free y, and d compares x with y: refused with the whole origin, accepted with one byte less;
   of two honest proofs for out = 14 the one made with y = x is accepted *)
Example C104_case : let r := extract_keys (E := Toy2) wrap64 (u 2) (u 6) pzn (fset kfa pzn nF) in
  init_input 2 (srs_of 2 (u 3) (u 5) (u 7)) (tcs 0) (tfs 0) p1n r1n p2n' /\ no_cmt (tcs 0) /\ (nb_public (tcs 0) < wires (tcs 0))%nat /\
  (forall w, In w kws -> fst w <> 0) /\ (forall j, (1 <= j <= length kws)%nat -> unsplit (set_contribs kh (Z.of_nat j)) kq0 j) /\
  has kfa p2n' kF0 = true /\ (exists b, kF0 = nF0 ++ [b]) /\ length nd = length (p_K (upd_par2 (u 4) kq0)) /\
  fst (exec (verify2 2 trho2) kF kF0) = Ok (map d_hash nrecs) /\ length nrecs = 2%nat /\
  fst (exec (verify2 2 trho2) nF kF0) = Err EInconsPKK /\ exec (verify2 2 trho2) nF nF0 = (Ok (map d_hash nrecs), []) /\
  is_ok (fst r) = true /\ has (snd r) pk_path (pk_bytes 2 6 npk) = true /\ has (snd r) vk_path (vk_bytes (g1r (u 2) ++ g1r (u 6)) (empty_info (E := Toy2)) kvk) = true /\
  (forall i, (i < nb_public (tcs 0))%nat -> kx i = kz i) /\
  quotient (tcs 0) kx (2 ^ 2) (root (e := Toy2) 2) [u 14; u 3; u 6] /\ quotient (tcs 0) kz (2 ^ 2) (root (e := Toy2) 2) [u 2; u 16; u 13] /\
  proves npk (tcs 0) 2 kx [u 14; u 3; u 6] (u 2) (u 3) (u 5) (u 9) (u 4) /\ ~ accepts kvk (tcs 0) kx (u 5) (u 9) (u 4) /\
  proves npk (tcs 0) 2 kz [u 2; u 16; u 13] (u 2) (u 3) (u 13) (u 16) (u 16) /\ accepts kvk (tcs 0) kz (u 13) (u 16) (u 16).
Proof.
  cbv zeta. split; [exact (tfs_input 0 ltac:(lia))|]. split; [split; reflexivity|]. split; [vm_compute; lia|].
  split; [intros w [<-|[<-|[]]]; fld_neq|]. split; [exact k_unsplit|]. split; [vm_compute; reflexivity|]. split.
  { exists (List.last kF0 (b8 0)). apply bytes_eqb_true. vm_compute. reflexivity. }
  repeat (split; [vm_compute; reflexivity|]).
  split; [intros [|[|i]] Hi; [reflexivity|reflexivity|change (S (S i) < 2)%nat in Hi; lia]|].
  split; [exact kquot|]. split; [exact kzquot|]. split; [exact nproves_x|]. split; [fld_neq|]. split; [exact nproves_z|by17].
Qed.
