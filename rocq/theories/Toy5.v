(* Toy5.v -- concrete data for Prop5.v: a phase-1 file of power 5 (6179 bytes) and the files of Toy4.v. *)
From Coq Require Import String.
From Verif Require Import Base Fld IO Ext Toy Spec1 Phase1 Phase1Verify Toy1 Circuit Gob Spec2 Phase2 Fs Spec3 Init2 Spec4 Keys Toy2 Toy3 Toy4
  GobLemmas KeysProps Live LiveCmd Spec5.

Definition ian : string := "a"%string.
Definition obn : string := "b"%string.
Definition isr : srs (Toy true) := srs_of 5 (z17 true 3) (z17 true 5) (z17 true 7).
Definition iF : bytes := file1 5 isr [].
Definition ifs : fs := fset (fset (fun _ => None) ian iF) obn [b8 1; b8 2].
Definition iO : bytes := snd (exec (contribute 32 (tw1 true)) iF iF).
Definition ih : bytes := match fst (exec (contribute 32 (tw1 true)) iF iF) with Ok h => h | _ => [] end.
Definition ires {X} (r : res X) : nat := match r with Ok _ => 0 | Err _ => 1 | Panic => 2 end.
Definition ilen (f : fs) (p : string) : N := match f p with Some b => N.of_nat (length b) | None => 0 end.

Lemma c51_p2n : exists (E : Ext2) (f : fs) p1 r1 p2 C,
  result_of (l_p2n (E := E) (disk C) p1 r1 p2) f = Ok tt /\ fst (p2n (E := E) p1 r1 p2 f) = Ok tt /\
  after (l_p2n (E := E) (disk C) p1 r1 p2) f p2 <> snd (p2n (E := E) p1 r1 p2 f) p2.
Proof.
  exists Toy2, (tfs 0), p1n, r1n, p2n', (N.to_nat 1700). split; [vm_compute; reflexivity|]. split; [vm_compute; reflexivity|].
  intros H. assert (X : ilen (after (l_p2n (E := Toy2) (disk (N.to_nat 1700)) p1n r1n p2n') (tfs 0)) p2n' = ilen (snd (p2n (E := Toy2) p1n r1n p2n' (tfs 0))) p2n')
    by (unfold ilen; now rewrite H). revert X. vm_compute. discriminate.
Qed.
Lemma c51_keys : exists (E : Ext2) (g sg : E) (f : fs) p,
  result_of (l_keys (disk 0) wrap64 g sg p) f = Ok tt /\ fst (extract_keys wrap64 g sg p f) = Ok tt /\
  after (l_keys (disk 0) wrap64 g sg p) f pk_path = Some [].
Proof. exists Toy2, (u 2), (u 6), kfs, pzn. repeat split; vm_compute; reflexivity. Qed.

(* Transform on small disks *)
Definition tr_fs (p : nat) : fs := fset (fun _ => None) ian (ppot (repeat x00 64) (srs_of p (z17 true 3) (z17 true 5) (z17 true 7)) []).
Definition tr_res (p q : nat) (n : N) : nat * N := let c := l_transform (E := Toy true) (disk (N.to_nat n)) (b8 (N.of_nat p)) (b8 (N.of_nat q)) ian obn in
  (ires (result_of c (tr_fs p)), ilen (after c (tr_fs p)) obn).

(* key extraction for n wires on small disks *)
Definition wfile (n : nat) : bytes := file2 (mkHdr (Z.of_nat n) 2 1 0 1 2 0) (mkPar2 (u 4) (u 4) [u 9] [u 1; u 2]) [].
Definition wv (n : nat) : evals Toy2 := mkEvals (u 5) (u 7) (u 7) (repeat (u 1) n) (repeat (u 4) n) (repeat (u 4) n) [u 9; u 12] [u 3] [b8 1].
Definition wfs (n : nat) : fs := fset (fset (fun _ => None) pzn (wfile n)) evals_path (evals_bytes (wv n)).
Definition wres (n : nat) (c : N) : nat * (N * N) := let x := l_keys (E := Toy2) (disk (N.to_nat c)) wrap64 (u 2) (u 6) pzn in
  (ires (result_of x (wfs n)), (ilen (after x (wfs n)) pk_path, ilen (after x (wfs n)) vk_path)).
Lemma wfs_ok n : (N.of_nat n < 4294967296)%N -> wfs n pzn = Some (wfile n) /\ wfs n evals_path = Some (evals_bytes (wv n)) /\
  ph2 (wfile n) (mkHdr (Z.of_nat n) 2 1 0 1 2 0) (mkPar2 (u 4) (u 4) [u 9] [u 1; u 2]) /\ smalls (wv n) /\ same_wires n (wv n).
Proof.
  intros L. split; [reflexivity|]. split; [reflexivity|].
  split.
  { unfold wfile. apply (file2_ph2 (E := Toy2)); [|split; reflexivity].
    unfold hdr_ok, hdr_fields, int64, two63. cbn [h_wires h_witness h_public h_privc h_cons h_domain h_contribs].
    repeat (apply Forall_cons; [lia|]). apply Forall_nil. }
  unfold smalls, same_wires. cbn [wv v_A v_B v_B2 v_vkk v_ckk]. rewrite !repeat_length. repeat split; try exact L; cbn; lia.
Qed.
