(* Toy17.v -- concrete data for Prop21.v: a second witness for the circuit of Toy3.v with the public input of
   Toy4.v, and a phase-2 file whose delta is 0. *)
From Coq Require Import String.
From Verif Require Import Base Fld Poly BitRev IO Ext Toy Spec1 Phase1 Phase1Facts Circuit Gob GobLemmas Spec2 Phase2Claims Fs Spec3 Init2 Init2Pure
  Toy1 Toy2 Toy3 Spec4 Keys Toy4 Toy8.
Local Open Scope fld_scope.

(* x = 2, y = 5, out = 14 *)
Definition ky (i : nat) : Toy2 := nth i [u 1; u 14; u 2; u 5; u 10; u 15] (u 0).
Lemma kyquot : quotient (tcs 0) ky (2 ^ 2) (root (e := Toy2) 2) [u 15; u 15; u 2].
Proof.
  split; [reflexivity|]. exists [u 8; u 13; u 0; u 15], [u 2; u 3; u 1; u 16], [u 14; u 14; u 15; u 1].
  assert (V : forall n, (n < 4 -> n = 0 \/ n = 1 \/ n = 2 \/ n = 3)%nat) by lia.
  split; [split; [reflexivity|intros i Hi; destruct (V i Hi) as [->|[->|[->| ->]]]; by17]|].
  split; [split; [reflexivity|intros i Hi; destruct (V i Hi) as [->|[->|[->| ->]]]; by17]|].
  split; [split; [reflexivity|intros i Hi; destruct (V i Hi) as [->|[->|[->| ->]]]; by17]|].
  intros y. apply (feqb_ok F17). revert y.
  apply (all17 (fun y => feqb (f := F17) (fsub (f := F17) (fmul (f := F17) (peval (K := F17) [u 8; u 13; u 0; u 15] y) (peval (K := F17) [u 2; u 3; u 1; u 16] y)) (peval (K := F17) [u 14; u 14; u 15; u 1] y))
    (fmul (f := F17) (peval (K := F17) [u 15; u 15; u 2] y) (fsub (f := F17) (fpow (K := F17) y (2 ^ 2)) f1)))).
  vm_compute. reflexivity.
Qed.
(* the proof of kproves, with prover randomness 6 and 15 *)
Lemma kyproves : proves kpk (tcs 0) 2 ky [u 15; u 15; u 2] (u 6) (u 15) (u 5) (u 9) (u 5).
Proof.
  exists (u 13). split; [|split; [by17|split; [by17|by17]]].
  exists (fun i => match i with 1%nat => 2%nat | 2%nat => 1%nat | _ => i end). split; [|by17].
  assert (V : forall n, (n < 2 ^ 2 -> n = 0 \/ n = 1 \/ n = 2 \/ n = 3)%nat) by (cbn; lia).
  intros i Hi. destruct (V i Hi) as [->|[->|[->| ->]]]; (split; [cbn; lia|]);
    (intros [|[|b]] Hb; [reflexivity|reflexivity|lia]).
Qed.

(* delta = 0 *)
Definition k0F : bytes := file2 kh (mkPar2 (u 0) (u 0) [u 12; u 6; u 2] [u 15; u 11; u 9; u 7]) [].
Definition k0pk : pkey Toy2 := mkPk (u 5) (u 7) (u 0) [u 0; u 0; u 11; u 9; u 12; u 12] [u 12; u 0; u 8; u 10; u 0; u 0]
  [u 12; u 6; u 2] [u 15; u 11; u 9; u 7] (u 7) (u 0) [u 12; u 0; u 8; u 10; u 0; u 0].
Definition k0fs : fs := fset kfa pzn k0F.
Definition k0res := extract_keys (E := Toy2) wrap64 (u 2) (u 6) pzn k0fs.
Lemma k0_tells : forall h h' r s r' s' ar bs krs ar' bs' krs',
  proves k0pk (tcs 0) 2 kx h r s ar bs krs -> proves k0pk (tcs 0) 2 ky h' r' s' ar' bs' krs' -> ar <> ar'.
Proof.
  intros h h' r s r' s' ar bs krs ar' bs' krs' [z [_ [A1 _]]] [z' [_ [A2 _]]] H. rewrite A1, A2 in H. clear A1 A2. revert H.
  cbn [k0pk q_delta]. intros H.
  assert (Zz : forall t : Toy2, t * u 0 = u 0). { intros t. apply Zp_ext. cbn [zv]. change (zv 17 (t * u 0)) with ((zv 17 t * 0) mod 17)%Z. now rewrite Z.mul_0_r. }
  rewrite !Zz in H. revert H. fld_neq.
Qed.
Lemma k0_run : fst k0res = Ok tt /\ has (snd k0res) pk_path (pk_bytes 2 6 k0pk) = true.
Proof. split; vm_compute; reflexivity. Qed.
Lemma has_eq f p b : has f p b = true -> f p = Some b.
Proof. unfold has. destruct (f p) as [c|]; [|discriminate]. intros H. apply bytes_eqb_true in H. now subst. Qed.
Lemma unchecked : exists (E : Ext2) g sg pz f f2 (cs : r1cs E) k (q : pkey E) x y h h',
  extract_keys (E := E) wrap64 g sg pz f = (Ok tt, f2) /\ f2 pk_path = Some (pk_bytes k (N.of_nat (wires cs)) q) /\
  (forall i, (i < nb_public cs)%nat -> x i = y i) /\ quotient cs x (2 ^ k) (root k) h /\ quotient cs y (2 ^ k) (root k) h' /\
  forall r s r' s' ar bs krs ar' bs' krs', proves q cs k x h r s ar bs krs -> proves q cs k y h' r' s' ar' bs' krs' -> ar <> ar'.
Proof.
  exists Toy2, (u 2), (u 6), pzn, k0fs, (snd k0res), (tcs 0), 2%nat, k0pk, kx, ky, [u 14; u 3; u 6], [u 15; u 15; u 2]. destruct k0_run as [R1 R2].
  split; [fold k0res; rewrite <- R1; now destruct k0res|]. split; [exact (has_eq _ _ _ R2)|]. split.
  { intros [|[|i]] Hi; [reflexivity|reflexivity|change (S (S i) < 2)%nat in Hi; lia]. }
  split; [exact kquot|]. split; [exact kyquot|]. intros. eapply k0_tells; eassumption.
Qed.
