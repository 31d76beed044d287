(* Toy3.v -- concrete file systems for Prop3.v: a phase-1 file of power 2 with secrets 3, 5, 7 over the
   17-element field and the circuits of Toy2.v. *)
From Coq Require Import String.
From Verif Require Import Base Fld IO Ext Toy Spec1 Phase1 Circuit Gob Fs Spec3 Init2 Init2Pure Toy2.

Definition p1n : string := "phase1"%string.
Definition r1n : string := "circuit"%string.
Definition p2n' : string := "phase2"%string.
Definition tsrs : srs Toy2 := srs_of 2 (u 3) (u 5) (u 7).
Definition tp1 : bytes := phase1_file 2 (b8 0) (b8 4) tsrs [b8 9; b8 8].
Definition tfs (i : nat) : fs := fset (fset (fun _ => None) p1n tp1) r1n [b8 (N.of_nat i)].
Definition tcs (i : nat) : r1cs Toy2 := nth i toy_circuits (mkR1cs 0 0 0 [] [] (mkCmt [] 0 0)).

Definition term_okb (cs : r1cs Toy2) (t : term) : bool :=
  ((t_wire t <? wires cs) && ((t_coeff t <? 4) || (t_coeff t <? length (r_coeffs cs))))%nat%bool.
Definition circuit_okb (cs : r1cs Toy2) : bool :=
  forallb (fun c => forallb (term_okb cs) (r_L c ++ r_R c ++ r_O c)) (r_cons cs).
Lemma circuit_okb_ok cs : circuit_okb cs = true -> circuit_ok cs.
Proof.
  unfold circuit_okb, circuit_ok. rewrite forallb_forall. intros H c Hc t Ht. specialize (H c Hc).
  rewrite forallb_forall in H. specialize (H t Ht). unfold term_okb, term_ok in *.
  apply andb_true_iff in H. destruct H as [H1 H2]. apply orb_true_iff in H2.
  rewrite !Nat.ltb_lt in *. auto.
Qed.
Lemma tfs_input i : i < 6 -> init_input 2 tsrs (tcs i) (tfs i) p1n r1n p2n'.
Proof.
  intros H. split.
  { repeat split; discriminate. }
  split; [split; repeat constructor|].
  split; [vm_compute; repeat split; reflexivity|].
  split; [exists (b8 0), (b8 4), [b8 9; b8 8]; reflexivity|].
  split.
  { exists [b8 (N.of_nat i)]. split; [apply fset_same|].
    destruct i as [|[|[|[|[|[|i]]]]]]; [reflexivity..|exfalso; lia]. }
  assert (B : (circuit_okb (tcs i) && (length (r_cons (tcs i)) <=? 4))%bool%nat = true).
  { destruct i as [|[|[|[|[|[|i]]]]]]; [vm_compute; reflexivity..|exfalso; lia]. }
  apply andb_true_iff in B. destruct B as [B1 B2]. apply Nat.leb_le in B2.
  split; [now apply circuit_okb_ok|]. change (2 ^ 2)%nat with 4%nat. change (kmax Toy2) with 4%nat. change (2 ^ 4)%nat with 16%nat.
  lia.
Qed.
