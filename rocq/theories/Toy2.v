(* Toy2.v -- an instance of Ext2 over the 17-element field and concrete phase-2 data, for Prop2.v. *)
From Verif Require Import Base Fld IO Ext Toy Spec1 Phase1 Phase1Verify Phase1Facts Toy1 Gob GobLemmas Circuit Spec2 Phase2
  Phase2Lemmas Phase2Claims Phase2More Phase2Bad.

(* a checksum without zero bytes at its end *)
Definition toy_sha2 (b : bytes) : bytes := let s := toy_sum b in b8 (s / 256) :: b8 s :: repeat xff 30.
Definition ToyX : Ext.
Proof.
  refine (mkExt F17 (toy_enc 32 128) (toy_enc 64 0) (toy_enc 64 128) (toy_enc 128 0)
    (toy_dec 32 128) (toy_dec 64 0) (toy_dec 64 128) (toy_dec 128 0) _ _ _ _ _ _ _ _ _ _ _ _
    (fun _ x => x) (fun _ x => x) toy_sha2 _ toy_h2g2 3 _ (toy_mexp true) _);
  intros; try (apply toy_len; lia); try apply toy_c; try apply toy_r; try (apply toy_round; lia).
  - reflexivity.
  - lia.
  - unfold toy_mexp. destruct (Nat.eqb_spec (length ps) (length rs)) as [|X]; [|contradiction X].
    rewrite andb_false_r. reflexivity.
Defined.
(* 3 generates the 16 units *)
Definition toy_root (k : nat) : F17 := f17 (match k with 1 => 16 | 2 => 13 | 3 => 9 | _ => 3 end).
(* x, y secret, out public: w4 = x y, w5 = (2x - y) x, out = w4 + 3x + w5; wire 0 is the constant 1.
   Coefficient ids: 0..3 = 0, 1, 2, -1, and 4 = 3. *)
Definition tcons : list r1c :=
  [mkR1c [mkTerm 1 2] [mkTerm 1 3] [mkTerm 1 4];
   mkR1c [mkTerm 2 2; mkTerm 3 3] [mkTerm 1 2] [mkTerm 1 5];
   mkR1c [mkTerm 1 4; mkTerm 4 2; mkTerm 1 5] [mkTerm 1 0] [mkTerm 1 1]].
Definition tcoeffs : list F17 := [f17 0; f17 1; f17 2; f17 16; f17 3].
(* the same circuit without commitment; with only its first two constraints; with one constraint;
   committing to wire 3 (private), with commitment wire 5; committing to wire 1 (public), with
   commitment wire 5; with commitment wire 2 *)
Definition toy_circuits : list (r1cs F17) :=
  [mkR1cs 2 2 2 tcons tcoeffs (mkCmt [] 0 0);
   mkR1cs 2 2 2 (firstn 2 tcons) tcoeffs (mkCmt [] 0 0);
   mkR1cs 2 2 2 (firstn 1 tcons) tcoeffs (mkCmt [] 0 0);
   mkR1cs 2 2 2 tcons tcoeffs (mkCmt [1; 3] 1 5);
   mkR1cs 2 2 2 tcons tcoeffs (mkCmt [1] 0 5);
   mkR1cs 2 2 2 tcons tcoeffs (mkCmt [1] 0 2)].
(* a .r1cs file is one byte *)
Definition toy_parse (b : bytes) : option (r1cs F17) :=
  match b with [x] => nth_error toy_circuits (N.to_nat (bN x)) | _ => None end.
Definition Toy2 : Ext2.
Proof.
  refine (mkExt2 ToyX (fun _ _ => Throw EGob) _ 4 _ toy_root _ _ toy_parse
    (fun c => [b8 (N.of_nat (length (cm_committed c))); b8 (N.of_nat (cm_nbpriv c)); b8 (N.of_nat (cm_index c))]) (fun k => [b8 (N.of_nat k)])
    (fun g s l => flat_map (toy_enc 64 0) (g :: s :: l))).
  - intros. exact I.
  - lia.
  - intros k H. assert (k = 1 \/ k = 2 \/ k = 3 \/ k = 4) as [->|[->|[-> | ->]]] by lia; apply Zp_ext; vm_compute; reflexivity.
  - intros H. apply (f_equal (zv 17)) in H. vm_compute in H. discriminate H.
Defined.
Definition u (n : Z) : Toy2 := f17 n.

(* 2 constraints, domain 2, 3 witness wires *)
Definition th : hdr := mkHdr 5 3 2 0 2 4 0.
Definition tq : par2 Toy2 := mkPar2 (u 1) (u 1) [u 4; u 9; u 1] [u 8; u 2; u 11].
Definition tws : list (Toy2 * Toy2) := [(u 3, u 5); (u 7, u 2)].
Definition tf0 : bytes := file2 th tq [].
Lemma tle a b : (a <=? b) = true -> a <= b. Proof. apply Nat.leb_le. Qed.
Lemma tlt a b : (a <? b) = true -> a < b. Proof. apply Nat.ltb_lt. Qed.
Ltac fld_neq := let H := fresh in intros H; apply (f_equal (zv 17)) in H; vm_compute in H; discriminate H.
Ltac small_list := intros; repeat match goal with H : In _ _ |- _ => destruct H as [<-|H] | H : False |- _ => destruct H end.
Lemma th_ok : hdr_ok th.
Proof. unfold hdr_ok, hdr_fields, int64, th, two63. cbn. repeat constructor; lia. Qed.
Lemma int_small n : (0 <= n < 1000)%Z -> int64 n.
Proof. unfold int64, two63. lia. Qed.
Lemma tf0_is : is_file2 tf0 th tq [].
Proof.
  unfold tf0. rewrite <- (app_nil_r (file2 _ _ _)). apply file2_is; [split; reflexivity|reflexivity|intros c []|intros i Hi; inversion Hi].
Qed.
Lemma tw_nz (w : Toy2 * Toy2) : In w tws -> fst w <> 0%F.
Proof. intros [<-|[<-|[]]]; fld_neq. Qed.
Lemma t_unsplit j : 1 <= j <= 2 -> unsplit (set_contribs th (Z.of_nat j)) tq j.
Proof.
  intros Hj i Hi. assert (j = 1 \/ j = 2) as [-> | ->] by lia.
  - destruct i as [|i]; [|lia]. apply tle. vm_compute. reflexivity.
  - destruct i as [|[|i]]; [| |lia]; apply tle; vm_compute; reflexivity.
Qed.
Definition tf2 : bytes := cer_file (ceremony2 2 tf0 tws).
Definition ths2 : list bytes := cer_hashes (ceremony2 2 tf0 tws).
Definition trho2 : nat -> nat -> nat -> Toy2 := fun a b c => u (Z.of_nat (a + 3 * b + 5 * c + 1)).
Definition trecs2 : list (contrib2 Toy2) := snd (honest2 tq [] tws).
Definition th2 : hdr := set_contribs th 2.
Definition tq2 : par2 Toy2 := upd_par2 (u 4) tq.   (* 3 * 7 = 21 = 4 *)
Lemma th2_ok : hdr_ok th2.
Proof. apply hdr_ok_set; [apply th_ok|apply int_small; lia]. Qed.
Lemma tf2_bytes : tf2 = file2 th2 tq2 trecs2.
Proof. apply bytes_eqb_true. vm_compute. reflexivity. Qed.
Lemma tf2_is : is_file2 tf2 th2 tq2 trecs2.
Proof.
  rewrite tf2_bytes, <- (app_nil_r (file2 _ _ _)). apply file2_is; [split; reflexivity|reflexivity| |].
  - intros c [<-|[<-|[]]]; reflexivity.
  - intros [|[|i]] Hi; [| |cbn in Hi; lia]; apply tle; vm_compute; reflexivity.
Qed.

(* a circuit with 112 witness wires: the first record's hash straddles byte 4096 *)
Definition tn : nat := 112.
Definition bh : hdr := mkHdr 200 (Z.of_nat tn) 2 0 3 4 0.
Definition bq : par2 Toy2 := mkPar2 (u 1) (u 1) [u 4; u 9; u 1] (map (fun i => u (Z.of_nat i)) (seq 1 tn)).
Definition bf0 : bytes := file2 bh bq [].
Definition bw : list (Toy2 * Toy2) := [(u 3, u 5)].
Lemma bh_ok : hdr_ok bh.
Proof. unfold hdr_ok, hdr_fields, int64, bh, two63. cbn. repeat constructor; lia. Qed.
Lemma bf0_is : is_file2 bf0 bh bq [].
Proof.
  unfold bf0. rewrite <- (app_nil_r (file2 _ _ _)). apply file2_is; [split; reflexivity|reflexivity|intros c []|intros i Hi; inversion Hi].
Qed.
Definition bf1 : bytes := cer_file (ceremony2 2 bf0 bw).
Definition bhs1 : list bytes := cer_hashes (ceremony2 2 bf0 bw).

(* tf2 with one entry of Z changed *)
Definition xq2 : par2 Toy2 := mkPar2 (p_d1 tq2) (p_d2 tq2) [u 1; u 7; u 13] (p_K tq2).
Definition xf2 : bytes := file2 th2 xq2 trecs2.
Lemma xf2_is : is_file2 xf2 th2 xq2 trecs2.
Proof.
  unfold xf2. rewrite <- (app_nil_r (file2 _ _ _)). apply file2_is; [split; reflexivity|reflexivity| |].
  - intros c [<-|[<-|[]]]; reflexivity.
  - intros [|[|i]] Hi; [| |cbn in Hi; lia]; apply tle; vm_compute; reflexivity.
Qed.
Definition ffb : bytes := repeat xff 32.
Lemma ffb_bad : @bad1 Toy2 ffb.
Proof. repeat split. Qed.
(* the first record of a phase-1 ceremony *)
Definition trec1 : contrib Toy2 :=
  hd (zero_contrib (E := Toy2)) (snd (honest (E := Toy2) (srs_of 1 (u 1) (u 1) (u 1)) [] [mkRnd1 (u 3) (u 5) (u 7) (u 2) (u 4) (u 6)])).
Definition whdr : hdr := mkHdr (-1) 0 127 128 (-9223372036854775808) 9223372036854775807 300.
Lemma whdr_ok : hdr_ok whdr.
Proof. unfold hdr_ok, hdr_fields, int64, whdr, two63. cbn. repeat constructor; lia. Qed.
Lemma tlive2 i c : nth_error trecs2 i = Some c -> live2 c (prev_hash trecs2 i).
Proof.
  destruct i as [|[|i]]; [| |intros H; destruct i; discriminate H]; intros H; cbn [nth_error trecs2 honest2 snd tws] in H;
  injection H as <-; split; fld_neq.
Qed.
Lemma tkeys2 c : In c trecs2 -> kS (d_key c) <> 0%F /\ kSX (d_key c) <> 0%F.
Proof. intros [<-|[<-|[]]]; split; fld_neq. Qed.
