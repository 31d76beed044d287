(* Toy1.v -- concrete phase-1 data over the 17-element field, for the Examples of Prop1.v. *)
From Verif Require Import Base Fld IO Ext Toy Spec1 Phase1 Phase1Io Phase1Verify Phase1Trans Phase1Facts Phase1Inv Phase1More Phase1Claims.

Definition z17 (s : bool) (n : Z) : Toy s := f17 n.
Definition tw1 s : @rnd1 (Toy s) := mkRnd1 (z17 s 3) (z17 s 5) (z17 s 7) (z17 s 2) (z17 s 4) (z17 s 6).
Definition tw2 s : @rnd1 (Toy s) := mkRnd1 (z17 s 2) (z17 s 5) (z17 s 9) (z17 s 2) (z17 s 3) (z17 s 6).
Definition trho s : nat -> nat -> nat -> Toy s := fun a b c => z17 s (Z.of_nat (a + 3 * b + 5 * c + 1)).
(* files by computation; [] if a step fails *)
Definition out_of {X} (r : res X * bytes) : bytes := match fst r with Ok _ => snd r | _ => [] end.
Definition cer_file (r : res (bytes * list bytes)) : bytes := match r with Ok (f, _) => f | _ => [] end.
Definition cer_hashes (r : res (bytes * list bytes)) : list bytes := match r with Ok (_, hs) => hs | _ => [] end.
Definition tfile s : bytes := cer_file (ceremony1 2 1 [tw1 s; tw2 s]).
Definition thashes s : list bytes := cer_hashes (ceremony1 2 1 [tw1 s; tw2 s]).
(* parameters with no structure *)
Definition tsrs s : srs (Toy s) :=
  mkSrs [z17 s 4; z17 s 9; z17 s 1] [z17 s 8; z17 s 8] [z17 s 2; z17 s 11] [z17 s 5; z17 s 1] (z17 s 12).
Lemma tsrs_sized s : sized 1 (tsrs s).
Proof. repeat split. Qed.
Definition trec s : contrib (Toy s) := rec_for (tw1 s) (tsrs s) [].
Lemma trec_32 s : hashed32 [trec s].
Proof. intros c [<-|[]]. reflexivity. Qed.
Lemma tfile1 s : is_file1 (file1 1 (tsrs s) [trec s]) 1 (tsrs s) [trec s].
Proof. apply file1_is0; [apply tsrs_sized|apply trec_32]. Qed.

(* the records of tfile *)
Definition trecs : list (contrib (Toy true)) :=
  snd (honest (srs_of 1 (z17 true 1) (z17 true 1) (z17 true 1)) [] [tw1 true; tw2 true]).
Lemma f17_neq (x y : F17) : feqb (f := F17) x y = false -> x <> y.
Proof. intros H ->. rewrite feqb_refl in H. discriminate. Qed.
Lemma bytes_eqb_true a b : bytes_eqb a b = true -> a = b.
Proof. apply bytes_eqb_eq. Qed.
Lemma tfile_is : tfile true = file1 1 (srs_of 1 (z17 true 6) (z17 true 25) (z17 true 63)) trecs.
Proof. apply bytes_eqb_true. vm_compute. reflexivity. Qed.
Lemma toy_live : exists l, tfile true = file1 1 (srs_of 1 (z17 true 6) (z17 true 25) (z17 true 63)) l /\
  length l = 2 /\ all_live origin_gen l /\ fst (exec (verify 2 (trho true) None) (tfile true) []) = Ok (map c_hash l).
Proof.
  exists trecs. split; [exact tfile_is|]. split; [reflexivity|]. split.
  - repeat split; apply f17_neq; vm_compute; reflexivity.
  - vm_compute. reflexivity.
Qed.
Lemma toy_keys : exists l, is_file1 (tfile true) 1 (srs_of 1 (z17 true 6) (z17 true 25) (z17 true 63)) l /\ length l = 2 /\
  (forall c, In c l -> kS (c_kt c) <> 0%F /\ kSX (c_kt c) <> 0%F).
Proof.
  exists trecs. split; [|split; [reflexivity|]].
  - rewrite tfile_is. apply file1_is0; [apply srs_of_sized|]. intros c [<-|[<-|[]]]; reflexivity.
  - intros c [<-|[<-|[]]]; split; apply f17_neq; vm_compute; reflexivity.
Qed.
Lemma toy_ends : ends_with 2 1 ([tw1 true] ++ [with_secrets (tw2 true) (z17 true 15) (z17 true 1) (z17 true 1)] ++ [])
  (z17 true 11) (z17 true 5) (z17 true 7).
Proof.
  apply ends_with_iff; [lia|lia|apply Nat.leb_le; vm_compute; reflexivity|]. repeat split; apply Zp_ext; vm_compute; reflexivity.
Qed.
Lemma c14_case : (64 < defBuf /\ defBuf mod 32 = 0) /\ (64 < bigBuf /\ bigBuf mod 32 = 0) /\
  fst (exec (read_header false ;;; NewRd false defBuf (reads false [32; 64; 64; 32] ;;; Rd false 32 (fun x => Ret x)))%io
        (repeat x00 195 ++ repeat xff 32) []) = Ok (Some (repeat xff 32)).
Proof.
  split; [split; [apply Nat.ltb_lt|]; vm_compute; reflexivity|].
  split; [split; [apply Nat.ltb_lt; vm_compute; reflexivity|exact bigBuf_32]|]. vm_compute. reflexivity.
Qed.
Lemma c14 cap f g pw c0 c1 b h t ks : cap = defBuf \/ cap = bigBuf ->
  Forall (fun k => k = 32 \/ k = 64) ks -> f = pw :: c0 :: c1 :: b ++ h ++ t -> length b = total ks -> length h = 32 ->
  fst (exec (read_header false ;;; NewRd false cap (reads false ks ;;; Rd false 32 (fun x => Ret x)))%io f g) = Ok (Some h).
Proof.
  intros C. destruct c14_case as [[D1 D2] [[B1 B2] _]]. apply hash_read_full; destruct C as [-> | ->]; assumption.
Qed.
