(* Toy.v -- a small instance of Ext over the field with 17 elements, used by the Examples. *)
From Verif Require Import Base Fld IO Ext.

Definition toy_enc (n : nat) (flag : N) (x : F17) : bytes :=
  b8 (flag + Z.to_N (zv 17 x)) :: repeat x00 (n - 1).
Definition toy_dec (n : nat) (flag : N) (b : bytes) : option F17 :=
  match b with
  | [] => None
  | x :: t => if bytes_eqb t (repeat x00 (n - 1)) && (flag <=? bN x)%N && (bN x <? flag + 17)%N
              then Some (f17 (Z.of_N (bN x - flag))) else None
  end.

Lemma toy_range (x : F17) : (0 <= zv 17 x < 17)%Z.
Proof.
  destruct x as [z H]. cbn. unfold zin in H. apply andb_true_iff in H as [H1 H2].
  apply Z.leb_le in H1. apply Z.ltb_lt in H2. lia.
Qed.
Lemma toy_byte flag (x : F17) : (flag <= 200)%N -> bN (b8 (flag + Z.to_N (zv 17 x))) = (flag + Z.to_N (zv 17 x))%N.
Proof. intros H. rewrite bN_b8. apply N.mod_small. pose proof (toy_range x). lia. Qed.
Lemma toy_len n flag x : 1 <= n -> length (toy_enc n flag x) = n.
Proof. intros H. unfold toy_enc. cbn [length]. rewrite repeat_length. lia. Qed.
Lemma toy_round n flag x : (flag <= 200)%N -> toy_dec n flag (toy_enc n flag x) = Some x.
Proof.
  intros H. unfold toy_dec, toy_enc. rewrite bytes_eqb_refl, toy_byte by auto. pose proof (toy_range x) as R.
  replace (flag <=? flag + Z.to_N (zv 17 x))%N with true by (symmetry; apply N.leb_le; lia).
  replace (flag + Z.to_N (zv 17 x) <? flag + 17)%N with true by (symmetry; apply N.ltb_lt; lia).
  cbn [andb]. f_equal. apply Zp_ext. cbn. replace (Z.of_N (flag + Z.to_N (zv 17 x) - flag)) with (zv 17 x) by lia.
  apply Z.mod_small. exact R.
Qed.
Lemma toy_c n x : compressed (toy_enc n 128 x) = true.
Proof.
  unfold compressed, toy_enc. rewrite toy_byte by lia. pose proof (toy_range x).
  destruct (N.eqb_spec ((128 + Z.to_N (zv 17 x)) / 64) 0) as [X|X]; [|auto].
  apply N.div_small_iff in X; lia.
Qed.
Lemma toy_r n x : compressed (toy_enc n 0 x) = false.
Proof.
  unfold compressed, toy_enc. rewrite toy_byte by lia. pose proof (toy_range x).
  rewrite N.div_small by lia. reflexivity.
Qed.

(* a 32-byte checksum *)
Definition toy_sum (b : bytes) : N := fold_left (fun a x => (a * 31 + bN x + 7) mod 65521)%N b 1%N.
Definition toy_sha (b : bytes) : bytes := let s := toy_sum b in b8 (s / 256) :: b8 s :: repeat x00 30.
Definition toy_h2g2 (m d : bytes) : F17 := f17 (1 + Z.of_N (toy_sum (m ++ d) mod 16)).

Definition toy_mexp (strict : bool) (ps rs : list F17) : option F17 :=
  if strict && negb (length ps =? length rs) then None else Some (dot ps rs).

Definition Toy (strict : bool) : Ext.
Proof.
  refine (mkExt F17 (toy_enc 32 128) (toy_enc 64 0) (toy_enc 64 128) (toy_enc 128 0)
    (toy_dec 32 128) (toy_dec 64 0) (toy_dec 64 128) (toy_dec 128 0) _ _ _ _ _ _ _ _ _ _ _ _
    (fun _ x => x) (fun _ x => x) toy_sha _ toy_h2g2 3 _ (toy_mexp strict) _);
  intros; try (apply toy_len; lia); try apply toy_c; try apply toy_r; try (apply toy_round; lia).
  - reflexivity.
  - lia.
  - unfold toy_mexp. destruct (Nat.eqb_spec (length ps) (length rs)) as [|X]; [|contradiction X].
    rewrite andb_false_r. reflexivity.
Defined.
Lemma toy_mexp_none (ps rs : list F17) : length ps <> length rs -> toy_mexp true ps rs = None.
Proof. intros H. unfold toy_mexp. now rewrite (proj2 (Nat.eqb_neq _ _) H). Qed.
Lemma toy_strict : mexp_strict (Toy true).
Proof. exact toy_mexp_none. Qed.
Lemma toy_lenient : mexp_lenient (Toy false).
Proof. intros ps rs. reflexivity. Qed.
