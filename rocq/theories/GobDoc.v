(* GobDoc.v -- the bytes of the phase-2 header are those of encoding/gob. *)
From Coq Require Import String ZifyBool ZifyNat ZifyN.
From Verif Require Import Base IO Gob GobLemmas Sizes Spec20 Spec23.

Lemma base256_val d : forall a, fold_left (fun a x => a * 256 + bN x)%N d a = be_val a d.
Proof. induction d as [|x d IH]; intros a; [reflexivity|]. cbn. apply IH. Qed.
Lemma be_val_snoc d x : be_val 0 (d ++ [x]) = (be_val 0 d * 256 + bN x)%N.
Proof. now rewrite be_val_app. Qed.
Lemma be_val_lt d : (be_val 0 d < 256 ^ N.of_nat (length d))%N.
Proof.
  induction d as [|x d IH] using rev_ind; [cbn; lia|]. rewrite be_val_snoc, app_length. cbn [length].
  replace (N.of_nat (length d + 1)) with (N.succ (N.of_nat (length d))) by lia. rewrite N.pow_succ_r'. pose proof (bN_lt x). nia.
Qed.
Lemma be_val_inj d : forall e, length d = length e -> be_val 0 d = be_val 0 e -> d = e.
Proof.
  induction d as [|x d IH] using rev_ind; intros e L V.
  - destruct e; [reflexivity|discriminate].
  - destruct (rev e) as [|y e'] eqn:R; [apply (f_equal (@rev _)) in R; rewrite rev_involutive in R; subst e; rewrite app_length in L; cbn in L; lia|].
    apply (f_equal (@rev _)) in R. rewrite rev_involutive in R. cbn [rev] in R. subst e. rewrite !app_length in L. cbn [length] in L.
    rewrite !be_val_snoc in V. pose proof (bN_lt x). pose proof (bN_lt y).
    assert (bN x = bN y /\ be_val 0 d = be_val 0 (rev e')) as [X Y] by nia. apply bN_inj in X. subst y. f_equal. apply IH; [lia|exact Y].
Qed.
Lemma uint_unique n b b' : uint_is n b -> uint_is n b' -> b = b'.
Proof.
  intros [[L [x [-> X]]]|[L [c [d [-> [C [_ [V M]]]]]]]] [[L' [x' [-> X']]]|[L' [c' [d' [-> [C' [_ [V' M']]]]]]]]; try lia.
  - f_equal. apply bN_inj. congruence.
  - unfold base256 in V, V'. rewrite base256_val in V, V'. pose proof (be_val_lt d) as B. pose proof (be_val_lt d') as B'. rewrite V in B. rewrite V' in B'.
    assert (N0 : d <> []) by (intros ->; cbn in V; lia). assert (N0' : d' <> []) by (intros ->; cbn in V'; lia).
    assert (P : length d <> 0 /\ length d' <> 0) by (destruct d, d'; cbn; try congruence; lia).
    assert (LL : length d = length d').
    { assert (A1 : (N.of_nat (length d) - 1 < N.of_nat (length d'))%N) by (apply (N.pow_lt_mono_r_iff 256); lia).
      assert (A2 : (N.of_nat (length d') - 1 < N.of_nat (length d))%N) by (apply (N.pow_lt_mono_r_iff 256); lia). lia. }
    f_equal; [apply bN_inj; lia|]. apply be_val_inj; [exact LL|congruence].
Qed.
Lemma uint_ok n : (n < 18446744073709551616)%N -> uint_is n (gob_uint n).
Proof.
  intros H. destruct (N.lt_ge_cases n 128) as [L|L].
  - left. split; [exact L|]. rewrite gob_uint_small by exact L. eexists. split; [reflexivity|]. rewrite bN_b8. apply N.mod_small. lia.
  - right. split; [exact L|]. destruct (gob_uint_head n ltac:(lia)) as [x [d [Q [X [D V]]]]]. exists x, d. split; [exact Q|].
    split; [lia|]. split; [lia|]. unfold base256. rewrite base256_val. split; [exact V|].
    assert (DD : d = be_min 8 n []).
    { unfold gob_uint in Q. destruct (N.ltb_spec n 128); [lia|]. cbv zeta in Q. remember (be_min 8 n []) as e. injection Q as _ Q. now symmetry. }
    rewrite DD.
    rewrite be_min_log by (change (256 ^ N.of_nat 8)%N with 18446744073709551616%N; lia).
    replace (N.of_nat (S (N.to_nat (N.log2 n / 8))) - 1)%N with (N.log2 n / 8)%N by lia.
    change 256%N with (2 ^ 8)%N. rewrite <- N.pow_mul_r. etransitivity; [|apply N.log2_spec; lia].
    apply N.pow_le_mono_r; [lia|]. apply N.mul_div_le. lia.
Qed.
Lemma uint_iff n b : (n < 18446744073709551616)%N -> (uint_is n b <-> b = gob_uint n).
Proof. intros H. split; [intros U; exact (uint_unique n _ _ U (uint_ok n H))|intros ->; now apply uint_ok]. Qed.
Lemma int_iff z b : int64 z -> (int_is z b <-> b = gob_int z).
Proof.
  intros H. unfold int64 in H. unfold gob_int. 
  assert (K : forall n, (z = if N.odd n then - Z.of_N (n / 2) - 1 else Z.of_N (n / 2))%Z <-> n = zigzag z).
  { intros n. pose proof (N.div_mod n 2 ltac:(lia)) as D. pose proof (N.bit0_mod n) as Bm. rewrite N.bit0_odd in Bm. unfold zigzag.
    destruct (N.odd n); cbn [N.b2n] in Bm; destruct (Z.ltb_spec z 0); lia. }
  assert (L : (zigzag z < 18446744073709551616)%N) by (unfold zigzag; destruct (Z.ltb_spec z 0); lia).
  split.
  - intros [n [U Q]]. apply K in Q. subst n. now apply uint_iff.
  - intros ->. exists (zigzag z). split; [now apply uint_ok|now apply K].
Qed.
Lemma string_iff s b : (N.of_nat (String.length s) < 128)%N -> (string_is s b <-> b = b8 (N.of_nat (String.length s)) :: list_byte_of_string s).
Proof.
  intros H. split.
  - intros [l [U ->]]. apply uint_iff in U; [|lia]. subst l. now rewrite gob_uint_small.
  - intros ->. eexists. split; [apply uint_iff; [lia|reflexivity]|]. now rewrite gob_uint_small.
Qed.
Lemma struct_iff l : Forall int64 l -> forall k b, k + length l < 128 -> (struct_is k l b <-> b = gob_fields (N.of_nat k) l).
Proof.
  intros F. induction F as [|z l Z F IH]; intros k b K; cbn [gob_fields].
  - split; [intros H; now inversion H|intros ->; constructor].
  - cbn [length] in K. replace (N.of_nat k + 1)%N with (N.of_nat (S k)) by lia. destruct (Z.eqb_spec z 0) as [->|N0].
    + split.
      * intros H. inversion H; subst; [now apply IH; [lia|]|congruence].
      * intros ->. constructor. apply IH; [lia|reflexivity].
    + split.
      * intros H. inversion H as [|? ? ? ?|? ? ? d v b' _ U V S]; subst; [congruence|].
        apply uint_iff in U; [|lia]. apply int_iff in V; [|exact Z]. apply IH in S; [|lia]. now subst.
      * intros ->. apply struct_field; [exact N0|apply uint_iff; [lia|reflexivity]|apply int_iff; [exact Z|reflexivity]|apply IH; [lia|reflexivity]].
Qed.
Definition tf (s : string) : bytes := [x01] ++ (b8 (N.of_nat (String.length s)) :: list_byte_of_string s) ++ [x01] ++ [x04] ++ [x00].
Definition short (s : string) : Prop := (N.of_nat (String.length s) < 128)%N.
Lemma field_type_iff s b : short s -> (field_type_is s b <-> b = tf s).
Proof.
  intros H. split.
  - intros [n [i [A [B ->]]]]. apply string_iff in A; [|exact H]. apply int_iff in B; [|split; lia]. subst. reflexivity.
  - intros ->. eexists _, _. split; [apply string_iff; [exact H|reflexivity]|]. split; [apply int_iff; [split; lia|reflexivity]|]. reflexivity.
Qed.
Lemma field_types_iff l : Forall short l -> forall b, field_types_are l b <-> b = flat_map tf l.
Proof.
  intros F. induction F as [|s l S F IH]; intros b; cbn [flat_map].
  - split; [intros H; now inversion H|intros ->; constructor].
  - split.
    + intros H. inversion H as [|? ? b1 t A B]; subst. apply field_type_iff in A; [|exact S]. apply IH in B. now subst.
    + intros ->. constructor; [now apply field_type_iff|now apply IH].
Qed.
Local Open Scope string_scope.
Definition hnames : list string := ["Wires"; "Witness"; "Public"; "PrivateCommitted"; "Constraints"; "Domain"; "Contributions"].
Lemma type_iff b : type_is 65 "Header" hnames b <-> b = typedef.
Proof.
  assert (F : Forall short hnames) by (repeat constructor).
  split.
  - intros [i [n [j [c [f [I [A [J [C [T ->]]]]]]]]]]. apply int_iff in I; [|split; lia]. apply string_iff in A; [|reflexivity].
    apply int_iff in J; [|split; lia]. apply uint_iff in C; [|reflexivity]. apply field_types_iff in T; [|exact F]. subst. vm_compute. reflexivity.
  - intros ->. eexists _, _, _, _, _. split; [apply int_iff; [split; lia|reflexivity]|]. split; [apply string_iff; reflexivity|].
    split; [apply int_iff; [split; lia|reflexivity]|]. split; [apply uint_iff; reflexivity|]. split; [now apply field_types_iff|]. vm_compute. reflexivity.
Qed.
Lemma value_iff h b : hdr_ok h -> (value_is 65 (hdr_fields h) b <-> b = value h).
Proof.
  intros H. assert (L : 1 + Datatypes.length (hdr_fields h) < 128) by (cbn; lia). split.
  - intros [i [s [I [S ->]]]]. apply int_iff in I; [|split; lia]. apply struct_iff in S; [|exact H|exact L]. now subst.
  - intros ->. eexists _, _. split; [apply int_iff; [split; lia|reflexivity]|]. split; [apply struct_iff; [exact H|exact L|reflexivity]|]. reflexivity.
Qed.
Lemma message_iff (P : bytes -> Prop) m b : (N.of_nat (Datatypes.length m) < 18446744073709551616)%N -> (forall x, P x <-> x = m) -> (message_is P b <-> b = message m).
Proof.
  intros L K. split.
  - intros [l [x [U [Q ->]]]]. apply K in Q. subst x. apply uint_iff in U; [|exact L]. now subst.
  - intros ->. eexists _, m. split; [apply uint_iff; [exact L|reflexivity]|]. split; [now apply K|]. reflexivity.
Qed.
Lemma gob_doc h b : hdr_ok h -> (stream_is "Header" hnames (hdr_fields h) b <-> b = gob_hdr h).
Proof.
  intros H. assert (LV : (N.of_nat (Datatypes.length (value h)) < 18446744073709551616)%N).
  { unfold value. rewrite app_length, (fields_length (hdr_fields h) H 1) by (cbn; lia). change (Datatypes.length (gob_int 65)) with 2.
    assert (G : forall l, Forall int64 l -> list_sum (map flen l) <= 10 * Datatypes.length l).
    { intros l F. induction F as [|z l Z F IH]; [cbn; lia|]. change (list_sum (map flen (z :: l))) with (flen z + list_sum (map flen l)).
      pose proof (flen_le z Z). cbn [Datatypes.length]. lia. }
    pose proof (G _ H) as G1. change (Datatypes.length (hdr_fields h)) with 7 in G1. lia. }
  split.
  - intros [u [v [U [V ->]]]]. apply (message_iff _ typedef) in U; [|reflexivity|apply type_iff].
    apply (message_iff _ (value h)) in V; [|exact LV|intros x; now apply value_iff]. now subst.
  - intros ->. eexists _, _. split; [apply (message_iff _ typedef); [reflexivity|apply type_iff|reflexivity]|].
    split; [apply (message_iff _ (value h)); [exact LV|intros x; now apply value_iff|reflexivity]|]. reflexivity.
Qed.
