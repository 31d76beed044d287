(* Base.v -- bytes, outcomes of Go functions, list helpers.
   No /repo code is modelled here except where a definition says so. *)
From Coq Require Export List Arith ZArith NArith Lia Bool.
From Coq Require Export Strings.Byte.
From Coq Require Import ZifyBool ZifyNat ZifyN.
Export ListNotations.
Set Implicit Arguments.

Notation bytes := (list byte).

(* A byte from any number, reduced modulo 256 (Go's byte(x) conversion). *)
Definition b8 (n : N) : byte :=
  match of_N (n mod 256) with Some b => b | None => x00 end.

Definition bN (b : byte) : N := to_N b.

Lemma bN_b8 n : bN (b8 n) = (n mod 256)%N.
Proof.
  unfold bN, b8. destruct (of_N (n mod 256)) as [b|] eqn:H.
  - now apply to_of_N.
  - apply of_N_None_iff in H. pose proof (N.mod_upper_bound n 256). lia.
Qed.

Lemma b8_bN b : b8 (bN b) = b.
Proof.
  unfold b8, bN. pose proof (to_N_bounded b). rewrite N.mod_small by lia.
  now rewrite of_to_N.
Qed.

Lemma bN_lt b : (bN b < 256)%N.
Proof. unfold bN. pose proof (to_N_bounded b). lia. Qed.

Lemma bN_inj a b : bN a = bN b -> a = b.
Proof. intros H. rewrite <- (b8_bN a), <- (b8_bN b). now rewrite H. Qed.

(* bytes.Equal *)
Definition byte_eqb (a b : byte) : bool := (bN a =? bN b)%N.

Lemma byte_eqb_eq a b : byte_eqb a b = true <-> a = b.
Proof.
  unfold byte_eqb. rewrite N.eqb_eq. split; [apply bN_inj | now intros ->].
Qed.

Fixpoint bytes_eqb (a b : bytes) : bool :=
  match a, b with
  | [], [] => true
  | x :: a', y :: b' => byte_eqb x y && bytes_eqb a' b'
  | _, _ => false
  end.

Lemma bytes_eqb_eq a b : bytes_eqb a b = true <-> a = b.
Proof.
  revert b; induction a as [|x a IH]; intros [|y b]; simpl; try (split; congruence).
  rewrite andb_true_iff, byte_eqb_eq, IH. split; [intros [-> ->]; auto | injection 1; auto].
Qed.

Lemma bytes_eqb_refl a : bytes_eqb a a = true.
Proof. now apply bytes_eqb_eq. Qed.

(* Outcome of a Go call: normal return, returned error, run-time panic. *)
Inductive err : Set :=
| EEof            (* io.EOF / io.ErrUnexpectedEOF *)
| EDecode         (* gnark-crypto decoder rejected a point *)
| EGob            (* encoding/gob decoding error *)
| ENoFile         (* os.Open failed *)
| ECreate         (* os.Create failed *)
| EWrite          (* a write failed *)
| ESeek           (* File.Seek failed (negative offset) *)
| EArgs           (* "please provide the correct arguments" *)
| EAtoi           (* strconv.Atoi error *)
| EHigherPower    (* "cannot transform to a higher power" *)
| EPower26        (* "can't support powers larger than 26" *)
| EKnowTau | EKnowAlpha | EKnowBeta
| EUpdTau1 | EUpdAlpha | EUpdBeta | EUpdTau2 | EUpdBeta2
| EHash           (* contribution hash mismatch *)
| EPairing        (* "failed pairing check" *)
| EBetaG2         (* "failed verifying update of Beta" *)
| EConstraints    (* phase 1 too small for the circuit *)
| ER1cs           (* R1CS file could not be read *)
| ENoContrib      (* "there are no contributions to verify" *)
| EHeader         (* header mismatch *)
| EDelta          (* deltaG1/deltaG2 inconsistent *)
| EInconsZ | EInconsPKK
| EKnowDelta | EUpdDelta
| ELastDelta.

Inductive res (A : Type) : Type :=
| Ok (a : A)
| Err (e : err)
| Panic.
Arguments Ok {A} a.
Arguments Err {A} e.
Arguments Panic {A}.

Definition is_ok {A} (r : res A) : bool := match r with Ok _ => true | _ => false end.

Definition rbind {A B} (r : res A) (k : A -> res B) : res B :=
  match r with Ok a => k a | Err e => Err e | Panic => Panic end.

(* ------------------------------------------------------------------ *)
(* Lists *)

Definition upd {A} (l : list A) (i : nat) (x : A) : list A :=
  firstn i l ++ match skipn i l with [] => [] | _ :: t => x :: t end.

Lemma upd_length {A} (l : list A) i x : length (upd l i x) = length l.
Proof.
  unfold upd. rewrite app_length.
  pose proof (firstn_length i l) as H1. pose proof (skipn_length i l) as H2.
  destruct (skipn i l); simpl in *; lia.
Qed.

Lemma nth_error_upd_same {A} (l : list A) i x : i < length l -> nth_error (upd l i x) i = Some x.
Proof.
  intros H. unfold upd. rewrite nth_error_app2; rewrite firstn_length; [|lia].
  replace (i - Nat.min i (length l)) with 0 by lia.
  pose proof (skipn_length i l). destruct (skipn i l); simpl in *; [lia|reflexivity].
Qed.

Lemma nth_error_firstn {A} (l : list A) n i :
  nth_error (firstn n l) i = if i <? n then nth_error l i else None.
Proof.
  revert n i; induction l as [|x l IH]; intros [|n] [|i]; simpl; auto.
  - now destruct (S i <? S n).
  - rewrite IH. reflexivity.
Qed.

Lemma nth_error_skipn {A} (l : list A) n i : nth_error (skipn n l) i = nth_error l (n + i).
Proof.
  revert l; induction n as [|n IH]; intros [|x l]; simpl; auto.
  now destruct i.
Qed.

Lemma nth_error_upd_other {A} (l : list A) i j x : i <> j -> nth_error (upd l i x) j = nth_error l j.
Proof.
  intros H. unfold upd.
  destruct (Nat.lt_ge_cases i (length l)) as [Hi|Hi].
  2: { rewrite skipn_all2 by lia. rewrite firstn_all2 by lia. now rewrite app_nil_r. }
  destruct (Nat.lt_ge_cases j i).
  - rewrite nth_error_app1 by (rewrite firstn_length; lia).
    rewrite nth_error_firstn. now replace (j <? i) with true by lia.
  - rewrite nth_error_app2 by (rewrite firstn_length; lia). rewrite firstn_length.
    replace (j - Nat.min i (length l)) with (S (j - i - 1)) by lia.
    pose proof (nth_error_skipn l i (S (j - i - 1))) as E.
    destruct (skipn i l) as [|y t] eqn:Es.
    + pose proof (skipn_length i l) as HH; rewrite Es in HH; simpl in HH; lia.
    + simpl in *. rewrite E. f_equal. lia.
Qed.

Lemma nth_error_upd {A} (l : list A) i j x :
  nth_error (upd l i x) j = if (i =? j) && (j <? length l) then Some x else nth_error l j.
Proof.
  destruct (Nat.eqb_spec i j) as [->|Hn]; simpl.
  - destruct (Nat.ltb_spec j (length l)).
    + now apply nth_error_upd_same.
    + rewrite !(proj2 (nth_error_None _ _)); rewrite ?upd_length; auto.
  - now apply nth_error_upd_other.
Qed.

Lemma list_ext {A} (l1 l2 : list A) :
  (forall i, nth_error l1 i = nth_error l2 i) -> l1 = l2.
Proof.
  revert l2; induction l1 as [|x l1 IH]; intros [|y l2] H; auto.
  - specialize (H 0); discriminate.
  - specialize (H 0); discriminate.
  - pose proof (H 0) as H0; injection H0 as ->. f_equal. apply IH. intros i. exact (H (S i)).
Qed.

Lemma nth_error_map_seq {A} (f : nat -> A) s n i :
  nth_error (map f (seq s n)) i = if i <? n then Some (f (s + i)) else None.
Proof.
  revert s i; induction n as [|n IH]; intros s [|i]; simpl; auto.
  - now rewrite Nat.add_0_r.
  - rewrite IH. rewrite Nat.add_succ_r. reflexivity.
Qed.

Lemma nth_nth_error {A} (l : list A) i d :
  nth i l d = match nth_error l i with Some x => x | None => d end.
Proof. revert i; induction l as [|x l IH]; intros [|i]; simpl; auto. Qed.

Lemma nth_error_nth_lt {A} (l : list A) i d : i < length l -> nth_error l i = Some (nth i l d).
Proof. revert i; induction l as [|x l IH]; intros [|i] H; simpl in *; try lia; auto. apply IH; lia. Qed.

(* map over list with the index *)
Definition mapi {A B} (f : nat -> A -> B) (l : list A) : list B :=
  map (fun p => f (fst p) (snd p)) (combine (seq 0 (length l)) l).

Lemma mapi_length {A B} (f : nat -> A -> B) l : length (mapi f l) = length l.
Proof. unfold mapi. rewrite map_length, combine_length, seq_length. lia. Qed.

Lemma nth_error_combine {A B} (l1 : list A) (l2 : list B) i :
  nth_error (combine l1 l2) i =
  match nth_error l1 i, nth_error l2 i with Some a, Some b => Some (a, b) | _, _ => None end.
Proof.
  revert l2 i; induction l1 as [|a l1 IH]; intros [|b l2] [|i]; simpl; auto.
  now destruct (nth_error l1 i).
Qed.

Lemma nth_error_seq s n i : nth_error (seq s n) i = if i <? n then Some (s + i) else None.
Proof. rewrite <- (map_id (seq s n)), nth_error_map_seq. reflexivity. Qed.

Lemma nth_error_mapi {A B} (f : nat -> A -> B) l i :
  nth_error (mapi f l) i = option_map (f i) (nth_error l i).
Proof.
  unfold mapi. rewrite nth_error_map, nth_error_combine, nth_error_seq.
  destruct (Nat.ltb_spec i (length l)).
  - rewrite Nat.add_0_l. now destruct (nth_error l i).
  - rewrite (proj2 (nth_error_None l i)) by lia. reflexivity.
Qed.

Lemma mapi_ext {A B} (f g : nat -> A -> B) l :
  (forall i x, i < length l -> f i x = g i x) -> mapi f l = mapi g l.
Proof.
  intros H. apply list_ext. intros i. rewrite !nth_error_mapi.
  destruct (nth_error l i) as [x|] eqn:E; simpl; auto. f_equal. apply H.
  apply nth_error_Some. congruence.
Qed.

Lemma firstn_app_exact {A} (a b : list A) : firstn (length a) (a ++ b) = a.
Proof. rewrite firstn_app, Nat.sub_diag, firstn_all. simpl. apply app_nil_r. Qed.

Lemma skipn_app_exact {A} (a b : list A) : skipn (length a) (a ++ b) = b.
Proof. rewrite skipn_app, Nat.sub_diag, skipn_all. reflexivity. Qed.

Lemma flat_map_length_const {A B} (f : A -> list B) k l :
  (forall x, length (f x) = k) -> length (flat_map f l) = k * length l.
Proof. intros H. induction l as [|x l IH]; simpl; [lia|]. rewrite app_length, H, IH. lia. Qed.

Lemma skipn_skipn_add {A} n m (l : list A) : skipn n (skipn m l) = skipn (m + n) l.
Proof. revert l; induction m as [|m IH]; intros l; simpl; auto. destruct l; auto. now rewrite skipn_nil. Qed.

Lemma nth_error_map_seq_lt {A} (f : nat -> A) s n i : i < n ->
  nth_error (map f (seq s n)) i = Some (f (s + i)).
Proof. intros H. rewrite nth_error_map_seq. now rewrite (proj2 (Nat.ltb_lt i n)). Qed.

Lemma nth_map_seq {A} (f : nat -> A) s n i d : i < n -> nth i (map f (seq s n)) d = f (s + i).
Proof. intros H. now rewrite nth_nth_error, nth_error_map_seq_lt. Qed.

Lemma some_inj {A} (a b : A) : Some a = Some b -> a = b.
Proof. now injection 1. Qed.
