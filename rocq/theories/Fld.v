(* Fld.v -- fields, powers and sums.
   The scalar field Fr of BN254 is abstracted to an arbitrary field with
   decidable equality; nothing in /repo depends on more than the field laws.
   A concrete prime field Z/17 is built at the end to instantiate examples. *)
From Coq Require Import Ring Field Field_theory Znumtheory Eqdep_dec.
From Verif Require Import Base.

Record Fld := mkFld {
  car :> Type;
  f0 : car;
  f1 : car;
  fadd : car -> car -> car;
  fmul : car -> car -> car;
  fsub : car -> car -> car;
  fopp : car -> car;
  fdiv : car -> car -> car;
  finv : car -> car;
  f_th : field_theory f0 f1 fadd fmul fsub fopp fdiv finv (@eq car);
  feqb : car -> car -> bool;
  feqb_ok : forall x y, feqb x y = true <-> x = y;
  finv0 : finv f0 = f0          (* fr.Element.Inverse(0) = 0 in gnark-crypto *)
}.
Arguments f0 {f}. Arguments f1 {f}. Arguments fadd {f}. Arguments fmul {f}.
Arguments fsub {f}. Arguments fopp {f}. Arguments fdiv {f}. Arguments finv {f}.
Arguments feqb {f}.

Declare Scope fld_scope.
Delimit Scope fld_scope with F.
Bind Scope fld_scope with car.
Notation "0" := f0 : fld_scope.
Notation "1" := f1 : fld_scope.
Infix "+" := fadd : fld_scope.
Infix "*" := fmul : fld_scope.
Infix "-" := fsub : fld_scope.
Notation "- x" := (fopp x) : fld_scope.
Infix "/" := fdiv : fld_scope.

Fixpoint fpow {K : Fld} (x : K) (n : nat) : K :=
  match n with O => 1%F | S n' => (x * fpow x n')%F end.
Infix "^" := fpow : fld_scope.

Definition fsum {K : Fld} (l : list K) : K := fold_right fadd 0%F l.
Definition fprod {K : Fld} (l : list K) : K := fold_right fmul 1%F l.
(* sum of f i for i < n *)
Definition sumn {K : Fld} (n : nat) (f : nat -> K) : K := fsum (map f (seq 0 n)).
(* sum over the common prefix *)
Definition dot {K : Fld} (a b : list K) : K :=
  fsum (map (fun p => (fst p * snd p)%F) (combine a b)).
Fixpoint fnat {K : Fld} (n : nat) : K :=
  match n with O => 0%F | S n' => (1 + fnat n')%F end.

Section FldLemmas.
Context (K : Fld).
Add Field Kf : (f_th K).
Open Scope fld_scope.
Implicit Types x y z : K.

Lemma f1_neq_0 : (1 : K) <> 0.
Proof. exact (F_1_neq_0 (f_th K)). Qed.

Lemma feqb_refl x : feqb x x = true.
Proof. now apply feqb_ok. Qed.

Lemma feqb_neq x y : feqb x y = false <-> x <> y.
Proof.
  pose proof (feqb_ok K x y) as H. destruct (feqb x y); split; intros H1; try congruence.
  - destruct H as [H _]. now rewrite H in H1.
  - intros ->. destruct H as [_ H]. discriminate (H eq_refl).
Qed.

Lemma feq_dec x y : {x = y} + {x <> y}.
Proof. destruct (feqb x y) eqn:E; [left; now apply feqb_ok | right; now apply feqb_neq]. Qed.

Lemma finv_l x : x <> 0 -> finv x * x = 1.
Proof. intros; field; auto. Qed.
Lemma finv_r x : x <> 0 -> x * finv x = 1.
Proof. intros; field; auto. Qed.

Lemma fmul_0_iff x y : x * y = 0 <-> x = 0 \/ y = 0.
Proof.
  split.
  - intros H. destruct (feq_dec x 0) as [|Hx]; [auto|right].
    replace y with (finv x * (x * y)) by (field; auto). rewrite H. ring.
  - intros [-> | ->]; ring.
Qed.

Lemma fmul_neq0 x y : x <> 0 -> y <> 0 -> x * y <> 0.
Proof. intros Hx Hy H. apply fmul_0_iff in H. tauto. Qed.

Lemma fmul_cancel_l x y z : x <> 0 -> x * y = x * z -> y = z.
Proof.
  intros Hx H. replace y with (finv x * (x * y)) by (field; auto). rewrite H. field; auto.
Qed.
Lemma fmul_cancel_r x y z : x <> 0 -> y * x = z * x -> y = z.
Proof. intros Hx H. apply (fmul_cancel_l x); auto. transitivity (y * x); [ring|rewrite H; ring]. Qed.

Lemma finv_neq0 x : x <> 0 -> finv x <> 0.
Proof. intros Hx H. apply f1_neq_0. rewrite <- (finv_r x Hx), H. ring. Qed.

Lemma finv_mul x y : finv (x * y) = finv x * finv y.
Proof.
  destruct (feq_dec x 0) as [->|Hx].
  { replace (0 * y) with (0:K) by ring. rewrite finv0. ring. }
  destruct (feq_dec y 0) as [->|Hy].
  { replace (x * 0) with (0:K) by ring. rewrite finv0. ring. }
  field; auto.
Qed.

Lemma finv_1 : finv (1:K) = 1.
Proof. field. apply f1_neq_0. Qed.

Lemma fsub_0_eq x y : x - y = 0 <-> x = y.
Proof.
  split; [intros H|intros ->; ring]. replace x with ((x - y) + y) by ring. rewrite H. ring.
Qed.

Lemma fpow_S x n : x ^ (S n) = x * x ^ n.
Proof. reflexivity. Qed.
Lemma fpow_0 x : x ^ 0 = 1.
Proof. reflexivity. Qed.
Lemma fpow_1 x : x ^ 1 = x.
Proof. simpl; ring. Qed.
Lemma fpow_add x n m : x ^ (n + m) = x ^ n * x ^ m.
Proof. induction n as [|n IH]; simpl; [ring|rewrite IH; ring]. Qed.
Lemma fpow_mul_base x y n : (x * y) ^ n = x ^ n * y ^ n.
Proof. induction n as [|n IH]; simpl; [ring|rewrite IH; ring]. Qed.
Lemma fpow_1_l n : (1:K) ^ n = 1.
Proof. induction n as [|n IH]; simpl; [ring|rewrite IH; ring]. Qed.
Lemma fpow_0_l n : n <> 0%nat -> (0:K) ^ n = 0.
Proof. destruct n; [congruence|]; simpl; intros; ring. Qed.
Lemma fpow_mul x n m : x ^ (n * m) = (x ^ n) ^ m.
Proof.
  induction m as [|m IH]; simpl.
  - now rewrite Nat.mul_0_r.
  - rewrite Nat.mul_succ_r, Nat.add_comm, fpow_add, IH. ring.
Qed.
Lemma fpow_neq0 x n : x <> 0 -> x ^ n <> 0.
Proof. intros H; induction n as [|n IH]; simpl; [apply f1_neq_0|now apply fmul_neq0]. Qed.
Lemma finv_pow x n : finv (x ^ n) = (finv x) ^ n.
Proof. induction n as [|n IH]; simpl; [apply finv_1|]. now rewrite finv_mul, IH. Qed.

Lemma fsum_app l1 l2 : fsum (l1 ++ l2) = fsum l1 + fsum l2 :> K.
Proof. induction l1 as [|x l1 IH]; simpl; [ring|rewrite IH; ring]. Qed.
Lemma fsum_map_add {A} (f g : A -> K) l :
  fsum (map (fun a => f a + g a) l) = fsum (map f l) + fsum (map g l).
Proof. induction l as [|x l IH]; simpl; [ring|rewrite IH; ring]. Qed.
Lemma fsum_map_sub {A} (f g : A -> K) l :
  fsum (map (fun a => f a - g a) l) = fsum (map f l) - fsum (map g l).
Proof. induction l as [|x l IH]; simpl; [ring|rewrite IH; ring]. Qed.
Lemma fsum_map_scal {A} (c : K) (f : A -> K) l :
  fsum (map (fun a => c * f a) l) = c * fsum (map f l).
Proof. induction l as [|x l IH]; simpl; [ring|rewrite IH; ring]. Qed.
Lemma fsum_map_0 {A} (f : A -> K) l : (forall a, In a l -> f a = 0) -> fsum (map f l) = 0.
Proof.
  induction l as [|x l IH]; simpl; intros H; [ring|]. rewrite H by auto. rewrite IH by auto. ring.
Qed.

Lemma sumn_S n (f : nat -> K) : sumn (S n) f = sumn n f + f n.
Proof. unfold sumn. rewrite seq_S, map_app, fsum_app. simpl. ring. Qed.
Lemma sumn_0 (f : nat -> K) : sumn 0 f = 0.
Proof. reflexivity. Qed.
Lemma sumn_ext n (f g : nat -> K) : (forall i, (i < n)%nat -> f i = g i) -> sumn n f = sumn n g.
Proof.
  intros H. unfold sumn. f_equal. apply map_ext_in. intros i Hi. apply in_seq in Hi. apply H; lia.
Qed.
Lemma sumn_add n (f g : nat -> K) : sumn n (fun i => f i + g i) = sumn n f + sumn n g.
Proof. apply fsum_map_add. Qed.
Lemma sumn_sub n (f g : nat -> K) : sumn n (fun i => f i - g i) = sumn n f - sumn n g.
Proof. apply fsum_map_sub. Qed.
Lemma sumn_scal n c (f : nat -> K) : sumn n (fun i => c * f i) = c * sumn n f.
Proof. apply fsum_map_scal. Qed.
Lemma sumn_zero n (f : nat -> K) : (forall i, (i < n)%nat -> f i = 0) -> sumn n f = 0.
Proof. intros H. apply fsum_map_0. intros i Hi. apply in_seq in Hi. apply H; lia. Qed.
Lemma sumn_split n m (f : nat -> K) : sumn (n + m) f = sumn n f + sumn m (fun i => f (n + i)%nat).
Proof.
  induction m as [|m IH].
  - rewrite Nat.add_0_r, sumn_0. ring.
  - rewrite Nat.add_succ_r, !sumn_S, IH. ring.
Qed.
Lemma sumn_const n (c : K) : sumn n (fun _ => c) = fnat n * c.
Proof. induction n as [|n IH]; [rewrite sumn_0; simpl; ring|]. rewrite sumn_S, IH. simpl. ring. Qed.
Lemma sumn_swap n m (f : nat -> nat -> K) :
  sumn n (fun i => sumn m (fun j => f i j)) = sumn m (fun j => sumn n (fun i => f i j)).
Proof.
  induction n as [|n IH].
  - rewrite sumn_0. symmetry. apply sumn_zero. auto.
  - rewrite sumn_S, IH, <- sumn_add. apply sumn_ext. intros. now rewrite sumn_S.
Qed.
Lemma sumn_single n k (f : nat -> K) :
  (k < n)%nat -> (forall i, (i < n)%nat -> i <> k -> f i = 0) -> sumn n f = f k.
Proof.
  intros Hk H. induction n as [|n IH]; [lia|]. rewrite sumn_S.
  destruct (Nat.eq_dec k n) as [->|Hn].
  - rewrite sumn_zero; [ring|]. intros; apply H; lia.
  - rewrite IH; [|lia|intros; apply H; lia]. rewrite (H n) by lia. ring.
Qed.
(* even/odd split *)
Lemma sumn_even_odd n (f : nat -> K) :
  sumn (2 * n) f = sumn n (fun i => f (2 * i)%nat) + sumn n (fun i => f (2 * i + 1)%nat).
Proof.
  induction n as [|n IH]; [rewrite !sumn_0; ring|].
  replace (2 * S n)%nat with (S (S (2 * n))) by lia. rewrite !sumn_S, IH.
  replace (2 * n + 1)%nat with (S (2 * n)) by lia. ring.
Qed.

Lemma fprod_app l1 l2 : fprod (l1 ++ l2) = fprod l1 * fprod l2 :> K.
Proof. induction l1 as [|x l1 IH]; simpl; [ring|rewrite IH; ring]. Qed.
Lemma fprod_neq0 l : (forall x, In x l -> x <> 0) -> fprod l <> 0 :> K.
Proof.
  induction l as [|x l IH]; simpl; intros H; [apply f1_neq_0|]. apply fmul_neq0; auto.
Qed.

Lemma dot_nil_l (b : list K) : dot [] b = 0.
Proof. reflexivity. Qed.
Lemma dot_cons x y (a b : list K) : dot (x :: a) (y :: b) = x * y + dot a b.
Proof. reflexivity. Qed.
Lemma dot_app (a1 a2 b1 b2 : list K) :
  length a1 = length b1 -> dot (a1 ++ a2) (b1 ++ b2) = dot a1 b1 + dot a2 b2.
Proof.
  revert b1; induction a1 as [|x a1 IH]; intros [|y b1] H; simpl in *; try lia.
  - unfold dot at 2; simpl. ring.
  - rewrite !dot_cons, IH by lia. ring.
Qed.
Lemma dot_scal_l c (a b : list K) : dot (map (fmul c) a) b = c * dot a b.
Proof.
  revert b; induction a as [|x a IH]; intros [|y b]; simpl; unfold dot; simpl; try ring.
  fold (dot (map (fmul c) a) b). fold (dot a b). rewrite IH. ring.
Qed.
Lemma dot_sumn (a b : list K) n : length a = n -> length b = n ->
  dot a b = sumn n (fun i => nth i a 0 * nth i b 0).
Proof.
  revert a b; induction n as [|n IH]; intros a b Ha Hb.
  - destruct a; [|discriminate]. reflexivity.
  - destruct a as [|x a]; [discriminate|]. destruct b as [|y b]; [discriminate|].
    rewrite dot_cons. replace (S n) with (1 + n)%nat by lia. rewrite sumn_split.
    rewrite sumn_S, sumn_0. simpl nth at 1 2. rewrite (IH a b); simpl in *; try lia.
    simpl. ring.
Qed.
End FldLemmas.

(* ------------------------------------------------------------------ *)
(* Z/p for a prime p, with Leibniz equality. *)
Section Zp.
Variable p : Z.
Hypothesis Hp : prime p.

Definition zin (z : Z) : bool := (0 <=? z)%Z && (z <? p)%Z.
Record Zp := mkZp { zv : Z; zok : zin zv = true }.

Lemma Zp_ext (a b : Zp) : zv a = zv b -> a = b.
Proof.
  destruct a as [a Ha], b as [b Hb]; simpl; intros ->. f_equal. apply UIP_dec. apply bool_dec.
Qed.

Lemma p_gt1 : (1 < p)%Z. Proof. destruct Hp; auto. Qed.

Lemma zin_mod z : zin (z mod p) = true.
Proof.
  unfold zin. pose proof p_gt1. pose proof (Z.mod_pos_bound z p). 
  apply andb_true_iff; split; [apply Z.leb_le|apply Z.ltb_lt]; lia.
Qed.
Definition zp (z : Z) : Zp := mkZp _ (zin_mod z).

Lemma zv_small (a : Zp) : (zv a mod p)%Z = zv a.
Proof.
  destruct a as [a Ha]; simpl. unfold zin in Ha. apply andb_true_iff in Ha as [H1 H2].
  apply Z.leb_le in H1. apply Z.ltb_lt in H2. apply Z.mod_small; lia.
Qed.

(* Inverse: extended Euclid, checked; the exhaustive search is only there to
   make the definition total (it is never reached on a prime modulus). *)
Fixpoint egcd (fuel : nat) (a b u0 u1 : Z) : Z :=
  match fuel with
  | O => u0
  | S fuel' => if (b =? 0)%Z then u0
               else egcd fuel' b (a mod b)%Z u1 (u0 - (a / b) * u1)%Z
  end.
Arguments egcd : simpl never.
Definition efuel : nat := N.to_nat 2000.
Definition zsearch (a : Z) : Z :=
  match find (fun u => (u * a mod p =? 1)%Z) (map Z.of_nat (seq 0 (Z.to_nat p))) with
  | Some u => u | None => 0%Z end.
Definition zinv (a : Zp) : Zp :=
  if (zv a =? 0)%Z then zp 0 else
  let u := egcd efuel (zv a) p 1 0 in
  if (u * zv a mod p =? 1)%Z then zp u else zp (zsearch (zv a)).

Lemma zsearch_ok a : (0 < a < p)%Z -> (zsearch a * a mod p = 1)%Z.
Proof.
  intros Ha. unfold zsearch. pose proof p_gt1 as Hp1.
  destruct (find _ _) as [u|] eqn:E.
  - apply find_some in E as [_ E]. now apply Z.eqb_eq in E.
  - exfalso.
    assert (rel_prime a p) as Hr.
    { apply rel_prime_sym. apply prime_rel_prime; auto. intros Hd. apply Z.divide_pos_le in Hd; lia. }
    apply rel_prime_bezout in Hr. destruct Hr as [u v Huv].
    pose proof (find_none _ _ E (u mod p)%Z) as Hn. cbv beta in Hn.
    assert (In (u mod p)%Z (map Z.of_nat (seq 0 (Z.to_nat p)))) as Hin.
    { apply in_map_iff. exists (Z.to_nat (u mod p)). pose proof (Z.mod_pos_bound u p).
      split; [lia|]. apply in_seq. lia. }
    specialize (Hn Hin). apply Z.eqb_neq in Hn. apply Hn.
    rewrite Z.mul_mod_idemp_l by lia. replace (u * a)%Z with (1 + (-v) * p)%Z by lia.
    rewrite Z.mod_add by lia. apply Z.mod_small; lia.
Qed.

Lemma zinv_ok (a : Zp) : zv a <> 0%Z -> (zv (zinv a) * zv a mod p = 1)%Z.
Proof.
  intros Ha. unfold zinv. rewrite (proj2 (Z.eqb_neq _ _) Ha).
  pose proof p_gt1. cbv zeta.
  destruct (Z.eqb_spec (egcd efuel (zv a) p 1 0 * zv a mod p) 1) as [E|_].
  - simpl zv at 1. now rewrite Z.mul_mod_idemp_l by lia.
  - simpl zv at 1. rewrite Z.mul_mod_idemp_l by lia. apply zsearch_ok.
    destruct a as [a Hin]; simpl in *. unfold zin in Hin.
    apply andb_true_iff in Hin as [H1 H2]. apply Z.leb_le in H1. apply Z.ltb_lt in H2. lia.
Qed.

Definition zp_add (a b : Zp) := zp (zv a + zv b).
Definition zp_mul (a b : Zp) := zp (zv a * zv b).
Definition zp_sub (a b : Zp) := zp (zv a - zv b).
Definition zp_opp (a : Zp) := zp (- zv a).
Definition zp_div (a b : Zp) := zp_mul a (zinv b).

Lemma Zp_field : field_theory (zp 0) (zp 1) zp_add zp_mul zp_sub zp_opp zp_div zinv eq.
Proof.
  pose proof p_gt1 as Hp1.
  constructor.
  - constructor; intros; apply Zp_ext; unfold zp_add, zp_mul, zp_sub, zp_opp; cbn [zv zp];
      rewrite ?Z.add_mod_idemp_l, ?Z.add_mod_idemp_r, ?Z.mul_mod_idemp_l, ?Z.mul_mod_idemp_r by lia.
    + cbn [Z.add]. apply zv_small.
    + f_equal; lia.
    + f_equal; lia.
    + rewrite Z.mul_1_l. apply zv_small.
    + f_equal; lia.
    + f_equal; lia.
    + f_equal; lia.
    + rewrite ?Z.add_opp_r, ?Zminus_mod_idemp_r, ?Z.add_mod_idemp_r by lia. f_equal; lia.
    + replace (zv x + - zv x)%Z with 0%Z by lia. reflexivity.
  - intros H. apply (f_equal zv) in H. simpl in H. rewrite !Z.mod_small in H by lia. lia.
  - reflexivity.
  - intros a Ha. apply Zp_ext. unfold zp_mul. simpl zv.
    rewrite (Z.mod_small 1 p) by lia. apply zinv_ok.
    intros H. apply Ha. apply Zp_ext. simpl. rewrite H. now rewrite Z.mod_small by lia.
Qed.

Definition zp_eqb (a b : Zp) : bool := (zv a =? zv b)%Z.
Lemma zp_eqb_ok a b : zp_eqb a b = true <-> a = b.
Proof. unfold zp_eqb. rewrite Z.eqb_eq. split; [apply Zp_ext|now intros ->]. Qed.
Lemma zinv_0 : zinv (zp 0) = zp 0.
Proof. unfold zinv. simpl zv. rewrite Z.mod_0_l by (pose proof p_gt1; lia). reflexivity. Qed.

Definition ZpFld : Fld :=
  mkFld Zp (zp 0) (zp 1) zp_add zp_mul zp_sub zp_opp zp_div zinv Zp_field zp_eqb zp_eqb_ok zinv_0.
End Zp.

Lemma gcd_rp a b : Z.gcd a b = 1%Z -> Zis_gcd a b 1.
Proof. intros <-. apply Zgcd_is_gcd. Qed.
Ltac solve_rp := apply gcd_rp; reflexivity.

Lemma prime_17 : prime 17.
Proof.
  apply prime_intro; [lia|]. intros n Hn.
  assert (n = 1 \/ n = 2 \/ n = 3 \/ n = 4 \/ n = 5 \/ n = 6 \/ n = 7 \/ n = 8 \/ n = 9 \/ n = 10 \/
          n = 11 \/ n = 12 \/ n = 13 \/ n = 14 \/ n = 15 \/ n = 16)%Z as H by lia.
  unfold rel_prime.
  repeat (destruct H as [->|H]; [solve_rp|]). subst; solve_rp.
Qed.
Definition F17 : Fld := ZpFld 17 prime_17.
Definition f17 (z : Z) : F17 := zp 17 prime_17 z.
