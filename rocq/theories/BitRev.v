(* BitRev.v -- common/utils.go:9-31 (BitReverseG1/G2) and lagrange/g1.go:108-134,
   lagrange/g2.go:102-128 (bitReversePointsG1/G2). *)
From Coq Require Import Relations.
From Verif Require Import Base Conc Parallel.

(* Reversal of the low w bits of x (spec of math/bits.Reverse64 for w = 64). *)
Fixpoint revN (w : nat) (x : N) : N :=
  match w with
  | 0 => 0%N
  | S w' => ((x mod 2) * 2 ^ N.of_nat w' + revN w' (x / 2))%N
  end.
Definition reverse64 (x : N) : N := revN 64 x.

(* math/bits.TrailingZeros64 *)
Fixpoint tz (fuel : nat) (x : N) : nat :=
  match fuel with
  | 0 => 0
  | S f => if (x mod 2 =? 1)%N then 0 else S (tz f (x / 2))
  end.
Definition trailingZeros64 (x : N) : nat := tz 64 x.

(* nn := uint64(64 - bits.TrailingZeros64(n));  irev := bits.Reverse64(i) >> nn
   (common/utils.go:11,14; lagrange/g1.go:110,123).  A shift by 64 gives 0 in Go as here. *)
Definition irev (n i : nat) : nat :=
  let nn := (64 - trailingZeros64 (N.of_nat n))%nat in
  N.to_nat (N.shiftr (reverse64 (N.of_nat i)) (N.of_nat nn)).

Section BR.
Context {A : Type}.

(* a[i], a[irev] = a[irev], a[i] *)
Definition swapf (x y : A) : A * A := (y, x).

(* common/utils.go:13-18 : the loop; an index outside the slice panics (None). *)
Fixpoint bitrev_loop (n : nat) (is : list nat) (a : list A) : option (list A) :=
  match is with
  | [] => Some a
  | i :: is' =>
      let r := irev n i in
      if i <? r then
        (if r <? length a then bitrev_loop n is' (cell2_upd i r swapf a) else None)
      else bitrev_loop n is' a
  end.
(* common/utils.go:9-19 BitReverseG1, 21-31 BitReverseG2 *)
Definition bit_reverse (a : list A) : option (list A) :=
  bitrev_loop (length a) (seq 0 (length a)) a.

(* lagrange/g1.go:122-127 : one iteration of a goroutine's loop *)
Definition br_body (n j : nat) : prog A :=
  if j <? irev n j then cell2 j (irev n j) swapf else Skip.

(* lagrange/g1.go:115-120 : the range of goroutine [id] *)
Definition br_range (n cpu id : nat) : nat * nat :=
  (n / cpu * id, if id =? cpu - 1 then n else n / cpu * (id + 1)).

(* lagrange/g1.go:108-134 : fork cpu goroutines, receive cpu times from the channel *)
Definition br_prog (n cpu : nat) : prog A :=
  pars (map (fun id => range_loop (br_body n) (br_range n cpu id)) (seq 0 cpu)).
End BR.

(* ------------------------------------------------------------------ *)
(* Specification: k-bit reversal on nat *)
Fixpoint brev (k x : nat) : nat :=
  match k with
  | 0 => 0
  | S k' => (x mod 2) * 2 ^ k' + brev k' (x / 2)
  end.

Lemma brev_lt k : forall x, brev k x < 2 ^ k.
Proof.
  induction k as [|k IH]; intros x; cbn [brev Nat.pow]; [lia|].
  specialize (IH (x / 2)). pose proof (Nat.mod_upper_bound x 2 ltac:(lia)). nia.
Qed.

Lemma brev_S_low k x b : b < 2 -> brev (S k) (2 * x + b) = b * 2 ^ k + brev k x.
Proof.
  intros H. cbn [brev].
  replace ((2 * x + b) mod 2) with b.
  - replace ((2 * x + b) / 2) with x; auto.
    apply Nat.div_unique with b; lia.
  - apply Nat.mod_unique with x; lia.
Qed.

(* the other recursion: reverse the low k bits, then place the high bit at 0 *)
Lemma brev_S_high k : forall x, x < 2 ^ S k ->
  brev (S k) x = 2 * brev k (x mod 2 ^ k) + x / 2 ^ k.
Proof.
  induction k as [|k IH]; intros x Hx.
  - simpl in *. assert (x = 0 \/ x = 1) as [->| ->] by lia; reflexivity.
  - change (brev (S (S k)) x) with ((x mod 2) * 2 ^ S k + brev (S k) (x / 2)).
    assert (Hp : 2 ^ k <> 0) by (apply Nat.pow_nonzero; lia).
    assert (Hx2 : x / 2 < 2 ^ S k).
    { apply Nat.div_lt_upper_bound; [lia|]. cbn [Nat.pow] in *. lia. }
    rewrite IH by auto.
    assert (E1 : x / 2 / 2 ^ k = x / 2 ^ S k).
    { rewrite Nat.div_div by lia. now cbn [Nat.pow]. }
    assert (E2 : (x mod 2 ^ S k) mod 2 = x mod 2).
    { cbn [Nat.pow]. pose proof (Nat.mod_mul_r x 2 (2 ^ k) ltac:(lia) Hp) as M.
      rewrite M. rewrite (Nat.mul_comm 2 ((x / 2) mod 2 ^ k)), Nat.mod_add by lia.
      apply Nat.mod_mod; lia. }
    assert (E3 : x mod 2 ^ S k / 2 = (x / 2) mod 2 ^ k).
    { cbn [Nat.pow]. pose proof (Nat.mod_mul_r x 2 (2 ^ k) ltac:(lia) Hp) as M.
      rewrite M. rewrite (Nat.mul_comm 2 ((x / 2) mod 2 ^ k)), Nat.div_add by lia.
      rewrite Nat.div_small; [lia|]. apply Nat.mod_upper_bound; lia. }
    cbn [brev]. rewrite E1, E2, E3. cbn [Nat.pow]. lia.
Qed.

Lemma brev_invol k : forall x, x < 2 ^ k -> brev k (brev k x) = x.
Proof.
  induction k as [|k IH]; intros x Hx.
  - simpl in *. lia.
  - pose proof (brev_lt (S k) x) as L.
    rewrite (brev_S_high k x Hx) at 1.
    assert (Hp : 2 ^ k <> 0) by (apply Nat.pow_nonzero; lia).
    rewrite brev_S_low.
    + rewrite IH by (apply Nat.mod_upper_bound; lia).
      pose proof (Nat.div_mod x (2 ^ k) Hp). lia.
    + apply Nat.div_lt_upper_bound; [lia|]. cbn [Nat.pow] in *. lia.
Qed.

Lemma brev_inj k x y : x < 2 ^ k -> y < 2 ^ k -> brev k x = brev k y -> x = y.
Proof. intros Hx Hy E. rewrite <- (brev_invol k x Hx), E. now apply brev_invol. Qed.

(* all ones is a fixed point *)
Lemma brev_last k : brev k (2 ^ k - 1) = 2 ^ k - 1.
Proof.
  induction k as [|k IH]; auto.
  assert (2 ^ k <> 0) by (apply Nat.pow_nonzero; lia).
  replace (2 ^ S k - 1) with (2 * (2 ^ k - 1) + 1) by (cbn [Nat.pow]; lia).
  rewrite brev_S_low, IH by lia. cbn [Nat.pow]. lia.
Qed.

(* ------------------------------------------------------------------ *)
(* irev computes brev *)
Lemma revN_pad k : forall j x, (x < 2 ^ N.of_nat k)%N ->
  revN (k + j) x = (2 ^ N.of_nat j * revN k x)%N.
Proof.
  induction k as [|k IH]; intros j x Hx.
  - simpl in Hx. assert (x = 0%N) as -> by lia.
    replace (revN 0 0) with 0%N by reflexivity. rewrite N.mul_0_r. cbn [Nat.add].
    induction j as [|j IHj]; [auto|]. cbn [revN]. rewrite N.mod_0_l, N.div_0_l by lia.
    rewrite IHj. lia.
  - cbn [Nat.add revN]. rewrite IH.
    + replace (2 ^ N.of_nat (k + j))%N with (2 ^ N.of_nat j * 2 ^ N.of_nat k)%N
        by (rewrite <- N.pow_add_r; f_equal; lia).
      lia.
    + apply N.div_lt_upper_bound; [lia|]. rewrite Nat2N.inj_succ, N.pow_succ_r' in Hx. lia.
Qed.

Lemma revN_brev k : forall x, N.to_nat (revN k (N.of_nat x)) = brev k x.
Proof.
  induction k as [|k IH]; intros x; auto.
  cbn [revN brev].
  replace (N.of_nat x / 2)%N with (N.of_nat (x / 2)) by (now rewrite Nat2N.inj_div).
  replace (N.of_nat x mod 2)%N with (N.of_nat (x mod 2)) by (now rewrite Nat2N.inj_mod).
  rewrite N2Nat.inj_add, N2Nat.inj_mul, N2Nat.inj_pow, IH, !Nat2N.id. reflexivity.
Qed.

Lemma tz_pow k : forall f, k < f -> tz f (2 ^ N.of_nat k) = k.
Proof.
  induction k as [|k IH]; intros [|f] H; try lia; cbn [tz].
  - reflexivity.
  - rewrite Nat2N.inj_succ, N.pow_succ_r'.
    rewrite (N.mul_comm 2), N.mod_mul by lia. cbn [N.eqb].
    rewrite N.div_mul by lia. rewrite IH by lia. auto.
Qed.

Lemma irev_brev k i : k < 64 -> i < 2 ^ k -> irev (2 ^ k) i = brev k i.
Proof.
  intros Hk Hi. unfold irev, reverse64, trailingZeros64.
  assert (E : N.of_nat (2 ^ k) = (2 ^ N.of_nat k)%N).
  { apply N2Nat.inj. now rewrite Nat2N.id, N2Nat.inj_pow, Nat2N.id. }
  rewrite E, tz_pow by lia.
  assert (Hi' : (N.of_nat i < 2 ^ N.of_nat k)%N) by (rewrite <- E; lia).
  replace 64 with (k + (64 - k)) at 1 by lia.
  rewrite revN_pad by auto.
  rewrite N.shiftr_div_pow2, N.mul_comm, N.div_mul.
  - apply revN_brev.
  - apply N.pow_nonzero. lia.
Qed.

(* ------------------------------------------------------------------ *)
Section BRP.
Context {A : Type}.
Variable k : nat.
Hypothesis Hk : k < 64.

(* [a] is what [a0] has become once the indices below t were processed *)
Definition br_inv (a0 a : list A) (t : nat) : Prop :=
  length a = (2 ^ k) /\ forall i, i < (2 ^ k) -> nth_error a i = nth_error a0 (if (i <? t) || (brev k i <? t) then brev k i else i).

Lemma br_inv_0 a0 : length a0 = (2 ^ k) -> br_inv a0 a0 0.
Proof. intros H. split; auto. Qed.

Lemma br_inv_step a0 a t : length a0 = (2 ^ k) -> t < (2 ^ k) -> br_inv a0 a t ->
  br_inv a0 (if t <? irev (2 ^ k) t then cell2_upd t (irev (2 ^ k) t) swapf a else a) (S t) /\ irev (2 ^ k) t < (2 ^ k).
Proof.
  intros L0 Ht [L H]. rewrite irev_brev by auto.
  pose proof (brev_lt k t) as Lr. split; [|auto].
  destruct (Nat.ltb_spec t (brev k t)) as [Hr|Hr].
  - split; [now rewrite cell2_upd_length|]. intros i Hi.
    assert (E1 : nth_error a t = nth_error a0 t).
    { rewrite H by auto. destruct (Nat.ltb_spec t t), (Nat.ltb_spec (brev k t) t); try lia. auto. }
    assert (E2 : nth_error a (brev k t) = nth_error a0 (brev k t)).
    { rewrite H by auto. rewrite brev_invol by auto.
      destruct (Nat.ltb_spec (brev k t) t), (Nat.ltb_spec t t); try lia. auto. }
    destruct (nth_error a0 t) as [x|] eqn:Ex.
    2: { apply nth_error_None in Ex. lia. }
    destruct (nth_error a0 (brev k t)) as [y|] eqn:Ey.
    2: { apply nth_error_None in Ey. lia. }
    rewrite (nth_error_cell2_upd t (brev k t) swapf a i x y) by (auto; lia).
    destruct (Nat.eqb_spec i t) as [->|N1].
    + destruct (Nat.ltb_spec t (S t)); [|lia]. simpl. auto.
    + destruct (Nat.eqb_spec i (brev k t)) as [->|N2].
      * rewrite brev_invol by auto.
        destruct (Nat.ltb_spec (brev k t) (S t)), (Nat.ltb_spec t (S t)); try lia. simpl. auto.
      * rewrite H by auto.
        assert (brev k i <> t) by (intros E; apply N2; rewrite <- E; now rewrite brev_invol).
        destruct (Nat.ltb_spec i t), (Nat.ltb_spec i (S t)), (Nat.ltb_spec (brev k i) t),
          (Nat.ltb_spec (brev k i) (S t)); simpl; auto; lia.
  - split; [auto|]. intros i Hi. rewrite H by auto.
    destruct (Nat.ltb_spec i t) as [C1|C1], (Nat.ltb_spec i (S t)) as [C2|C2],
      (Nat.ltb_spec (brev k i) t) as [C3|C3], (Nat.ltb_spec (brev k i) (S t)) as [C4|C4];
      simpl; auto; try lia.
    + assert (i = t) as -> by lia. assert (brev k t = t) as -> by lia. auto.
    + assert (i = t) as -> by lia. lia.
    + assert (E : brev k i = t) by lia.
      assert (i = brev k t) as -> by (rewrite <- E; now rewrite brev_invol).
      rewrite brev_invol in * by auto. assert (brev k t = t) as -> by lia. auto.
Qed.

Definition is_bitrev (a0 a : list A) : Prop :=
  length a = (2 ^ k) /\ forall i, i < (2 ^ k) -> nth_error a (brev k i) = nth_error a0 i.

Lemma br_inv_end a0 a : br_inv a0 a (2 ^ k) -> is_bitrev a0 a.
Proof.
  intros [L H]. split; auto. intros i Hi. pose proof (brev_lt k i).
  rewrite H by auto. destruct (Nat.ltb_spec (brev k i) (2 ^ k)); [|lia]. simpl.
  now rewrite brev_invol.
Qed.

Lemma is_bitrev_unique a0 a a' : is_bitrev a0 a -> is_bitrev a0 a' -> a = a'.
Proof.
  intros [L H] [L' H']. apply list_ext. intros i. destruct (lt_dec i (2 ^ k)) as [Hi|Hi].
  - rewrite <- (brev_invol k i Hi). pose proof (brev_lt k i). now rewrite H, H'.
  - rewrite !(proj2 (nth_error_None _ _)); auto; lia.
Qed.

(* sequential version *)
Lemma bit_reverse_spec a : length a = (2 ^ k) ->
  exists b, bit_reverse a = Some b /\ is_bitrev a b.
Proof.
  intros L. unfold bit_reverse. rewrite L.
  assert (G : forall d t b, t + d = (2 ^ k) -> br_inv a b t ->
    exists b', bitrev_loop (2 ^ k) (seq t d) b = Some b' /\ br_inv a b' (2 ^ k)).
  { induction d as [|d IH]; intros t b E I; cbn [seq bitrev_loop].
    - replace (2 ^ k) with t by lia. eauto.
    - destruct (br_inv_step a b t L ltac:(lia) I) as [I' Lr].
      destruct (Nat.ltb_spec t (irev (2 ^ k) t)).
      + destruct I as [Lb _]. rewrite Lb. destruct (Nat.ltb_spec (irev (2 ^ k) t) (2 ^ k)); [|lia].
        apply IH; [lia|auto].
      + apply IH; [lia|auto]. }
  destruct (G (2 ^ k) 0 a ltac:(lia) (br_inv_0 a L)) as [b [E I]].
  exists b. split; auto. now apply br_inv_end.
Qed.

(* concurrent version *)
Lemma br_tiles cpu : 1 <= cpu ->
  exists l, map (br_range (2 ^ k) cpu) (seq 0 cpu) = l /\   flat_map (fun r => seq (fst r) (snd r - fst r)) l = seq 0 (2 ^ k) /\
    ForallOrdPairs (fun r r' => forall i, inrng r i -> inrng r' i -> False) l /\
    forall r, In r l -> forall i, inrng r i -> i < (2 ^ k).
Proof.
  intros Hc. eexists. split; [reflexivity|].
  assert (Hq : (2 ^ k) / cpu * cpu <= (2 ^ k)).
  { rewrite Nat.mul_comm. apply Nat.mul_div_le. lia. }
  revert Hq. generalize (2 ^ k). intros N Hq.
  set (q := N / cpu) in *.
  assert (Rg : forall id, id < cpu -> br_range N cpu id =
     (q * id, if id =? cpu - 1 then N else q * (id + 1))) by auto.
  assert (In_bound : forall id i, id < cpu -> inrng (br_range N cpu id) i ->
     q * id <= i /\ i < N /\ (id < cpu - 1 -> i < q * (id + 1))).
  { intros id i Hid. rewrite Rg by auto. unfold inrng; simpl.
    destruct (Nat.eqb_spec id (cpu - 1)); intros H; [|nia]. split; [lia|]. split; [lia|]. lia. }
  split; [|split].
  - assert (G : forall d, d < cpu ->
      flat_map (fun r => seq (fst r) (snd r - fst r)) (map (br_range N cpu) (seq 0 d)) = seq 0 (q * d)).
    { induction d as [|d IH]; intros Hd.
      - simpl. now rewrite Nat.mul_0_r.
      - rewrite seq_S, map_app, flat_map_app, IH by lia. cbn [map flat_map Nat.add].
        rewrite Rg by lia. destruct (Nat.eqb_spec d (cpu - 1)); [lia|]. cbn [fst snd].
        rewrite app_nil_r. replace (q * S d) with (q * d + q) by nia. rewrite seq_app.
        do 2 f_equal. nia. }
    destruct cpu as [|c]; [lia|].
    rewrite seq_S, map_app, flat_map_app, G by lia. cbn [map flat_map Nat.add].
    rewrite Rg by lia. destruct (Nat.eqb_spec c (S c - 1)); [|lia]. cbn [fst snd].
    rewrite app_nil_r. replace N with (q * c + (N - q * c)) at 2 by nia. now rewrite seq_app.
  - assert (G : forall d s, s + d <= cpu ->
      ForallOrdPairs (fun r r' => forall i, inrng r i -> inrng r' i -> False) (map (br_range N cpu) (seq s d))).
    { induction d as [|d IH]; intros s Hs; cbn [seq map]; constructor.
      - rewrite Forall_forall. intros r Hr i I1 I2.
        apply in_map_iff in Hr as [id [<- Hid]]. apply in_seq in Hid.
        apply In_bound in I1; [|lia]. apply In_bound in I2; [|lia].
        destruct I1 as [_ [_ I1]]. specialize (I1 ltac:(lia)). nia.
      - apply IH. lia. }
    apply G. lia.
  - intros r Hr i I. apply in_map_iff in Hr as [id [<- Hid]]. apply in_seq in Hid.
    apply In_bound in I; [|lia]. lia.
Qed.

Lemma br_body_fprint j i : j < (2 ^ k) -> fprint (@br_body A (2 ^ k) j) i ->
  j < irev (2 ^ k) j /\ (i = j \/ i = irev (2 ^ k) j).
Proof.
  intros Hj. unfold br_body. destruct (Nat.ltb_spec j (irev (2 ^ k) j)); simpl; tauto.
Qed.
Lemma br_body_disjoint i j x : i < (2 ^ k) -> j < (2 ^ k) -> i <> j ->
  fprint (@br_body A (2 ^ k) i) x -> fprint (@br_body A (2 ^ k) j) x -> False.
Proof.
  intros Hi Hj N Fi Fj. apply br_body_fprint in Fi as [Ri Xi]; auto.
  apply br_body_fprint in Fj as [Rj Xj]; auto.
  rewrite irev_brev in * by auto.
  destruct Xi as [->| ->], Xj as [Xj|Xj]; try lia.
  - rewrite Xj in Ri. rewrite brev_invol in Ri by auto. lia.
  - rewrite <- Xj in Rj. rewrite brev_invol in Rj by auto. lia.
  - apply N. eapply brev_inj; eauto.
Qed.

Lemma br_prog_spec cpu : 1 <= cpu ->
  race_free (@br_prog A (2 ^ k) cpu) /\ (forall i, fprint (@br_prog A (2 ^ k) cpu) i -> i < (2 ^ k)) /\
    forall a, length a = (2 ^ k) -> is_bitrev a (run (br_prog (2 ^ k) cpu) a).
Proof.
  intros Hc. destruct (br_tiles cpu Hc) as [l [El [Cat [Dis Sub]]]].
  unfold br_prog.
  replace (map (fun id => range_loop (@br_body A (2 ^ k)) (br_range (2 ^ k) cpu id)) (seq 0 cpu))
    with (map (range_loop (@br_body A (2 ^ k))) l) by (rewrite <- El; now rewrite map_map).
  assert (FP : forall r x, fprint (range_loop (@br_body A (2 ^ k)) r) x <-> exists i, inrng r i /\ fprint (@br_body A (2 ^ k) i) x).
  { intros [s e] x. unfold range_loop, inrng. rewrite fprint_seqs. simpl. split.
    - intros [p [Hp Hx]]. apply in_map_iff in Hp as [i [<- Hi]]. apply in_seq in Hi.
      exists i. split; [lia|auto].
    - intros [i [Hi Hx]]. exists (br_body (2 ^ k) i). split; [apply in_map, in_seq; lia|auto]. }
  assert (RB : forall j, race_free (@br_body A (2 ^ k) j)).
  { intros j. unfold br_body. destruct (Nat.ltb_spec j (irev (2 ^ k) j)); [|exact I].
    apply race_free_cell2. lia. }
  split; [|split].
  - apply race_free_pars.
    + intros p Hp. apply in_map_iff in Hp as [r [<- Hr]].
      apply race_free_seqs. intros q Hq. apply in_map_iff in Hq as [i [<- Hi]]. apply RB.
    + clear El Cat. induction Dis as [|r l D1 D2 IH]; simpl; constructor.
      * rewrite Forall_forall in *. intros p Hp x X1 X2.
        apply in_map_iff in Hp as [r' [<- Hr']].
        apply FP in X1 as [i [I1 X1]]. apply FP in X2 as [j [I2 X2]].
        apply (br_body_disjoint i j x); auto.
        -- apply (Sub r); simpl; auto.
        -- apply (Sub r'); simpl; auto.
        -- intros ->. eapply D1; eauto.
      * apply IH. intros r' Hr'. apply Sub. simpl; auto.
  - intros x Hx. apply fprint_pars in Hx as [p [Hp Hx]].
    apply in_map_iff in Hp as [r [<- Hr]]. apply FP in Hx as [i [Ii Hx]].
    pose proof (Sub r Hr i Ii). apply br_body_fprint in Hx as [_ [->| ->]]; auto.
    rewrite irev_brev by auto. apply brev_lt.
  - intros a La. apply br_inv_end.
    assert (E : run (pars (map (range_loop (br_body (2 ^ k))) l)) a =
                fold_left (fun m i => run (br_body (2 ^ k) i) m) (seq 0 (2 ^ k)) a).
    { rewrite <- Cat, run_pars. clear. revert a.
      induction l as [|r l IH]; intros m; simpl; auto.
      rewrite fold_left_app, IH. f_equal. unfold range_loop. rewrite run_seqs.
      clear. generalize (seq (fst r) (snd r - fst r)). intros s. revert m.
      induction s as [|i s IH]; intros m; simpl; auto. }
    rewrite E. clear E.
    assert (G : forall t, t <= (2 ^ k) -> br_inv a (fold_left (fun m i => run (br_body (2 ^ k) i) m) (seq 0 t) a) t).
    { induction t as [|t IH]; intros Ht; [now apply br_inv_0|].
      rewrite seq_S, fold_left_app. cbn [fold_left Nat.add].
      specialize (IH ltac:(lia)).
      destruct (br_inv_step a _ t La ltac:(lia) IH) as [I' _].
      unfold br_body at 1. destruct (t <? irev (2 ^ k) t); exact I'. }
    apply G. auto.
Qed.
End BRP.

(* Applying the permutation twice gives the array back. *)
Lemma bit_reverse_twice {A} k (a b : list A) : k < 64 -> length a = 2 ^ k ->
  bit_reverse a = Some b -> bit_reverse b = Some a.
Proof.
  intros Hk L E. destruct (bit_reverse_spec k Hk a L) as [b' [E' [Lb Hb]]].
  rewrite E in E'. injection E' as <-.
  destruct (bit_reverse_spec k Hk b Lb) as [c [Ec [Lc Hc]]]. rewrite Ec. f_equal.
  apply list_ext. intros i. destruct (lt_dec i (2 ^ k)) as [Hi|Hi].
  - rewrite <- (brev_invol k i Hi) at 1. pose proof (brev_lt k i).
    rewrite Hc by auto. apply Hb; auto.
  - rewrite !(proj2 (nth_error_None _ _)); auto; lia.
Qed.

(* bit-level reading of the specification *)
Lemma brev_testbit k : forall x j, (x < 2 ^ k) -> j < k ->
  Nat.testbit (brev k x) j = Nat.testbit x (k - 1 - j).
Proof.
  induction k as [|k IH]; intros x j Hx Hj; [lia|].
  cbn [brev]. pose proof (brev_lt k (x / 2)) as L.
  assert (Hx2 : x / 2 < 2 ^ k) by (apply Nat.div_lt_upper_bound; cbn [Nat.pow] in Hx; lia).
  destruct (Nat.eq_dec j k) as [->|N].
  - replace (S k - 1 - k) with 0 by lia. rewrite Nat.bit0_odd.
    rewrite Nat.testbit_eqb.
    replace (((x mod 2) * 2 ^ k + brev k (x / 2)) / 2 ^ k) with (x mod 2)
      by (rewrite Nat.div_add_l by lia; rewrite (Nat.div_small (brev k (x/2))) by auto; lia).
    rewrite Nat.mod_mod by lia. rewrite <- Nat.bit0_odd, Nat.testbit_eqb, Nat.pow_0_r, Nat.div_1_r. auto.
  - assert (Hj' : j < k) by lia.
    replace (S k - 1 - j) with (S (k - 1 - j)) by lia.
    replace (Nat.testbit x (S (k - 1 - j))) with (Nat.testbit (x / 2) (k - 1 - j))
      by (rewrite <- Nat.div2_div; reflexivity).
    rewrite <- IH by auto.
    rewrite !Nat.testbit_eqb.
    replace ((x mod 2) * 2 ^ k) with ((x mod 2) * 2 ^ (k - 1 - j) * 2 * 2 ^ j).
    + rewrite Nat.div_add_l by (apply Nat.pow_nonzero; lia).
      rewrite Nat.add_comm, Nat.mod_add by lia. auto.
    + assert (E : 2 ^ k = 2 ^ (k - 1 - j) * 2 * 2 ^ j)
        by (rewrite <- (Nat.pow_1_r 2) at 3; rewrite <- !Nat.pow_add_r; f_equal; lia).
      rewrite E. lia.
Qed.

(* r is i with its k low bits mirrored *)
Definition mirrors (k i r : nat) : Prop :=
  r < 2 ^ k /\ forall j, j < k -> Nat.testbit r j = Nat.testbit i (k - 1 - j).

Lemma mirrors_brev k i : i < 2 ^ k -> mirrors k i (brev k i).
Proof. intros H. split; [apply brev_lt|]. intros. now apply brev_testbit. Qed.

Lemma mirrors_unique k i r r' : mirrors k i r -> mirrors k i r' -> r = r'.
Proof.
  intros [L H] [L' H']. apply Nat.bits_inj. intros j.
  destruct (Nat.lt_ge_cases j k) as [Hj|Hj]; [rewrite H, H' by auto; auto|].
  assert (Z : forall x, x < 2 ^ k -> Nat.testbit x j = false).
  { intros x Hx. rewrite Nat.testbit_eqb. rewrite Nat.div_small; auto.
    apply Nat.lt_le_trans with (2 ^ k); auto. apply Nat.pow_le_mono_r; lia. }
  now rewrite !Z.
Qed.

Lemma bit_reverse_full {A} k (a : list A) : k < 64 -> length a = 2 ^ k ->
  exists b, bit_reverse a = Some b /\ length b = 2 ^ k /\
    (forall i r, i < 2 ^ k -> mirrors k i r -> nth_error b r = nth_error a i) /\
    nth_error b (2 ^ k - 1) = nth_error a (2 ^ k - 1) /\
    bit_reverse b = Some a /\
    forall cpu, 1 <= cpu ->
      (forall b', steps (br_prog (2 ^ k) cpu, a) (Skip, b') -> b' = b) /\
      Acc (fun c2 c1 => step c1 c2) (br_prog (2 ^ k) cpu, a) /\
      (forall i, fprint (@br_prog A (2 ^ k) cpu) i -> i < 2 ^ k).
Proof.
  intros Hk La. destruct (bit_reverse_spec k Hk a La) as [b [Eb Hb]].
  exists b. split; [auto|]. pose proof Hb as [Lb Hb'].
  assert (P2 : 2 ^ k <> 0) by (apply Nat.pow_nonzero; lia).
  split; [auto|]. split.
  { intros i r Hi M. rewrite (mirrors_unique k i r (brev k i)) by auto using mirrors_brev. auto. }
  split.
  { rewrite <- (Hb' (2 ^ k - 1)) by lia. now rewrite brev_last. }
  split.
  { eapply bit_reverse_twice; eauto. }
  intros cpu Hc. destruct (br_prog_spec k Hk cpu Hc (A := A)) as [R [F S]].
  split.
  - intros b' H. apply race_free_deterministic in H; auto. subst.
    eapply is_bitrev_unique; eauto.
  - split; [apply all_schedules_terminate|auto].
Qed.
