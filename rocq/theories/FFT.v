(* FFT.v -- lagrange/g1.go and lagrange/g2.go (identical up to the group; both are modelled by the
   same definitions over the scalar field, a point being represented by its discrete logarithm,
   so AddAssign/SubAssign/ScalarMultiplication are field addition, subtraction, multiplication). *)
From Coq Require Import Relations.
From Verif Require Import Base Fld Conc Parallel BitRev.

Section FFTModel.
Variable K : Fld.

(* gnark-crypto fft.Domain: Cardinality = 2^d_log, TwiddlesInv[stage][i], CardinalityInv.
   twiddles : [][]fr.Element, an access outside the slices panics. *)
Record domain := mkDomain {
  d_log : nat;
  d_twInv : list (list K);
  d_cardInv : K
}.

Definition tw_at (tw : list (list K)) (stage i : nat) : option K :=
  match nth_error tw stage with Some l => nth_error l i | None => None end.

(* lagrange/g1.go:18-23 butterflyG1 (g2.go:15-20) *)
Definition butterfly (a b : K) : K * K := ((a + b)%F, (a - b)%F).
Definition bfly (i j : nat) : prog K := cell2 i j butterfly.
(* a[i].ScalarMultiplication(&a[i], &twiddle) *)
Definition scalm (i : nat) (t : K) : prog K := cell i (fun x => (t * x)%F).

(* lagrange/g1.go:26-51 kerDIF8G1 on a[base .. base+8) *)
Definition kerDIF8 (base : nat) (tw : list (list K)) (stage : nat) : option (prog K) :=
  match tw_at tw (stage + 0) 1, tw_at tw (stage + 0) 2, tw_at tw (stage + 0) 3, tw_at tw (stage + 1) 1 with
  | Some t01, Some t02, Some t03, Some t11 =>
    Some (seqs [
      bfly (base + 0) (base + 4); bfly (base + 1) (base + 5);
      bfly (base + 2) (base + 6); bfly (base + 3) (base + 7);
      scalm (base + 5) t01; scalm (base + 6) t02; scalm (base + 7) t03;
      bfly (base + 0) (base + 2); bfly (base + 1) (base + 3);
      bfly (base + 4) (base + 6); bfly (base + 5) (base + 7);
      scalm (base + 3) t11; scalm (base + 7) t11;
      bfly (base + 0) (base + 1); bfly (base + 2) (base + 3);
      bfly (base + 4) (base + 5); bfly (base + 6) (base + 7) ])
  | _, _, _, _ => None
  end.

(* lagrange/g1.go:54 *)
Definition butterflyThreshold : nat := 16.

(* lagrange/g1.go:76-78 (and 86-88): one iteration *)
Definition dif_body (base m : nat) (t : nat -> K) (i : nat) : prog K :=
  Seq (bfly (base + i) (base + i + m)) (scalm (base + i + m) (t i)).

(* all twiddles[stage][i] for i in is, or None if some access is out of range *)
Fixpoint tw_row (tw : list (list K)) (stage : nat) (is : list nat) : option (list K) :=
  match is with
  | [] => Some []
  | i :: is' =>
      match tw_at tw stage i, tw_row tw stage is' with
      | Some t, Some l => Some (t :: l)
      | _, _ => None
      end
  end.

(* lagrange/g1.go:56-106 difFFTG1 on a[base .. base+n).  [fuel] bounds the recursion depth
   (log2 n suffices).  cpu = runtime.NumCPU().  None = out of range access or division by 0. *)
Fixpoint difFFT (fuel : nat) (cpu : nat) (tw : list (list K)) (maxSplits base n stage : nat)
  : option (prog K) :=
  if n =? 1 then Some Skip                                                    (* 62-63 *)
  else if n =? 8 then kerDIF8 base tw stage                                   (* 64-67 *)
  else match fuel with 0 => None | S fuel' =>
    let m := n / 2 in                                                         (* 68 *)
    let head :=
      if (butterflyThreshold <? m) && (stage <? maxSplits) then               (* 70 *)
        let numCPU := cpu / 2 ^ stage in                                      (* 72 *)
        match tw_row tw stage (seq 0 m) with
        | Some ts => parallelize m numCPU (dif_body base m (fun i => nth i ts 0%F))  (* 73-80 *)
        | None => None
        end
      else
        match tw_row tw stage (seq 1 (m - 1)) with
        | Some ts =>                                                          (* 82-89 *)
            Some (Seq (bfly base (base + m))
                      (seqs (map (dif_body base m (fun i => nth (i - 1) ts 0%F)) (seq 1 (m - 1)))))
        | None => None
        end in
    match head with
    | None => None
    | Some h =>
      if m =? 1 then Some h                                                   (* 92-94 *)
      else
        let next := (stage + 1)%nat in
        match difFFT fuel' cpu tw maxSplits base m next,
              difFFT fuel' cpu tw maxSplits (base + m) (n - m) next with
        | Some lo, Some hi =>
            if stage <? maxSplits then Some (Seq h (Par hi lo))               (* 97-101 *)
            else Some (Seq h (Seq lo hi))                                     (* 102-104 *)
        | _, _ => None
        end
    end
  end.

(* ecc.NextPowerOfTwo + bits.TrailingZeros64 at lagrange/g1.go:138 *)
Definition maxSplits_of (cpu : nat) : nat := Nat.log2_up cpu.

(* lagrange/g1.go:137-152 : everything ConvertG1 does on the jac array *)
Definition convert_prog (cpu : nat) (dom : domain) (len : nat) : option (prog K) :=
  match difFFT len cpu (d_twInv dom) (maxSplits_of cpu) 0 len 0,
        parallelize len cpu (fun i => scalm i (d_cardInv dom)) with
  | Some f, Some s => Some (Seq f (Seq (br_prog len cpu) s))
  | _, _ => None
  end.

(* lagrange/g1.go:136-159 ConvertG1 / g2.go:130-153 ConvertG2.  The copies affine <-> jacobian
   (lines 140-142, 154-158) are the identity on points; the final copy runs through
   Parallelize. *)
Definition convert (cpu : nat) (dom : domain) (buff : list K) : option (list K) :=
  match convert_prog cpu dom (length buff) with
  | None => None
  | Some p =>
      let jac := run p buff in
      par_cells (length buff) cpu (fun i _ => nth i jac 0%F) buff
  end.
End FFTModel.

Arguments mkDomain {K}. Arguments d_log {K}. Arguments d_twInv {K}. Arguments d_cardInv {K}.
Arguments convert {K}. Arguments convert_prog {K}. Arguments difFFT {K}. Arguments tw_at {K}.
Arguments kerDIF8 {K}. Arguments tw_row {K}. Arguments bfly {K}. Arguments scalm {K}.
Arguments dif_body {K}. Arguments butterfly {K}.

(* ------------------------------------------------------------------ *)
Local Open Scope fld_scope.
(* gnark-crypto's domain for size 2^k with inverse generator winv: TwiddlesInv[s] has
   1 + 2^(k-s-1) entries (winv^(2^s))^i (fft/domain.go preComputeTwiddles). *)
Definition mk_domain {K : Fld} (k : nat) (winv : K) : domain K :=
  mkDomain k
    (map (fun s => map (fun i => (winv ^ (2 ^ s)) ^ i) (seq 0 (1 + 2 ^ (k - s - 1)))) (seq 0 k))
    (finv (fnat (2 ^ k))).

Lemma tw_at_mk {K : Fld} k (winv : K) s i : (s < k)%nat -> (i <= 2 ^ (k - s - 1))%nat ->
  tw_at (d_twInv (mk_domain k winv)) s i = Some ((winv ^ (2 ^ s)) ^ i).
Proof.
  intros Hs Hi. unfold tw_at, mk_domain; cbn [d_twInv].
  rewrite nth_error_map_seq_lt by auto. cbn [Nat.add].
  now rewrite nth_error_map_seq_lt by lia.
Qed.

Lemma tw_row_mk {K : Fld} k (winv : K) s : forall c a, (s < k)%nat -> (a + c <= 2 ^ (k - s - 1) + 1)%nat ->
  tw_row (d_twInv (mk_domain k winv)) s (seq a c) = Some (map (fun i => (winv ^ (2 ^ s)) ^ i) (seq a c)).
Proof.
  induction c as [|c IH]; intros a Hs Hc; cbn [seq tw_row map]; auto.
  rewrite tw_at_mk, IH by lia. auto.
Qed.

(* ------------------------------------------------------------------ *)
Section FFTProof.
Variable K : Fld.
Add Field Kf : (f_th K).

(* Specification: the discrete Fourier transform of a with root w *)
Definition dft (w : K) (a : list K) (x : nat) : K :=
  sumn (length a) (fun i => nth i a 0 * w ^ (x * i)).

(* the transform in bit-reversed order *)
Definition is_dft_rev (k : nat) (w : K) (a b : list K) : Prop :=
  length b = (2 ^ k)%nat /\
  forall x, (x < 2 ^ k)%nat -> nth_error b (brev k x) = Some (dft w a x).

(* -- running atoms inside a window pre ++ mid ++ post -- *)
Lemma upd_window (pre mid post : list K) i x : (i < length mid)%nat ->
  upd (pre ++ mid ++ post) (length pre + i) x = pre ++ upd mid i x ++ post.
Proof.
  intros H. apply list_ext. intros j. rewrite nth_error_upd.
  destruct (lt_dec j (length pre)) as [Hj|Hj].
  - rewrite !(nth_error_app1 pre) by auto.
    destruct (Nat.eqb_spec (length pre + i)%nat j); [lia|auto].
  - rewrite !(nth_error_app2 pre) by lia.
    destruct (lt_dec (j - length pre) (length mid)) as [Hm|Hm].
    + rewrite !nth_error_app1 by (rewrite ?upd_length; auto). rewrite nth_error_upd.
      rewrite !app_length.
      destruct (Nat.eqb_spec (length pre + i)%nat j), (Nat.eqb_spec i (j - length pre)%nat); try lia; cbn [andb]; auto.
      rewrite (proj2 (Nat.ltb_lt _ _)) by lia. rewrite (proj2 (Nat.ltb_lt _ _)) by lia. auto.
    + rewrite !nth_error_app2 by (rewrite ?upd_length; lia). rewrite upd_length.
      destruct (Nat.eqb_spec (length pre + i)%nat j); [lia|]. auto.
Qed.

Lemma nth_error_window (pre mid post : list K) i : (i < length mid)%nat ->
  nth_error (pre ++ mid ++ post) (length pre + i) = nth_error mid i.
Proof.
  intros H. rewrite nth_error_app2 by lia.
  replace (length pre + i - length pre)%nat with i by lia. now rewrite nth_error_app1.
Qed.

Lemma run_scalm (pre mid post : list K) i (t : K) : (i < length mid)%nat ->
  run (scalm (length pre + i) t) (pre ++ mid ++ post) = pre ++ run (scalm i t) mid ++ post.
Proof.
  intros H. unfold scalm, cell. cbn [run]. unfold cell_upd. rewrite nth_error_window by auto.
  destruct (nth_error mid i) eqn:E; auto using upd_window.
Qed.

Lemma run_bfly (pre mid post : list K) i j : (i < length mid)%nat -> (j < length mid)%nat ->
  run (bfly (length pre + i) (length pre + j)) (pre ++ mid ++ post) = pre ++ run (bfly i j) mid ++ post.
Proof.
  intros Hi Hj. unfold bfly, cell2. cbn [run]. unfold cell2_upd. rewrite !nth_error_window by auto.
  destruct (nth_error mid i) eqn:E1, (nth_error mid j) eqn:E2; auto.
  rewrite !upd_window; auto. now rewrite upd_length.
Qed.

(* -- the butterfly pass -- *)
Definition bpass (m : nat) (t : nat -> K) (a : list K) : list K :=
  map (fun i => nth i a 0 + nth (i + m) a 0) (seq 0 m) ++
  map (fun i => t i * (nth i a 0 - nth (i + m) a 0)) (seq 0 m).

Lemma bpass_length m t a : length (bpass m t a) = (m + m)%nat.
Proof. unfold bpass. rewrite app_length, !map_length, !seq_length. auto. Qed.

Lemma nth_error_bpass_lo m t a i : (i < m)%nat ->
  nth_error (bpass m t a) i = Some (nth i a 0 + nth (i + m) a 0).
Proof.
  intros H. unfold bpass. rewrite nth_error_app1 by (rewrite map_length, seq_length; auto).
  now rewrite nth_error_map_seq_lt by auto.
Qed.
Lemma nth_error_bpass_hi m t a i : (i < m)%nat ->
  nth_error (bpass m t a) (i + m) = Some (t i * (nth i a 0 - nth (i + m) a 0)).
Proof.
  intros H. unfold bpass. rewrite nth_error_app2 by (rewrite map_length, seq_length; lia).
  rewrite map_length, seq_length. replace (i + m - m)%nat with i by lia.
  now rewrite nth_error_map_seq_lt by auto.
Qed.

Lemma run_dif_body base m (t : nat -> K) i a x y :
  nth_error a (base + i) = Some x -> nth_error a (base + i + m) = Some y -> (0 < m)%nat ->
  run (dif_body base m t i) a = upd (upd a (base + i) (x + y)) (base + i + m) (t i * (x - y)).
Proof.
  intros Hx Hy Hm. apply list_ext. intros j.
  assert (L1 : (base + i < length a)%nat) by (apply nth_error_Some; congruence).
  assert (L2 : (base + i + m < length a)%nat) by (apply nth_error_Some; congruence).
  unfold dif_body, scalm, bfly, cell, cell2. cbn [run]. rewrite nth_error_cell_upd.
  rewrite (nth_error_cell2_upd (base + i) (base + i + m) butterfly a j x y) by (auto; lia).
  rewrite !nth_error_upd, upd_length. cbn [butterfly fst snd].
  destruct (Nat.eqb_spec (base + i + m)%nat j), (Nat.eqb_spec j (base + i)%nat),
     (Nat.eqb_spec j (base + i + m)%nat), (Nat.eqb_spec (base + i)%nat j); try lia; cbn [option_map andb];
    destruct (Nat.ltb_spec j (length a)%nat); auto; try lia.
Qed.

(* the body executed for i = 0..c-1, with t i used as factor, on the window [0,2m) *)
Lemma run_dif_bodies (pre a post : list K) m t c : length a = (m + m)%nat -> (0 < m)%nat -> (c <= m)%nat ->
  fold_left (fun s i => run (dif_body (length pre) m t i) s) (seq 0 c) (pre ++ a ++ post) =
  pre ++ mapi (fun j x => if j <? c then x + nth (j + m) a 0
                          else if (m <=? j) && (j <? m + c) then t (j - m)%nat * (nth (j - m) a 0 - x)
                          else x) a ++ post.
Proof.
  intros La Hm. induction c as [|c IH]; intros Hc.
  - cbn [seq fold_left]. do 2 f_equal. apply list_ext. intros j. rewrite nth_error_mapi.
    destruct (nth_error a j); auto. cbn [option_map]. f_equal.
    destruct (Nat.leb_spec m j), (Nat.ltb_spec j (m + 0)%nat); cbn; auto. lia.
  - rewrite seq_S, fold_left_app, IH by lia. cbn [fold_left Nat.add].
    set (a' := mapi _ a).
    assert (La' : length a' = (m + m)%nat) by (unfold a'; now rewrite mapi_length).
    assert (Hx : nth_error a' c = Some (nth c a 0)).
    { unfold a'. rewrite nth_error_mapi, (@nth_error_nth_lt _ a c 0) by lia. cbn [option_map].
      rewrite (proj2 (Nat.ltb_ge c c)) by lia. rewrite (proj2 (Nat.leb_gt m c)) by lia. auto. }
    assert (Hy : nth_error a' (c + m) = Some (nth (c + m) a 0)).
    { unfold a'. rewrite nth_error_mapi, (@nth_error_nth_lt _ a (c + m)%nat 0) by lia. cbn [option_map].
      rewrite (proj2 (Nat.ltb_ge (c + m)%nat c)) by lia.
      rewrite (proj2 (Nat.leb_le m (c + m)%nat)) by lia.
      rewrite (proj2 (Nat.ltb_ge (c + m)%nat (m + c)%nat)) by lia. auto. }
    rewrite (run_dif_body (length pre) m t c (pre ++ a' ++ post) (nth c a 0) (nth (c + m) a 0)).
    2: { rewrite nth_error_window by lia. auto. }
    2: { replace (length pre + c + m)%nat with (length pre + (c + m))%nat by lia.
         rewrite nth_error_window by lia. auto. }
    2: auto.
    rewrite upd_window by lia.
    replace (length pre + c + m)%nat with (length pre + (c + m))%nat by lia.
    rewrite upd_window by (rewrite upd_length; lia).
    do 2 f_equal. apply list_ext. intros j.
    rewrite !nth_error_upd, upd_length. unfold a'. rewrite mapi_length, !nth_error_mapi.
    destruct (lt_dec j (m + m)) as [Hj|Hj].
    2: { rewrite !(proj2 (nth_error_None a j)) by lia. rewrite (proj2 (Nat.ltb_ge j (length a))) by lia.
         rewrite !andb_false_r. auto. }
    rewrite (@nth_error_nth_lt _ a j 0) by lia. cbn [option_map].
    rewrite (proj2 (Nat.ltb_lt j (length a))) by lia. rewrite !andb_true_r.
    destruct (Nat.eqb_spec (c + m)%nat j) as [<-|N1].
    + rewrite (proj2 (Nat.ltb_ge (c + m)%nat (S c))) by lia.
      rewrite (proj2 (Nat.leb_le m (c + m)%nat)) by lia.
      rewrite (proj2 (Nat.ltb_lt (c + m)%nat (m + S c)%nat)) by lia. cbn [andb].
      replace (c + m - m)%nat with c by lia. auto.
    + destruct (Nat.eqb_spec c j) as [<-|N2].
      * rewrite (proj2 (Nat.ltb_lt c (S c))) by lia. auto.
      * destruct (Nat.ltb_spec j c), (Nat.ltb_spec j (S c)%nat); try lia; auto.
        destruct (Nat.leb_spec m j), (Nat.ltb_spec j (m + c)%nat), (Nat.ltb_spec j (m + S c)%nat); try lia; auto.
Qed.

Lemma run_dif_bodies_full (pre a post : list K) m t : length a = (m + m)%nat -> (0 < m)%nat ->
  fold_left (fun s i => run (dif_body (length pre) m t i) s) (seq 0 m) (pre ++ a ++ post) =
  pre ++ bpass m t a ++ post.
Proof.
  intros La Hm. rewrite run_dif_bodies by (auto; lia). do 2 f_equal.
  apply list_ext. intros j. rewrite nth_error_mapi.
  destruct (lt_dec j (m + m)) as [Hj|Hj].
  2: { rewrite !(proj2 (nth_error_None _ _)); auto; rewrite ?bpass_length; lia. }
  rewrite (@nth_error_nth_lt _ a j 0) by lia. cbn [option_map].
  destruct (Nat.ltb_spec j m) as [H|H].
  - now rewrite nth_error_bpass_lo by auto.
  - rewrite (proj2 (Nat.leb_le m j)) by lia. rewrite (proj2 (Nat.ltb_lt j (m + m)%nat)) by lia. cbn [andb].
    pose proof (nth_error_bpass_hi m t a (j - m)%nat ltac:(lia)) as E.
    replace (j - m + m)%nat with j in E by lia. now rewrite E.
Qed.

Lemma bpass_ext m t t' a : (forall i, (i < m)%nat -> t i = t' i) -> bpass m t a = bpass m t' a.
Proof.
  intros H. unfold bpass. f_equal. apply map_ext_in. intros i Hi. apply in_seq in Hi.
  rewrite H by lia. auto.
Qed.

(* -- splitting the DFT -- *)
Lemma dft_split (w : K) (m : nat) (a : list K) :
  length a = (m + m)%nat -> w ^ m = - (1) ->
  let u := map (fun i => nth i a 0 + nth (i + m) a 0) (seq 0 m) in
  let v := map (fun i => w ^ i * (nth i a 0 - nth (i + m) a 0)) (seq 0 m) in
  forall x, dft w a (2 * x) = dft (w ^ 2) u x /\ dft w a (2 * x + 1) = dft (w ^ 2) v x.
Proof.
  intros La Hw u v x. unfold dft. rewrite La.
  assert (Lu : length u = m) by (unfold u; now rewrite map_length, seq_length).
  assert (Lv : length v = m) by (unfold v; now rewrite map_length, seq_length).
  rewrite Lu, Lv, !sumn_split, <- !sumn_add.
  assert (W2 : w ^ (2 * m) = 1).
  { replace (2 * m)%nat with (m + m)%nat by lia. rewrite fpow_add, Hw. ring. }
  assert (E2 : forall i, w ^ (2 * x * (m + i)) = w ^ (2 * x * i)).
  { intros i. replace (2 * x * (m + i))%nat with ((2 * m) * x + 2 * x * i)%nat by lia.
    rewrite fpow_add, fpow_mul, W2, fpow_1_l. ring. }
  split; apply sumn_ext; intros i Hi.
  - rewrite E2. unfold u.
    rewrite nth_map_seq by auto. cbn [Nat.add].
    replace (m + i)%nat with (i + m)%nat by lia.
    replace (w ^ (2 * x * i)) with ((w ^ 2) ^ (x * i))
      by (rewrite <- fpow_mul; f_equal; lia). ring.
  - replace ((2 * x + 1) * (m + i))%nat with (m + (2 * x * (m + i) + i))%nat by lia.
    replace ((2 * x + 1) * i)%nat with (2 * x * i + i)%nat by lia.
    rewrite !fpow_add, E2, Hw. unfold v.
    rewrite nth_map_seq by auto. cbn [Nat.add].
    replace (m + i)%nat with (i + m)%nat by lia.
    replace (w ^ (2 * x * i)) with ((w ^ 2) ^ (x * i))
      by (rewrite <- fpow_mul; f_equal; lia). ring.
Qed.

Lemma bpass_dft k (w : K) a b1 b2 :
  length a = (2 ^ S k)%nat -> w ^ (2 ^ k) = - (1) ->
  let u := map (fun i => nth i a 0 + nth (i + 2 ^ k) a 0) (seq 0 (2 ^ k)) in
  let v := map (fun i => w ^ i * (nth i a 0 - nth (i + 2 ^ k) a 0)) (seq 0 (2 ^ k)) in
  is_dft_rev k (w ^ 2) u b1 -> is_dft_rev k (w ^ 2) v b2 -> is_dft_rev (S k) w a (b1 ++ b2).
Proof.
  intros La Hw u v [L1 H1] [L2 H2]. cbn [Nat.pow] in La.
  pose proof (dft_split w (2 ^ k) a ltac:(lia) Hw) as D. cbv zeta in D. fold u v in D.
  split; [rewrite app_length; cbn [Nat.pow]; lia|].
  intros x Hx. pose proof (Nat.div_mod x 2 ltac:(lia)) as E.
  pose proof (Nat.mod_upper_bound x 2 ltac:(lia)) as B.
  set (q := (x / 2)%nat) in *. assert (Hq : (q < 2 ^ k)%nat) by (cbn [Nat.pow] in Hx; lia).
  destruct (D q) as [D0 D1]. pose proof (brev_lt k q) as Hb.
  assert (x mod 2 = 0 \/ x mod 2 = 1)%nat as [M|M] by lia.
  - replace x with (2 * q + 0)%nat by lia. rewrite brev_S_low by lia.
    rewrite nth_error_app1 by lia. rewrite Nat.mul_0_l, Nat.add_0_l, H1 by auto.
    rewrite Nat.add_0_r. now rewrite D0.
  - replace x with (2 * q + 1)%nat by lia. rewrite brev_S_low by lia.
    rewrite Nat.mul_1_l, nth_error_app2 by lia. rewrite L1.
    replace (2 ^ k + brev k q - 2 ^ k)%nat with (brev k q) by lia.
    rewrite H2 by auto. now rewrite D1.
Qed.

Lemma dft_ext_list w a b x : a = b -> dft w a x = dft w b x. Proof. now intros ->. Qed.

(* -- the size-8 kernel -- *)
Lemma ker8_run pre (a0 a1 a2 a3 a4 a5 a6 a7 : K) post t01 t02 t03 t11 tw stage p :
  tw_at tw (stage + 0) 1 = Some t01 -> tw_at tw (stage + 0) 2 = Some t02 ->
  tw_at tw (stage + 0) 3 = Some t03 -> tw_at tw (stage + 1) 1 = Some t11 ->
  kerDIF8 (length pre) tw stage = Some p ->
  let b0 := a0 + a4 in let b1 := a1 + a5 in let b2 := a2 + a6 in let b3 := a3 + a7 in
  let b4 := a0 - a4 in let b5 := t01 * (a1 - a5) in
  let b6 := t02 * (a2 - a6) in let b7 := t03 * (a3 - a7) in
  let c0 := b0 + b2 in let c1 := b1 + b3 in let c2 := b0 - b2 in let c3 := t11 * (b1 - b3) in
  let c4 := b4 + b6 in let c5 := b5 + b7 in let c6 := b4 - b6 in let c7 := t11 * (b5 - b7) in
  run p (pre ++ [a0;a1;a2;a3;a4;a5;a6;a7] ++ post) =
  pre ++ [c0 + c1; c0 - c1; c2 + c3; c2 - c3; c4 + c5; c4 - c5; c6 + c7; c6 - c7] ++ post.
Proof.
  intros T1 T2 T3 T4 E. unfold kerDIF8 in E. rewrite T1, T2, T3, T4 in E. apply some_inj in E. subst p.
  cbv zeta. rewrite run_seqs. cbn [fold_left].
  repeat first
   [ rewrite run_bfly by (cbn; lia);
     match goal with |- context [pre ++ run (bfly ?i ?j) ?l ++ post] =>
       let v := eval cbv [bfly cell2 run cell2_upd nth_error upd firstn skipn app butterfly fst snd] in
         (run (bfly i j) l) in change (run (bfly i j) l) with v end
   | rewrite run_scalm by (cbn; lia);
     match goal with |- context [pre ++ run (scalm ?i ?t) ?l ++ post] =>
       let v := eval cbv [scalm cell run cell_upd nth_error upd firstn skipn app] in
         (run (scalm i t) l) in change (run (scalm i t) l) with v end ].
  reflexivity.
Qed.

(* a program confined to the window [base, base + n) *)
Definition confined (p : prog K) (base n : nat) : Prop :=
  race_free p /\ forall i, fprint p i -> (base <= i < base + n)%nat.

Lemma bfly_rf i j : i <> j -> race_free (@bfly K i j).
Proof. apply race_free_cell2. Qed.
Lemma scalm_rf i t : race_free (@scalm K i t).
Proof. apply race_free_cell. Qed.
Lemma bfly_fp i j x : fprint (@bfly K i j) x -> x = i \/ x = j.
Proof. simpl. tauto. Qed.
Lemma scalm_fp i t x : fprint (@scalm K i t) x -> x = i.
Proof. simpl. auto. Qed.

Lemma dif_body_rf base m t i : (0 < m)%nat -> race_free (@dif_body K base m t i).
Proof.
  intros H. unfold dif_body. cbn [race_free]. split; [apply bfly_rf; lia|apply scalm_rf].
Qed.
Lemma dif_body_fp base m t i x : fprint (@dif_body K base m t i) x ->
  x = (base + i)%nat \/ x = (base + i + m)%nat.
Proof.
  unfold dif_body. cbn [fprint]. intros [H|H]; [apply bfly_fp in H; tauto|apply scalm_fp in H; tauto].
Qed.

Lemma kerDIF8_spec tw stage t01 t02 t03 t11 base (w : K) :
  tw_at tw (stage + 0) 1 = Some t01 -> tw_at tw (stage + 0) 2 = Some t02 ->
  tw_at tw (stage + 0) 3 = Some t03 -> tw_at tw (stage + 1) 1 = Some t11 ->
  t01 = w ^ 1 -> t02 = w ^ 2 -> t03 = w ^ 3 -> t11 = w ^ 2 -> w ^ 4 = - (1) ->
  exists p, kerDIF8 base tw stage = Some p /\ confined p base 8 /\
    forall pre a post, length pre = base -> length a = 8%nat ->
      exists b, run p (pre ++ a ++ post) = pre ++ b ++ post /\ is_dft_rev 3 w a b.
Proof.
  intros T1 T2 T3 T4 E1 E2 E3 E4 Hw.
  destruct (kerDIF8 base tw stage) as [p|] eqn:E.
  2: { unfold kerDIF8 in E. rewrite T1, T2, T3, T4 in E. discriminate. }
  exists p. split; [auto|]. split.
  - unfold kerDIF8 in E. rewrite T1, T2, T3, T4 in E. apply some_inj in E. subst p. split.
    + apply race_free_seqs. intros q Hq. cbn [In] in Hq.
      repeat (destruct Hq as [<-|Hq]; [first [apply scalm_rf|apply bfly_rf; lia]|]). destruct Hq.
    + intros i Hi. apply fprint_seqs in Hi as [q [Hq Hi]]. cbn [In] in Hq.
      repeat (destruct Hq as [<-|Hq]; [first [apply scalm_fp in Hi; lia|apply bfly_fp in Hi; lia]|]).
      destruct Hq.
  - intros pre a post Lp La. subst base.
    destruct a as [|a0 [|a1 [|a2 [|a3 [|a4 [|a5 [|a6 [|a7 [|]]]]]]]]]; try discriminate La.
    eexists. split.
    + eapply (ker8_run pre a0 a1 a2 a3 a4 a5 a6 a7 post t01 t02 t03 t11); eauto.
    + split; [reflexivity|]. intros x Hx.
      assert (Hw4 : w * (w * (w * w)) = - (1)) by (rewrite <- Hw; cbn [fpow]; ring).
      assert (H8 : forall n, w ^ (4 + n) = - w ^ n) by (intros n; rewrite fpow_add, Hw; ring).
      subst t01 t02 t03 t11. unfold dft. cbn [length].
      cbn [Nat.pow Nat.mul Nat.add] in Hx.
      unfold sumn. cbn [seq map nth].
      do 8 (destruct x as [|x]; [cbv [brev Nat.modulo Nat.divmod Nat.div Nat.pow fst snd Nat.mul Nat.add Nat.sub];
         cbn [nth_error]; f_equal;
         cbn [fsum fold_right];
         repeat match goal with |- context [w ^ S (S (S (S ?n)))] =>
           change (w ^ S (S (S (S n)))) with (w ^ (4 + n)); rewrite (H8 n) end;
         cbn [fpow]; ring [Hw4]|]).
      lia.
Qed.

Lemma head_par_spec cpu base m (t : nat -> K) : (1 <= cpu)%nat -> (0 < m)%nat ->
  exists h, parallelize m cpu (dif_body base m t) = Some h /\ confined h base (m + m) /\
    forall pre a post, length pre = base -> length a = (m + m)%nat ->
      run h (pre ++ a ++ post) = pre ++ bpass m t a ++ post.
Proof.
  intros Hc Hm.
  destruct (race_free_parallelize m cpu (dif_body base m t) Hc) as [h [E [R [S F]]]].
  - intros i _. now apply dif_body_rf.
  - intros i j x Hi Hj N X1 X2. apply dif_body_fp in X1. apply dif_body_fp in X2. lia.
  - exists h. split; [auto|]. split; [split; auto|].
    + intros x Hx. apply F in Hx as [i [Hi Hx]]. apply dif_body_fp in Hx. lia.
    + intros pre a post <- La. rewrite S. now apply run_dif_bodies_full.
Qed.

Lemma head_seq_spec base m (t : nat -> K) : (0 < m)%nat -> t 0%nat = 1 ->
  let h := Seq (bfly base (base + m)) (seqs (map (dif_body base m t) (seq 1 (m - 1)))) in
  confined h base (m + m) /\
  forall pre a post, length pre = base -> length a = (m + m)%nat ->
      run h (pre ++ a ++ post) = pre ++ bpass m t a ++ post.
Proof.
  intros Hm T0 h. split; [split|].
  - unfold h. cbn [race_free]. split; [apply bfly_rf; lia|].
    apply race_free_seqs. intros q Hq. apply in_map_iff in Hq as [i [<- _]]. now apply dif_body_rf.
  - unfold h. cbn [fprint]. intros x [Hx|Hx]; [apply bfly_fp in Hx; lia|].
    apply fprint_seqs in Hx as [q [Hq Hx]]. apply in_map_iff in Hq as [i [<- Hi]].
    apply in_seq in Hi. apply dif_body_fp in Hx. lia.
  - intros pre a post <- La. unfold h. cbn [run].
    rewrite <- run_dif_bodies_full by auto.
    replace (seq 0 m) with (0%nat :: seq 1 (m - 1)) by (destruct m; [lia|cbn [seq]; do 2 f_equal; lia]).
    cbn [fold_left].
    assert (E : run (bfly (length pre) (length pre + m)) (pre ++ a ++ post) =
                run (dif_body (length pre) m t 0) (pre ++ a ++ post)).
    { unfold dif_body. cbn [run]. rewrite !Nat.add_0_r. apply list_ext. intros j.
      unfold scalm, cell. cbn [run]. rewrite nth_error_cell_upd, T0.
      destruct (length pre + m =? j)%nat; auto.
      destruct (nth_error _ j); auto. cbn [option_map]. f_equal. ring. }
    rewrite E. generalize (run (dif_body (length pre) m t 0) (pre ++ a ++ post)).
    generalize (seq 1 (m - 1)). intros l. induction l as [|i l IH]; intros s; cbn [map seqs fold_right run fold_left]; auto.
Qed.

Lemma difFFT_spec (winv : K) (Kt cpu ms : nat) :
  (1 <= cpu)%nat -> (forall s, (s < ms)%nat -> (1 <= cpu / 2 ^ s)%nat) ->
  winv ^ (2 ^ (Kt - 1)) = - (1) ->
  forall k fuel stage base, (k <= fuel)%nat -> (stage + k = Kt)%nat ->
  exists p, difFFT fuel cpu (d_twInv (mk_domain Kt winv)) ms base (2 ^ k) stage = Some p /\
    confined p base (2 ^ k) /\
    forall pre a post, length pre = base -> length a = (2 ^ k)%nat ->
      exists b, run p (pre ++ a ++ post) = pre ++ b ++ post /\
                is_dft_rev k (winv ^ (2 ^ stage)) a b.
Proof.
  intros Hc Hms Hw. induction k as [|k IH]; intros fuel stage base Hf Hs.
  - exists Skip. split; [destruct fuel; reflexivity|]. split; [split; [exact I|simpl; tauto]|].
    intros pre a post _ La. exists a. split; auto. split; auto.
    intros x Hx. simpl in Hx. assert (x = 0%nat) as -> by lia.
    destruct a as [|a0 [|]]; try discriminate La. cbn. f_equal. ring.
  - assert (P2 : (2 ^ k <> 0)%nat) by (apply Nat.pow_nonzero; lia).
    assert (Wm : (winv ^ (2 ^ stage)) ^ (2 ^ k) = - (1)).
    { rewrite <- fpow_mul, <- Nat.pow_add_r. rewrite <- Hw. do 2 f_equal. lia. }
    destruct (Nat.eq_dec k 2) as [->|Nk2].
    { (* n = 8 *)
      assert (EQ : difFFT fuel cpu (d_twInv (mk_domain Kt winv)) ms base (2 ^ 3) stage =
                   kerDIF8 base (d_twInv (mk_domain Kt winv)) stage) by (destruct fuel; reflexivity).
      rewrite EQ.
      assert (Q : (Kt - stage - 1 = 2)%nat) by lia.
      assert (Q' : (Kt - (stage + 1) - 1 = 1)%nat) by lia.
      eapply kerDIF8_spec; try reflexivity; auto;
        try (rewrite Nat.add_0_r; apply tw_at_mk; rewrite ?Q; cbn; lia).
      rewrite tw_at_mk by (rewrite ?Q'; cbn; lia). f_equal.
      rewrite fpow_1, <- fpow_mul. f_equal. rewrite Nat.pow_add_r. cbn. lia. }
    destruct fuel as [|fuel]; [lia|].
    cbn [difFFT].
    set (n := (2 ^ S k)%nat).
    assert (En : n = (2 ^ k + 2 ^ k)%nat) by (unfold n; cbn [Nat.pow]; lia).
    assert (N1 : (n =? 1)%nat = false) by (apply Nat.eqb_neq; lia).
    assert (N8 : (n =? 8)%nat = false).
    { apply Nat.eqb_neq. unfold n. intros E8. change 8%nat with (2 ^ 3)%nat in E8.
      apply Nat.pow_inj_r in E8; lia. }
    rewrite N1, N8.
    assert (Em : (n / 2 = 2 ^ k)%nat).
    { rewrite En. replace (2 ^ k + 2 ^ k)%nat with (2 ^ k * 2)%nat by lia. apply Nat.div_mul. lia. }
    rewrite Em.
    assert (Esub : (n - 2 ^ k = 2 ^ k)%nat) by lia. rewrite Esub.
    assert (Q : (Kt - stage - 1 = k)%nat) by lia.
    set (w := winv ^ (2 ^ stage)) in *.
    match goal with |- context [if ((butterflyThreshold <? ?q)%nat && ?c) then ?x else ?y] =>
      set (hd_ := if ((butterflyThreshold <? q)%nat && c) then x else y) end.
    assert (HEAD : exists h, hd_ = Some h /\ confined h base n /\
       forall pre a post, length pre = base -> length a = n ->
         run h (pre ++ a ++ post) = pre ++ bpass (2 ^ k) (fun i => w ^ i) a ++ post).
    { unfold hd_. destruct ((butterflyThreshold <? 2 ^ k)%nat && (stage <? ms)%nat) eqn:C.
      - apply andb_true_iff in C as [_ C]. apply Nat.ltb_lt in C.
        rewrite tw_row_mk by (rewrite ?Q; lia). fold w.
        destruct (head_par_spec (cpu / 2 ^ stage) base (2 ^ k)
                    (fun i => nth i (map (fun i0 => w ^ i0) (seq 0 (2 ^ k))) 0) (Hms stage C) ltac:(lia))
          as [h [E [Cf R]]].
        exists h. split; [exact E|]. split; [now rewrite En|].
        intros pre a post Lp La. rewrite R by (auto; lia). do 2 f_equal. apply bpass_ext.
        intros i Hi. now rewrite nth_map_seq.
      - rewrite tw_row_mk by (rewrite ?Q; lia). fold w. eexists. split; [reflexivity|].
        set (t := fun i => nth (i - 1) (map (fun i0 => w ^ i0) (seq 1 (2 ^ k - 1))) 0).
        set (t' := fun i => match i with 0%nat => 1 | _ => t i end).
        assert (M : map (dif_body base (2 ^ k) t) (seq 1 (2 ^ k - 1)) =
                    map (dif_body base (2 ^ k) t') (seq 1 (2 ^ k - 1))).
        { apply map_ext_in. intros i Hi. apply in_seq in Hi. unfold dif_body, t'.
          destruct i; [lia|auto]. }
        rewrite M.
        destruct (head_seq_spec base (2 ^ k) t' ltac:(lia) eq_refl) as [Cf R].
        split; [now rewrite En|]. intros pre a post Lp La. rewrite R by (auto; lia).
        do 2 f_equal. apply bpass_ext. intros i Hi. unfold t', t. destruct i as [|i]; auto.
        rewrite nth_map_seq by lia. f_equal. lia. }
    destruct HEAD as [h [-> [Ch Rh]]].
    (* the two halves after the pass *)
    assert (SP : forall a, length a = n -> bpass (2 ^ k) (fun i => w ^ i) a =
        map (fun i => nth i a 0 + nth (i + 2 ^ k) a 0) (seq 0 (2 ^ k)) ++
        map (fun i => w ^ i * (nth i a 0 - nth (i + 2 ^ k) a 0)) (seq 0 (2 ^ k))) by reflexivity.
    destruct (Nat.eqb_spec (2 ^ k) 1) as [K1|K1].
    + assert (k = 0)%nat as ->.
      { destruct k; auto. exfalso. cbn [Nat.pow] in K1. lia. }
      exists h. split; [auto|]. split; [auto|].
      intros pre a post Lp La. eexists. split; [apply Rh; auto|].
      rewrite SP by auto. apply bpass_dft; auto; (split; [now rewrite map_length, seq_length|]);
        intros x Hx; cbn [Nat.pow] in Hx; assert (x = 0%nat) as -> by lia; cbn; f_equal; ring.
    + assert (Ws : (winv ^ (2 ^ (stage + 1))) = w ^ 2).
      { unfold w. rewrite <- fpow_mul. f_equal. rewrite Nat.pow_add_r. cbn. lia. }
      destruct (IH fuel (stage + 1)%nat base ltac:(lia) ltac:(lia)) as [lo [-> [[RL FL] HL]]].
      destruct (IH fuel (stage + 1)%nat (base + 2 ^ k)%nat ltac:(lia) ltac:(lia)) as [hi [-> [[RH FH] HH]]].
      destruct Ch as [RFh FPh].
      assert (RUN : forall pre a post, length pre = base -> length a = n ->
         exists b, run hi (run lo (run h (pre ++ a ++ post))) = pre ++ b ++ post /\ is_dft_rev (S k) w a b).
      { intros pre a post Lp La. rewrite Rh by auto. rewrite SP by auto. rewrite <- app_assoc.
        set (u := map _ (seq 0 (2 ^ k))). set (v := map _ (seq 0 (2 ^ k))).
        assert (Lu : length u = (2 ^ k)%nat) by (unfold u; now rewrite map_length, seq_length).
        assert (Lv : length v = (2 ^ k)%nat) by (unfold v; now rewrite map_length, seq_length).
        destruct (HL pre u (v ++ post) Lp Lu) as [b1 [E1 D1]]. rewrite E1.
        assert (L1 : length b1 = (2 ^ k)%nat) by apply D1.
        rewrite app_assoc.
        destruct (HH (pre ++ b1) v post ltac:(rewrite app_length; lia) Lv) as [b2 [E2 D2]].
        rewrite E2. exists (b1 ++ b2). split; [now rewrite <- !app_assoc|].
        rewrite Ws in D1, D2. apply bpass_dft; auto. }
      assert (DISJ : forall i, fprint hi i -> fprint lo i -> False).
      { intros i A B. apply FH in A. apply FL in B. lia. }
      destruct (stage <? ms)%nat.
      * eexists. split; [reflexivity|]. split.
        -- split; [cbn [race_free]; auto|]. cbn [fprint]. intros i [A|[A|A]].
           ++ apply FPh in A. lia.
           ++ apply FH in A. lia.
           ++ apply FL in A. lia.
        -- intros pre a post Lp La. cbn [run].
           destruct (RUN pre a post Lp La) as [b [Eb Db]]. exists b. split; auto.
           rewrite <- Eb.
           rewrite (commute (fprint lo) (fprint hi) (run lo) (run hi));
             auto using fprint_dec, respects_run. intros; eapply DISJ; eauto.
      * eexists. split; [reflexivity|]. split.
        -- split; [cbn [race_free]; auto|]. cbn [fprint]. intros i [A|[A|A]].
           ++ apply FPh in A. lia.
           ++ apply FL in A. lia.
           ++ apply FH in A. lia.
        -- intros pre a post Lp La. cbn [run]. apply RUN; auto.
Qed.

(* -- inverting the transform -- *)
Lemma fmulC (x y : K) : x * y = y * x.
Proof. ring. Qed.

Lemma geo_double (x : K) k : sumn (2 ^ S k) (fun j => x ^ j) = (1 + x ^ (2 ^ k)) * sumn (2 ^ k) (fun j => x ^ j).
Proof.
  replace (2 ^ S k)%nat with (2 ^ k + 2 ^ k)%nat by (cbn [Nat.pow]; lia).
  rewrite sumn_split.
  rewrite (sumn_ext _ (2 ^ k) (fun i => x ^ (2 ^ k + i)) (fun i => x ^ (2 ^ k) * x ^ i))
    by (intros i _; apply fpow_add).
  rewrite sumn_scal. change (fun i : nat => x ^ i) with (fpow x). change (fun j : nat => x ^ j) with (fpow x).
  ring.
Qed.

Lemma geo_zero (x : K) k s : (s < k)%nat -> x ^ (2 ^ s) = - (1) -> sumn (2 ^ k) (fun j => x ^ j) = 0.
Proof.
  intros Hs Hx. induction k as [|k IH]; [lia|]. rewrite geo_double.
  destruct (Nat.eq_dec s k) as [->|N]; [rewrite Hx; ring|].
  rewrite IH by lia. ring.
Qed.

Lemma odd_part d : (0 < d)%nat -> exists e o, d = (2 ^ e * (2 * o + 1))%nat.
Proof.
  induction d as [d IH] using lt_wf_ind. intros Hd.
  destruct (Nat.even d) eqn:E.
  - apply Nat.even_spec in E as [h ->]. destruct (IH h) as [e [o He]]; try lia.
    exists (S e), o. cbn [Nat.pow]. lia.
  - assert (O : Nat.odd d = true) by (unfold Nat.odd; now rewrite E).
    apply Nat.odd_spec in O as [h ->]. exists 0%nat, h. cbn [Nat.pow]. lia.
Qed.

Lemma fpow_m1_odd o : (- (1) : K) ^ (2 * o + 1) = - (1).
Proof.
  rewrite fpow_add, fpow_mul, fpow_1. replace ((- (1) : K) ^ 2) with (1 : K) by (cbn [fpow]; ring).
  rewrite fpow_1_l. ring.
Qed.

Lemma root_sum k (w : K) d : (1 <= k)%nat -> w ^ (2 ^ (k - 1)) = - (1) ->
  (0 < d)%nat -> (d mod 2 ^ k <> 0)%nat -> sumn (2 ^ k) (fun j => w ^ (d * j)) = 0.
Proof.
  intros Hk Hw Hd Hm. destruct (odd_part d Hd) as [e [o E]].
  assert (He : (e < k)%nat).
  { destruct (Nat.lt_ge_cases e k) as [|G]; auto. exfalso. apply Hm. rewrite E.
    replace e with (k + (e - k))%nat by lia. rewrite Nat.pow_add_r, <- Nat.mul_assoc, Nat.mul_comm.
    apply Nat.mod_mul. apply Nat.pow_nonzero. lia. }
  rewrite (sumn_ext _ _ _ (fun j => (w ^ d) ^ j)) by (intros; apply fpow_mul).
  apply geo_zero with (s := (k - 1 - e)%nat); [lia|].
  rewrite <- fpow_mul, E.
  replace (2 ^ e * (2 * o + 1) * 2 ^ (k - 1 - e))%nat with (2 ^ (k - 1) * (2 * o + 1))%nat.
  - rewrite fpow_mul, Hw. apply fpow_m1_odd.
  - replace (k - 1)%nat with (e + (k - 1 - e))%nat at 1 by lia. rewrite Nat.pow_add_r. lia.
Qed.

(* inverse transform: sum_j dft_j w^(j i) = 2^k a_i, w = 1/winv *)
Lemma dft_invert k (w winv : K) a i : (1 <= k)%nat -> winv ^ (2 ^ (k - 1)) = - (1) -> w * winv = 1 ->
  length a = (2 ^ k)%nat -> (i < 2 ^ k)%nat ->
  sumn (2 ^ k) (fun j => dft winv a j * w ^ (j * i)) = fnat (2 ^ k) * nth i a 0.
Proof.
  intros Hk Hw Hi La Li.
  assert (W1 : winv ^ (2 ^ k) = 1).
  { assert (E2 : (2 ^ k = 2 ^ (k - 1) + 2 ^ (k - 1))%nat)
      by (destruct k; [lia|]; replace (S k - 1)%nat with k by lia; cbn [Nat.pow]; lia).
    rewrite E2, fpow_add, Hw. ring. }
  (* w^(j i) = winv^(j (2^k - i)) *)
  assert (WI : forall j, w ^ (j * i) = winv ^ ((2 ^ k - i) * j)).
  { intros j.
    assert (P : w ^ (j * i) * winv ^ (j * i) = 1) by (rewrite <- fpow_mul_base, Hi; apply fpow_1_l).
    assert (Q : winv ^ ((2 ^ k - i) * j) * winv ^ (j * i) = 1).
    { rewrite <- fpow_add. replace ((2 ^ k - i) * j + j * i)%nat with (2 ^ k * j)%nat by nia.
      rewrite fpow_mul, W1. apply fpow_1_l. }
    apply (fmul_cancel_r K (winv ^ (j * i))); [|congruence].
    intros Z0. rewrite Z0 in P. apply (f1_neq_0 K). rewrite <- P. ring. }
  unfold dft. rewrite La.
  rewrite (sumn_ext _ _ _ (fun j => sumn (2 ^ k) (fun l => nth l a 0 * winv ^ ((l + (2 ^ k - i)) * j)))).
  2: { intros j _. rewrite WI. rewrite (fmulC _ (winv ^ _)), <- sumn_scal. apply sumn_ext. intros l _.
       rewrite Nat.mul_add_distr_r, fpow_add, (Nat.mul_comm j l). ring. }
  rewrite sumn_swap.
  rewrite (sumn_ext _ _ _ (fun l => nth l a 0 * sumn (2 ^ k) (fun j => winv ^ ((l + (2 ^ k - i)) * j))))
    by (intros l _; now rewrite sumn_scal).
  rewrite (sumn_single _ _ i).
  - rewrite (sumn_ext _ _ _ (fun _ => 1)); [rewrite sumn_const; ring|].
    intros j _. replace (i + (2 ^ k - i))%nat with (2 ^ k)%nat by lia. rewrite fpow_mul, W1. apply fpow_1_l.
  - auto.
  - intros l Hl Nl. rewrite root_sum; auto; [ring|lia|].
    intros M. apply Nat.mod_divides in M; [|lia]. destruct M as [c M].
    assert (c = 0 \/ c = 1 \/ 2 <= c)%nat as [->|[->|C]] by lia; nia.
Qed.

(* the value of ConvertG1/G2 *)
Lemma convert_dft k (winv : K) cpu a :
  (1 <= cpu)%nat -> (k < 64)%nat -> (k = 0%nat \/ winv ^ (2 ^ (k - 1)) = - (1)) -> length a = (2 ^ k)%nat ->
  exists p, convert_prog cpu (mk_domain k winv) (2 ^ k) = Some p /\ confined p 0 (2 ^ k) /\
    convert cpu (mk_domain k winv) a = Some (run p a) /\
    length (run p a) = (2 ^ k)%nat /\
    forall x, (x < 2 ^ k)%nat ->
      nth_error (run p a) x = Some (finv (fnat (2 ^ k)) * dft winv a x).
Proof.
  intros Hc Hk64 Hw La.
  assert (D : exists p, difFFT (2 ^ k) cpu (d_twInv (mk_domain k winv)) (maxSplits_of cpu) 0 (2 ^ k) 0 = Some p /\
     confined p 0 (2 ^ k) /\ exists b, run p a = b /\ is_dft_rev k winv a b).
  { destruct Hw as [->|Hw].
    - exists Skip. split; [reflexivity|]. split; [split; [exact I|simpl; tauto]|]. exists a. split; auto. split; auto.
      intros x Hx. cbn in Hx. assert (x = 0%nat) as -> by lia.
      destruct a as [|a0 [|]]; try discriminate La. cbn. f_equal. ring.
    - destruct (difFFT_spec winv k cpu (maxSplits_of cpu) Hc) with (k := k) (fuel := (2 ^ k)%nat) (stage := 0%nat) (base := 0%nat)
        as [p [E [R H]]]; auto.
      + intros s Hs. unfold maxSplits_of in Hs.
        assert (1 < cpu)%nat by (destruct (Nat.eq_dec cpu 1) as [->|]; [cbn in Hs; lia|lia]).
        assert (2 ^ s <= cpu)%nat.
        { pose proof (Nat.log2_up_spec cpu ltac:(lia)) as [B _].
          apply Nat.le_trans with (2 ^ Nat.pred (Nat.log2_up cpu))%nat; [|lia].
          apply Nat.pow_le_mono_r; lia. }
        apply Nat.div_le_lower_bound; [apply Nat.pow_nonzero; lia|lia].
      + apply Nat.lt_le_incl. apply Nat.pow_gt_lin_r. lia.
      + exists p. split; [auto|]. split; auto.
        destruct (H [] a [] eq_refl La) as [b [Eb Db]]. cbn [app] in Eb. rewrite !app_nil_r in Eb.
        cbn [Nat.pow] in Db. rewrite fpow_1 in Db. eauto. }
  destruct D as [p [Ep [[Rp Fp] [b [Eb [Lb Db]]]]]].
  destruct (@br_prog_spec K k Hk64 cpu Hc) as [RB [FB SB]].
  destruct (par_cells_prog (2 ^ k) cpu (fun _ (x : K) => finv (fnat (2 ^ k)) * x) Hc) as [q [Eq [Rq [Sq Fq]]]].
  exists (Seq p (Seq (br_prog (2 ^ k) cpu) q)).
  assert (CP : convert_prog cpu (mk_domain k winv) (2 ^ k) = Some (Seq p (Seq (br_prog (2 ^ k) cpu) q))).
  { unfold convert_prog. rewrite Ep. unfold scalm. cbn [d_cardInv mk_domain].
    rewrite Eq. reflexivity. }
  split; [auto|]. split.
  { split; [cbn [race_free]; auto|]. cbn [fprint]. intros i [H|[H|H]].
    - apply Fp in H. lia.
    - apply FB in H. lia.
    - apply Fq in H. lia. }
  assert (RUN : run (Seq p (Seq (br_prog (2 ^ k) cpu) q)) a = run q (run (br_prog (2 ^ k) cpu) b))
    by (cbn [run]; now rewrite Eb).
  destruct (SB b Lb) as [L2 H2].
  assert (L3 : length (run q (run (br_prog (2 ^ k) cpu) b)) = (2 ^ k)%nat)
    by (rewrite Sq, mapi_length; auto).
  split.
  - unfold convert. rewrite La, CP, RUN. rewrite par_cells_spec by auto. f_equal.
    apply list_ext. intros j. rewrite nth_error_mapi.
    destruct (Nat.lt_ge_cases j (2 ^ k)) as [Hj|Hj].
    + rewrite (@nth_error_nth_lt _ a j 0) by lia. cbn [option_map].
      rewrite (proj2 (Nat.ltb_lt _ _) Hj). symmetry. apply nth_error_nth_lt. lia.
    + rewrite (proj2 (nth_error_None a j)) by lia. symmetry. apply nth_error_None. lia.
  - rewrite RUN. split; [auto|]. intros x Hx. rewrite Sq, nth_error_mapi.
    replace (nth_error (run (br_prog (2 ^ k) cpu) b) x) with (Some (dft winv a x)).
    + cbn [option_map]. now rewrite (proj2 (Nat.ltb_lt _ _) Hx).
    + rewrite <- (Db x Hx). rewrite <- H2 by apply brev_lt. f_equal. now apply brev_invol.
Qed.

(* ConvertG1/ConvertG2 turn "powers" into "Lagrange": whatever the polynomial, summing its values
   at the roots of unity against the output gives its coefficients against the input. *)
Lemma convert_lagrange k (w winv : K) cpu a :
  (1 <= cpu)%nat -> (k < 64)%nat -> (k = 0%nat \/ winv ^ (2 ^ (k - 1)) = - (1)) -> w * winv = 1 ->
  (fnat (2 ^ k) : K) <> 0 -> length a = (2 ^ k)%nat ->
  exists b, convert cpu (mk_domain k winv) a = Some b /\ length b = (2 ^ k)%nat /\
    forall i, (i < 2 ^ k)%nat -> sumn (2 ^ k) (fun j => nth j b 0 * w ^ (j * i)) = nth i a 0.
Proof.
  intros Hc Hk Hw Hi Hn La.
  destruct (convert_dft k winv cpu a Hc Hk Hw La) as [p [_ [_ [E [Lb H]]]]].
  exists (run p a). split; [auto|]. split; [auto|]. intros i Li.
  rewrite (sumn_ext _ _ _ (fun j => finv (fnat (2 ^ k)) * (dft winv a j * w ^ (j * i)))).
  2: { intros j Hj. rewrite (nth_nth_error _ _ _ ), (H j Hj). ring. }
  rewrite sumn_scal.
  assert (DI : sumn (2 ^ k) (fun j => dft winv a j * w ^ (j * i)) = fnat (2 ^ k) * nth i a 0).
  { destruct Hw as [->|Hw].
    - cbn in Li. assert (i = 0%nat) as -> by lia. destruct a as [|a0 [|]]; try discriminate La.
      cbn. ring.
    - destruct k as [|k]; [|apply dft_invert; auto; lia].
      cbn in Li. assert (i = 0%nat) as -> by lia. destruct a as [|a0 [|]]; try discriminate La.
      cbn. ring. }
  rewrite DI. transitivity (finv (fnat (2 ^ k)) * fnat (2 ^ k) * nth i a 0); [ring|].
  rewrite finv_l by auto. ring.
Qed.
End FFTProof.
