(* Leak.v -- keys for which an honest proof tells about the witness. *)
From Coq Require Import Ring Field String.
From Verif Require Import Base Fld Conc Parallel Poly BitRev FFT IO Ext Spec1 Phase1 Gob GobLemmas Circuit Spec2 Fs Init2 Init2Pure Init2Io Init2Claims Init2More Spec3 Interp Spec4 Groth Keys Phase1Io Phase1Verify Phase1Trans Phase1Facts Phase1Inv
  Phase1Claims Phase2Io Phase2Lemmas Phase2More Phase2Claims KeysLemmas KeysClaims KeysProps Live Spec5 Spec6 Cli Session Spec8 Spec17 Any.
Local Open Scope fld_scope.

Section Leak.
Context {E : Ext2}.
Add Field Elk : (f_th E).
Variables (p k : nat) (cs : r1cs E) (T A Bt : E).
Hypotheses (Hk : 1 <= k <= kmax E) (KP : k <= p) (fits : (length (r_cons cs) <= 2 ^ k)%nat).
Let n := (2 ^ k)%nat.
Variable d : list E.
Hypothesis Ld : length d = n.

Lemma nudge_first : firstn n (alpha1 (nudge n (root k) d (srs_of p T A Bt))) = map (fun i => A * T ^ i + peval d (root k ^ i)) (seq 0 n).
Proof.
  pose proof (Nat.pow_le_mono_r 2 k p ltac:(lia) KP) as HP. fold n in HP.
  unfold nudge. cbn [alpha1 srs_of]. rewrite firstn_app, map_length, seq_length, Nat.sub_diag, firstn_O, app_nil_r, firstn_all2 by (rewrite map_length, seq_length; lia).
  apply map_ext_in. intros i Hi. apply in_seq in Hi. now rewrite nth_map_seq by lia.
Qed.
Lemma nudge_sized : sized p (nudge n (root k) d (srs_of p T A Bt)).
Proof.
  pose proof (Nat.pow_le_mono_r 2 k p ltac:(lia) KP) as HP. fold n in HP.
  destruct (srs_of_sized p T A Bt) as [S1 [S2 [S3 S4]]]. split; [exact S1|]. split; [|split; [exact S3|exact S4]].
  unfold nudge. cbn [alpha1]. rewrite app_length, map_length, seq_length, skipn_length, S2. lia.
Qed.
Lemma nudge_basis t : lag_basis n (root k) (map (fun i => T ^ i) (seq 0 n)) t ->
  lag_basis n (root k) (map (fun i => A * T ^ i + peval d (root k ^ i)) (seq 0 n)) (map (fun j => A * nth j t 0 + nth j d 0) (seq 0 n)).
Proof.
  intros [Lt Ht]. split; [now rewrite map_length, seq_length|]. intros c Lc. specialize (Ht c Lc).
  rewrite (sumn_ext _ n _ (fun j => A * (nth j t 0 * peval c (root k ^ j)) + nth j d 0 * peval c (root k ^ j))).
  2:{ intros j Hj. rewrite nth_map_seq by exact Hj. cbn [Nat.add]. ring. }
  rewrite sumn_add, sumn_scal, Ht, <- sumn_scal.
  rewrite (sumn_ext _ n (fun i => nth i c 0 * _) (fun i => A * (nth i c 0 * nth i (map (fun i => T ^ i) (seq 0 n)) 0) + nth i c 0 * peval d (root k ^ i))).
  2:{ intros i Hi. rewrite !nth_map_seq by exact Hi. cbn [Nat.add]. ring. }
  rewrite sumn_add. f_equal. unfold peval. rewrite Lc, Ld.
  rewrite (sumn_ext _ n _ (fun j => sumn n (fun i => nth j d 0 * (nth i c 0 * (root k ^ j) ^ i)))).
  2:{ intros j _. now rewrite sumn_scal. }
  rewrite sumn_swap. apply sumn_ext. intros i _. rewrite <- sumn_scal. apply sumn_ext. intros j _.
  rewrite <- !fpow_mul, (Nat.mul_comm j i). ring.
Qed.

(* what the right sides of the constraints get for the values of d *)
Definition extra (i : nat) : E := sumn (length (r_cons cs)) (fun j => entry cs (expr cs r_R j) i * nth j d 0).
Lemma nudged_keys D (q : pkey E) (v : vkey E) : fsum d = 0 -> keys_from cs k (root k) (nudge n (root k) d (srs_of p T A Bt)) D q v ->
  exists q0 v0, is_keypair cs k (root k) A Bt D T q0 v0 /\
    q = mkPk (q_alpha q0) (q_beta q0) (q_delta q0) (q_A q0) (q_B q0) (q_Z q0)
      (map (fun i => nth i (q_K q0) 0 + extra (nb_public cs + i) / D) (seq 0 (wires cs - nb_public cs))) (q_beta2 q0) (q_delta2 q0) (q_B2 q0) /\
    v = mkVk (w_alpha v0) (w_beta v0) (w_beta2 v0) (w_delta v0) (w_delta2 v0) (map (fun i => nth i (w_K v0) 0 + extra i) (seq 0 (nb_public cs))) [].
Proof.
  intros S0 [t [a [b [t2 [z [Bt1 [Ba [Bb [Bt2 [Hz [-> ->]]]]]]]]]]].
  destruct (root_conds k Hk) as [Rt Ch]. pose proof (Nat.pow_le_mono_r 2 k p ltac:(lia) KP) as HP. pose proof (pow2_pos k) as P1. fold n in HP, P1, Bt1, Ba, Bb, Bt2.
  rewrite nudge_first in Ba. unfold nudge in *. cbn [srs_of tau1 beta1 tau2 beta2] in *.
  rewrite firstn_map_seq in Bt1, Bb, Bt2 by lia.
  assert (t2 = t) by exact (lag_basis_unique k (root k) (proj1 Hk) Rt Ch _ _ _ Bt2 Bt1). subst t2.
  assert (a = map (fun j => A * nth j t 0 + nth j d 0) (seq 0 n)) by exact (lag_basis_unique k (root k) (proj1 Hk) Rt Ch _ _ _ Ba (nudge_basis t Bt1)). subst a.
  assert (b = map (fun y => Bt * y) t).
  { refine (lag_basis_unique k (root k) (proj1 Hk) Rt Ch _ _ _ Bb _).
    replace (map (fun i => Bt * T ^ i) (seq 0 n)) with (map (fun y => Bt * y) (map (fun i => T ^ i) (seq 0 n))) by (now rewrite map_map).
    apply (lag_basis_scale k (root k) (proj1 Hk)); [now rewrite map_length, seq_length|exact Bt1]. }
  subst b.
  assert (LA : forall i, Lat cs t (map (fun j => A * nth j t 0 + nth j d 0) (seq 0 n)) (map (fun y => Bt * y) t) i = kat cs A Bt t i + extra i).
  { intros i. unfold Lat, kat. rewrite col_scale by (rewrite (proj1 Bt1); exact fits).
    assert (X : col cs r_R (map (fun j => A * nth j t 0 + nth j d 0) (seq 0 n)) i = A * col cs r_R t i + extra i).
    { unfold col, extra. rewrite <- sumn_scal, <- sumn_add. apply sumn_ext. intros j Hj. rewrite nth_map_seq by (unfold n; lia). cbn [Nat.add]. ring. }
    rewrite X. ring. }
  assert (N0 : nth 0 (map (fun i => nth i (map (fun i0 => A * T ^ i0) (seq 0 (2 ^ p))) 0 + peval d (root k ^ i)) (seq 0 n) ++ skipn n (map (fun i => A * T ^ i) (seq 0 (2 ^ p)))) 0 = A).
  { rewrite app_nth1 by (rewrite map_length, seq_length; lia). rewrite !nth_map_seq by lia. cbn [fpow Nat.add].
    assert (X : peval d 1 = fsum d).
    { unfold peval, sumn. rewrite (map_ext _ (fun i => nth i d 0)); [|intros i; rewrite fpow_1_l; ring]. f_equal. apply nth_ext with (d := 0) (d' := 0); rewrite map_length, seq_length; [reflexivity|].
      intros i Hi. now rewrite nth_map_seq. }
    rewrite X, S0. ring. }
  assert (N1 : nth 0 (map (fun i => Bt * T ^ i) (seq 0 (2 ^ p))) 0 = Bt) by (rewrite nth_map_seq by lia; cbn [fpow Nat.add]; ring).
  cbn [alpha1 srs_of beta1]. rewrite N0, N1.
  exists (mkPk A Bt D (cols cs r_L t) (cols cs r_R t) (map (fun x => x / D) z) (map (fun i => kat cs A Bt t i / D) (seq (nb_public cs) (wires cs - nb_public cs))) Bt D (cols cs r_R t)),
    (mkVk A Bt Bt D D (map (kat cs A Bt t) (seq 0 (nb_public cs))) []). split.
  - exists t. split; [exact (lag_basis_values k (root k) T t Bt1)|].
    cbn [q_alpha q_beta q_delta q_A q_B q_Z q_K q_beta2 q_delta2 q_B2 w_alpha w_beta w_beta2 w_delta w_delta2 w_K w_ck].
    do 9 (split; [reflexivity|]).
    assert (Hz' := Hz). change (map (fun i : nat => T ^ i) (seq 0 (2 * 2 ^ p - 1))) with (pows (2 * 2 ^ p - 1) T) in Hz'.
    destruct (is_z_pows k p T z KP Hz') as [LZ ZZ].
    split; [now rewrite map_length|]. split; [|repeat split].
    intros i r Hi Hr. rewrite nth_error_map, (ZZ i r Hi Hr). cbn [option_map]. f_equal. f_equal. rewrite fpow_add. ring.
  - cbn [q_alpha q_beta q_delta q_A q_B q_Z q_K q_beta2 q_delta2 q_B2 w_alpha w_beta w_beta2 w_delta w_delta2 w_K w_ck]. split; f_equal.
    + apply nth_ext with (d := 0) (d' := 0); rewrite !map_length, !seq_length; [reflexivity|]. intros i Hi.
      rewrite !nth_map_seq by exact Hi. cbn [Nat.add]. rewrite LA, <- !inv_div. ring.
    + apply map_ext_in. intros i Hi. apply in_seq in Hi. rewrite nth_map_seq by lia. apply LA.
Qed.

Lemma extra_sum x : sumn (wires cs) (fun i => x i * extra i) = sumn (length (r_cons cs)) (fun j => nth j d 0 * lin cs x (expr cs r_R j)).
Proof.
  unfold extra, lin. rewrite (sumn_ext _ (wires cs) _ (fun i => sumn (length (r_cons cs)) (fun j => nth j d 0 * (entry cs (expr cs r_R j) i * x i)))).
  - rewrite sumn_swap. apply sumn_ext. intros j _. now rewrite sumn_scal.
  - intros i _. rewrite <- sumn_scal. apply sumn_ext. intros j _. ring.
Qed.
Lemma leak D (q : pkey E) (v : vkey E) : D <> 0 -> fsum d = 0 -> keys_from cs k (root k) (nudge n (root k) d (srs_of p T A Bt)) D q v ->
  forall x h r s ar bs krs, quotient cs x n (root k) h -> proves q cs k x h r s ar bs krs ->
  ar * bs = w_alpha v * w_beta2 v + public_sum v cs x * 1 + krs * w_delta2 v - sumn (length (r_cons cs)) (fun j => nth j d 0 * lin cs x (expr cs r_R j)).
Proof.
  intros DN S0 KF x h r s ar bs krs HQ [hz [HZ [P1 [P2 P3]]]]. destruct (root_conds k Hk) as [Rt Ch].
  destruct (nudged_keys D q v S0 KF) as [q0 [v0 [KP0 [-> ->]]]].
  cbn [q_alpha q_beta q_delta q_A q_B q_Z q_K q_beta2 q_delta2 q_B2 w_alpha w_beta w_beta2 w_delta w_delta2 w_K w_ck] in *. cbv zeta in P3.
  set (np := nb_public cs) in *. assert (NP : (np <= wires cs)%nat) by (unfold wires, np; lia).
  assert (W5 : w_delta2 v0 = D) by (destruct KP0 as [t [_ [_ [_ [_ [_ [_ [_ [_ [_ [_ [_ [_ [_ [_ [_ [_ [W5 _]]]]]]]]]]]]]]]]]]; exact W5).
  assert (P : proves q0 cs k x h r s ar bs (krs - sumn (wires cs - np) (fun i => x (np + i)%nat * (extra (np + i) / D)))).
  { exists hz. split; [exact HZ|]. split; [exact P1|]. split; [exact P2|]. cbv zeta. fold np.
    rewrite (sumn_ext _ (wires cs - np) (fun i => _ * nth i (map _ _) 0) (fun i => x (np + i)%nat * nth i (q_K q0) 0 + x (np + i)%nat * (extra (np + i) / D))) in P3.
    2:{ intros i Hi. rewrite nth_map_seq by exact Hi. cbn [Nat.add]. ring. }
    rewrite sumn_add in P3. rewrite P3. ring. }
  pose proof (complete k (root k) (proj1 Hk) Rt Ch cs x fits A Bt D T q0 v0 h r s ar bs _ DN KP0 HQ P) as AC.
  unfold accepts in AC. fold np in AC. rewrite AC. unfold public_sum. cbn [w_K]. fold np.
  rewrite (sumn_ext _ np (fun i => _ * nth i (map _ _) 0) (fun i => x i * nth i (w_K v0) 0 + x i * extra i)).
  2:{ intros i Hi. rewrite nth_map_seq by exact Hi. cbn [Nat.add]. ring. }
  rewrite sumn_add, <- extra_sum. replace (wires cs) with (np + (wires cs - np))%nat at 2 by lia. rewrite sumn_split, W5.
  assert (X : sumn (wires cs - np) (fun i => x (np + i)%nat * (extra (np + i) / D)) * D = sumn (wires cs - np) (fun i => x (np + i)%nat * extra (np + i))).
  { transitivity (D * sumn (wires cs - np) (fun i => x (np + i)%nat * (extra (np + i) / D))); [ring|]. rewrite <- sumn_scal. apply sumn_ext. intros i _. field. exact DN. }
  rewrite <- X. ring.
Qed.
End Leak.

Section Against.
Context {E : Ext2}.
Add Field Eag : (f_th E).
Lemma pick_one n j (g : nat -> E) : (j < n)%nat -> sumn n (fun m => (if (m =? j)%nat then 1 else 0) * g m) = g j.
Proof.
  intros Hj. rewrite (sumn_single _ n j); [rewrite Nat.eqb_refl; ring|exact Hj|]. intros m _ N. destruct (Nat.eqb_spec m j); [congruence|ring].
Qed.
Lemma against_zero n i j : (i < n)%nat -> (j < n)%nat -> fsum (against (E := E) n i j) = 0.
Proof.
  intros Hi Hj. change (sumn n (fun m => ((if (m =? i)%nat then 1 else 0) - (if (m =? j)%nat then 1 else 0)) : E) = 0). rewrite sumn_sub.
  rewrite (sumn_ext _ n (fun m => if (m =? i)%nat then 1 else 0) (fun m => (if (m =? i)%nat then 1 else 0) * 1)) by (intros; ring).
  rewrite (sumn_ext _ n (fun m => if (m =? j)%nat then 1 else 0) (fun m => (if (m =? j)%nat then 1 else 0) * 1)) by (intros; ring).
  rewrite !pick_one by assumption. ring.
Qed.
Lemma against_dot n m i j (g : nat -> E) : (i < n)%nat -> (j < n)%nat -> (m <= n)%nat -> (forall l, (m <= l)%nat -> g l = 0) ->
  sumn m (fun l => nth l (against n i j) 0 * g l) = g i - g j.
Proof.
  intros Hi Hj Hm Z. transitivity (sumn n (fun l => nth l (against n i j) 0 * g l)).
  - assert (X : forall f : nat -> E, sumn n f = sumn m f + sumn (n - m) (fun i => f (m + i)%nat)) by (intros f; rewrite <- sumn_split; f_equal; lia).
    rewrite X, (sumn_zero _ (n - m)); [ring|]. intros l _. rewrite Z by lia. ring.
  - rewrite (sumn_ext _ n _ (fun l => (if (l =? i)%nat then 1 else 0) * g l - (if (l =? j)%nat then 1 else 0) * g l)).
    + rewrite sumn_sub, !pick_one by assumption. reflexivity.
    + intros l Hl. unfold against. rewrite nth_map_seq by exact Hl. cbn [Nat.add]. ring.
Qed.
End Against.

Section LeakSession.
Context {E : Ext2}.
Add Field Els : (f_th E).
Lemma prod_nz (l : list E) : (forall x, In x l -> x <> 0) -> prodl l <> 0.
Proof.
  induction l as [|a l IH]; intros H; [exact (F_1_neq_0 (f_th E))|].
  intros X. change (a * prodl l = 0) in X. apply fmul_0_iff in X. destruct X as [X|X]; [exact (H a (or_introl eq_refl) X)|].
  apply IH; [|exact X]. intros y I. apply H. now right.
Qed.
Lemma leak_session bs (v0 v1 vn vv vk : inv E) vs1 vs2 s p p0 ps1 r1 p2 ps2 (cs : r1cs E) rb k f :
  let P1 := last ps1 p0 in let PZ := last ps2 p2 in
  mexp_strict E -> 2 <= bs -> 1 <= p <= 26 -> numeral s (Z.of_nat p) ->
  p0 <> EmptyString -> moves p0 ps1 -> length ps1 = length vs1 -> vs1 <> [] -> length vs1 <= N.to_nat 65535 ->
  f r1 = Some rb -> parse_r1cs rb = Some cs -> ~ In r1 (p0 :: ps1) -> names_ok P1 r1 p2 ->
  circuit_ok cs -> length (r_cons cs) <= 2 ^ p -> is_dom (length (r_cons cs)) k -> k <= kmax E -> no_cmt cs ->
  (N.of_nat (wires cs) < 4294967296)%N ->
  moves p2 ps2 -> ~ In p2 ps2 -> ~ In evals_path ps2 -> length ps2 = length vs2 -> vs2 <> [] ->
  (Z.of_nat (length vs2) < 9223372036854775808)%Z -> aligned cs k (length vs2) -> (forall v, In v vs2 -> v_d v <> 0) ->
  PZ <> pk_path -> PZ <> vk_path ->
  exists hs1 f1 S l, length hs1 = length vs1 /\
    session no_limit bs (mkLine v0 "p1n" [s; p0] :: chain "p1c" vs1 p0 ps1) f = (Ok [] :: map (fun h => Ok [h]) hs1, f1) /\
    f1 P1 = Some (file1 p S l) /\ sized p S /\
    forall d, length d = (2 ^ k)%nat -> fsum d = 0 -> exists hs2 f' q w, length hs2 = length vs2 /\
      session no_limit bs
        (mkLine v1 "p1v" [P1] :: mkLine vn "p2n" [P1; r1; p2] :: chain "p2c" vs2 p2 ps2 ++ [mkLine vv "p2v" [PZ; p2]; mkLine vk "key" [PZ]])
        (fset f1 P1 (file1 p (nudge (2 ^ k) (root k) d S) l)) =
        (Ok hs1 :: Ok [] :: map (fun h => Ok [h]) hs2 ++ [Ok hs2; Ok []], f') /\
      f' pk_path = Some (pk_bytes k (N.of_nat (wires cs)) q) /\
      f' vk_path = Some (vk_bytes (ped (e := E) (v_g vk) (v_sg vk) []) (empty_info (E := E)) w) /\
      forall x h r t ar br krs, quotient cs x (2 ^ k) (root k) h -> proves q cs k x h r t ar br krs ->
        ar * br = w_alpha w * w_beta2 w + public_sum w cs x * 1 + krs * w_delta2 w - sumn (length (r_cons cs)) (fun j => nth j d 0 * lin cs x (expr cs r_R j)).
Proof.
  intros P1 PZ MS B P Nu NE M1 L1 NV1 LE1 HR PR NR NO CO LC KD KM NC HW M2 I2 IE L2 NV2 LE2 AL NZ NP NK.
  destruct (any_session bs v0 v1 vn vv vk vs1 vs2 s p p0 ps1 r1 p2 ps2 cs rb k f MS B P Nu NE M1 L1 NV1 LE1 HR PR NR NO CO LC KD KM NC HW M2 I2 IE L2 NV2 LE2 AL NZ NP NK)
    as [hs1 [f1 [S [l [LH [S1 [H1 [SE X]]]]]]]].
  pose proof KD as [K1 [K2 K3]]. assert (KP : (k <= p)%nat) by (apply K3; [lia|exact LC]).
  exists hs1, f1, S, l. split; [exact LH|]. split; [exact S1|]. split; [exact H1|]. split; [rewrite SE; apply srs_of_sized|]. intros d Ld Sd. rewrite SE in X |- *.
  destruct (X _ (nudge_sized p k cs (prodl (map (fun v => r_tau (v_w v)) vs1)) (prodl (map (fun v => r_alpha (v_w v)) vs1)) (prodl (map (fun v => r_beta (v_w v)) vs1)) (conj K1 KM) KP K2 d Ld) eq_refl) as [hs2 [f' [q [w [LH2 [S2 [W1 [W2 KF]]]]]]]].
  exists hs2, f', q, w. split; [exact LH2|]. split; [exact S2|]. split; [exact W1|]. split; [exact W2|].
  refine (leak p k cs _ _ _ (conj K1 KM) KP K2 d Ld _ q w _ Sd KF). apply prod_nz. intros y I. apply in_map_iff in I as [v [<- I]]. exact (NZ v I).
Qed.
Lemma compare_session bs (v0 v1 vn vv vk : inv E) vs1 vs2 s p p0 ps1 r1 p2 ps2 (cs : r1cs E) rb k f :
  let P1 := last ps1 p0 in let PZ := last ps2 p2 in
  mexp_strict E -> 2 <= bs -> 1 <= p <= 26 -> numeral s (Z.of_nat p) ->
  p0 <> EmptyString -> moves p0 ps1 -> length ps1 = length vs1 -> vs1 <> [] -> length vs1 <= N.to_nat 65535 ->
  f r1 = Some rb -> parse_r1cs rb = Some cs -> ~ In r1 (p0 :: ps1) -> names_ok P1 r1 p2 ->
  circuit_ok cs -> length (r_cons cs) <= 2 ^ p -> is_dom (length (r_cons cs)) k -> k <= kmax E -> no_cmt cs ->
  (N.of_nat (wires cs) < 4294967296)%N ->
  moves p2 ps2 -> ~ In p2 ps2 -> ~ In evals_path ps2 -> length ps2 = length vs2 -> vs2 <> [] ->
  (Z.of_nat (length vs2) < 9223372036854775808)%Z -> aligned cs k (length vs2) -> (forall v, In v vs2 -> v_d v <> 0) ->
  PZ <> pk_path -> PZ <> vk_path ->
  exists hs1 f1 S l, length hs1 = length vs1 /\
    session no_limit bs (mkLine v0 "p1n" [s; p0] :: chain "p1c" vs1 p0 ps1) f = (Ok [] :: map (fun h => Ok [h]) hs1, f1) /\
    f1 P1 = Some (file1 p S l) /\ sized p S /\
    forall i j, (i < 2 ^ k)%nat -> (j < 2 ^ k)%nat -> exists hs2 f' q w, length hs2 = length vs2 /\
      session no_limit bs
        (mkLine v1 "p1v" [P1] :: mkLine vn "p2n" [P1; r1; p2] :: chain "p2c" vs2 p2 ps2 ++ [mkLine vv "p2v" [PZ; p2]; mkLine vk "key" [PZ]])
        (fset f1 P1 (file1 p (nudge (2 ^ k) (root (e := E) k) (against (2 ^ k) i j) S) l)) =
        (Ok hs1 :: Ok [] :: map (fun h => Ok [h]) hs2 ++ [Ok hs2; Ok []], f') /\
      f' pk_path = Some (pk_bytes k (N.of_nat (wires cs)) q) /\
      f' vk_path = Some (vk_bytes (ped (e := E) (v_g vk) (v_sg vk) []) (empty_info (E := E)) w) /\
      forall x h r t ar br krs, quotient cs x (2 ^ k) (root k) h -> proves q cs k x h r t ar br krs ->
        (accepts w cs x ar br krs <-> lin cs x (expr cs r_R i) = lin cs x (expr cs r_R j)).
Proof.
  intros P1 PZ MS B P Nu NE M1 L1 NV1 LE1 HR PR NR NO CO LC KD KM NC HW M2 I2 IE L2 NV2 LE2 AL NZ NP NK.
  destruct (leak_session bs v0 v1 vn vv vk vs1 vs2 s p p0 ps1 r1 p2 ps2 cs rb k f MS B P Nu NE M1 L1 NV1 LE1 HR PR NR NO CO LC KD KM NC HW M2 I2 IE L2 NV2 LE2 AL NZ NP NK)
    as [hs1 [f1 [S [l [LH [S1 [H1 [SZ X]]]]]]]].
  exists hs1, f1, S, l. split; [exact LH|]. split; [exact S1|]. split; [exact H1|]. split; [exact SZ|]. intros i j Hi Hj.
  destruct (X (against (2 ^ k) i j) ltac:(unfold against; now rewrite map_length, seq_length) (against_zero _ i j Hi Hj)) as [hs2 [f' [q [w [LH2 [S2 [W1 [W2 K]]]]]]]].
  exists hs2, f', q, w. split; [exact LH2|]. split; [exact S2|]. split; [exact W1|]. split; [exact W2|].
  intros x h r t ar br krs HQ PR'. specialize (K x h r t ar br krs HQ PR'). destruct KD as [K1 [K2 K3]].
  rewrite (against_dot (2 ^ k) _ i j (fun l => lin cs x (expr cs r_R l)) Hi Hj K2) in K.
  2:{ intros m Hm. apply lin_nil; [exact Hm|reflexivity]. }
  unfold accepts, public_sum in *. rewrite K. split.
  - intros Y. match type of Y with ?a - (?u - ?v) = ?c => transitivity (a - (a - (u - v)) + v); [ring|rewrite Y; ring] end.
  - intros ->. ring.
Qed.
End LeakSession.
