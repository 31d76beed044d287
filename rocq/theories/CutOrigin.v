(* CutOrigin.v -- p2v against an origin that ends early. *)
From Coq Require Import Ring Field.
From Verif Require Import Base Fld Conc Parallel IO Ext Spec1 Phase1 Phase1Io Phase1Verify Phase1Trans Phase1Facts Phase1Inv Phase1Claims Gob GobLemmas Circuit Spec2 Phase2 Phase2Io Phase2Lemmas Phase2Claims Phase2More Spec27 Torn Spec30 Spec31 V2Iff.
Local Open Scope fld_scope.

Section C.
Context {E : Ext2}.
Add Field Kfld32 : (f_th E).
Lemma run_all (b : bytes) (l : list E) t : are1 b l -> run1 (length l) (b ++ t) l true t.
Proof.
  intros A. induction A as [|b x bs l I A IH]; [constructor|]. rewrite <- app_assoc. cbn [length]. now constructor.
Qed.
Lemma run_cut : forall (zs : list E) j, j < 32 * length zs -> exists l : list E, run1 (length zs) (firstn j (flat_map g1c zs)) l false [].
Proof.
  induction zs as [|z zs IH]; intros j L; cbn [length flat_map] in *; [lia|].
  rewrite firstn_app, g1c_len. destruct (Nat.lt_ge_cases j 32) as [J|J].
  - exists []. apply run_short. left. rewrite app_length, !firstn_length, g1c_len. cbn. lia.
  - rewrite (firstn_all2 (g1c z)) by (rewrite g1c_len; lia). destruct (IH (j - 32)%nat ltac:(lia)) as [l R]. exists (z :: l).
    constructor; [apply is1_c|exact R].
Qed.
Lemma run_none n : 1 <= n -> run1 (E := E) n [] [] false [].
Proof. intros N. destruct n as [|n]; [lia|]. apply run_short. left. cbn. lia. Qed.
Lemma cmp_cut bs (rho : nat -> nat -> E) (b : bytes) (l : list E) t v (k : list E) v' : length l <= bs -> 1 <= length l -> are1 b l ->
  run1 (length l) v k false v' -> compared bs rho (length l) (b ++ t) v None t v'.
Proof.
  intros B N A R. destruct (length l) as [|m] eqn:L; [lia|]. pose proof (run_all b l t A) as Q. rewrite L in Q.
  eapply cmp_right; rewrite Nat.min_l by lia; [exact Q|exact R].
Qed.
Lemma cmp_whole bs (rho : nat -> nat -> E) (b : bytes) (l : list E) t c (k : list E) v : length l <= bs -> length k = length l -> are1 b l -> are1 c k ->
  exists x y, compared bs rho (length l) (b ++ t) (c ++ v) (Some (x, y)) t v /\
    (forall d g, (forall i, (i < length l)%nat -> nth i l 0 * d = nth i k 0 * g) -> x * d = y * g).
Proof.
  intros B K A C. pose proof (run_all b l t A) as Q. pose proof (run_all c k v C) as Q'. rewrite K in Q'.
  destruct (length l) as [|m] eqn:L.
  - destruct l; [|discriminate]. destruct k; [|discriminate]. inversion A; inversion C; subst. exists 0, 0. split; [constructor|intros; ring].
  - set (w := weights (rho (S m)) (S m)). exists (dot l w + 0), (dot k w + 0). split.
    + change (Some (dot l w + 0, dot k w + 0)) with (both (dot l w) (dot k w) (Some (0, 0))). unfold w.
      assert (M : Nat.min (S m) bs = S m) by lia. rewrite <- M at 3. rewrite <- M at 5.
      eapply cmp_batch; rewrite M; [exact Q|exact Q'|]. rewrite Nat.sub_diag. constructor.
    + intros d g H. assert (Z : forall (l k w : list E), length k = length l -> (forall i, (i < length l)%nat -> nth i l 0 * d = nth i k 0 * g) -> dot l w * d = dot k w * g).
      { clear. induction l as [|x l IH]; intros [|y k] w L H; try discriminate; [destruct w; cbn; ring|]. destruct w as [|z w]; [cbn; ring|]. rewrite !dot_cons.
        pose proof (H 0%nat ltac:(cbn; lia)) as H0. cbn [nth] in H0. specialize (IH k w ltac:(cbn in L; lia)).
        rewrite (ltac:(ring) : (x * z + dot l w) * d = (x * d) * z + dot l w * d), IH, H0; [ring|]. intros i Hi. apply (H (S i)). cbn. lia. }
      rewrite (ltac:(ring) : (dot l w + 0) * d = dot l w * d), (ltac:(ring) : (dot k w + 0) * g = dot k w * g). apply Z; [congruence|]. rewrite L. exact H.
Qed.

(* sections of any length *)
Lemma are1_split (b : bytes) (l : list E) n : are1 b l -> exists b1 b2, b = b1 ++ b2 /\ are1 b1 (firstn n l) /\ are1 b2 (skipn n l).
Proof. intros A. rewrite <- (firstn_skipn n l) in A. apply parses_app_inv in A. exact A. Qed.
Lemma flat_len : forall zs : list E, length (flat_map g1c zs) = (32 * length zs)%nat.
Proof. induction zs as [|z zs IH]; [reflexivity|]. cbn [flat_map length]. rewrite app_length, g1c_len, IH. lia. Qed.
Lemma flat_are : forall zs : list E, are1 (flat_map g1c zs) zs.
Proof. induction zs as [|z zs IH]; cbn [flat_map]; constructor; [apply is1_c|exact IH]. Qed.
Lemma batch_step bs (rho : nat -> nat -> E) (b1 b2 : bytes) (l : list E) t c1 (k : list E) v o u2 v2 : 1 <= bs -> bs < length l ->
  are1 b1 (firstn bs l) -> are1 c1 k -> length k = bs ->
  compared bs rho (length (skipn bs l)) (b2 ++ t) v o u2 v2 ->
  compared bs rho (length l) ((b1 ++ b2) ++ t) (c1 ++ v) (both (dot (firstn bs l) (weights (rho (length l)) bs)) (dot k (weights (rho (length l)) bs)) o) u2 v2.
Proof.
  intros B L A C K R. pose proof (run_all b1 _ (b2 ++ t) A) as Q. pose proof (run_all c1 k v C) as Q'.
  rewrite firstn_length_le in Q by lia. rewrite K in Q'. rewrite skipn_length in R.
  destruct (length l) as [|m] eqn:EL; [lia|]. assert (M : Nat.min (S m) bs = bs) by lia.
  rewrite <- app_assoc. pose proof (cmp_batch bs rho m (b1 ++ b2 ++ t) (c1 ++ v) (firstn bs l) k (b2 ++ t) v o u2 v2) as P. cbv zeta in P. rewrite M in P. exact (P Q Q' R).
Qed.
Lemma cmp_cut_last bs (rho : nat -> nat -> E) t : 1 <= bs -> forall m (b : bytes) (l zs : list E) j, are1 b l -> length zs = length l ->
  32 * (m * bs) <= j < 32 * length zs -> length l <= (m + 1) * bs ->
  compared bs rho (length l) (b ++ t) (firstn j (flat_map g1c zs)) None t [].
Proof.
  intros B. induction m as [|m IH]; intros b l zs j A Z J L.
  - destruct (run_cut zs j ltac:(lia)) as [k R]. rewrite Z in R. eapply cmp_cut; [lia|lia|exact A|exact R].
  - destruct (are1_split b l bs A) as [b1 [b2 [-> [A1 A2]]]]. assert (BL : bs < length l) by nia.
    assert (LS : length (skipn bs zs) = length (skipn bs l)) by (rewrite !skipn_length; lia).
    specialize (IH b2 (skipn bs l) (skipn bs zs) (j - 32 * bs)%nat A2 LS).
    assert (FS : length (firstn bs zs) = bs) by (apply firstn_length_le; lia).
    replace (firstn j (flat_map g1c zs)) with (flat_map g1c (firstn bs zs) ++ firstn (j - 32 * bs) (flat_map g1c (skipn bs zs))).
    + apply (batch_step bs rho b1 b2 l t _ (firstn bs zs) _ None); auto; [apply flat_are|]. apply IH; rewrite ?skipn_length; nia.
    + rewrite <- (firstn_skipn bs zs) at 3. rewrite flat_map_app, firstn_app, flat_len, FS, (firstn_all2 (flat_map g1c (firstn bs zs))); [reflexivity|].
      rewrite flat_len, FS. nia.
Qed.
Lemma dot_ratio (d g : E) : forall (l k w : list E), length k = length l -> (forall i, (i < length l)%nat -> nth i l 0 * d = nth i k 0 * g) -> dot l w * d = dot k w * g.
Proof.
  induction l as [|x l IH]; intros [|y k] w L H; try discriminate; [destruct w; cbn; ring|]. destruct w as [|z w]; [cbn; ring|]. rewrite !dot_cons.
  pose proof (H 0%nat ltac:(cbn; lia)) as H0. cbn [nth] in H0. specialize (IH k w ltac:(cbn in L; lia)).
  rewrite (ltac:(ring) : (x * z + dot l w) * d = (x * d) * z + dot l w * d), IH, H0; [ring|]. intros i Hi. apply (H (S i)). cbn. lia.
Qed.
Lemma nth_skip : forall n (l : list E) i, nth i (skipn n l) 0 = nth (n + i) l 0.
Proof. induction n as [|n IH]; intros [|x l] i; cbn [skipn Nat.add nth]; auto. now destruct i. Qed.
Lemma nth_first : forall n (l : list E) i, i < n -> nth i (firstn n l) 0 = nth i l 0.
Proof. induction n as [|n IH]; intros [|x l] [|i] H; cbn [firstn nth]; auto; try lia. apply IH. lia. Qed.
Lemma cmp_all bs (rho : nat -> nat -> E) t v : 1 <= bs -> forall n (b c : bytes) (l k : list E), length l <= n -> length k = length l -> are1 b l -> are1 c k ->
  exists x y, compared bs rho (length l) (b ++ t) (c ++ v) (Some (x, y)) t v /\
    (forall d g, (forall i, (i < length l)%nat -> nth i l 0 * d = nth i k 0 * g) -> x * d = y * g).
Proof.
  intros B. induction n as [|n IH]; intros b c l k L K A C; [apply cmp_whole; auto; lia|].
  destruct (Nat.le_gt_cases (length l) bs) as [S|S]; [apply cmp_whole; auto|].
  destruct (are1_split b l bs A) as [b1 [b2 [-> [A1 A2]]]]. destruct (are1_split c k bs C) as [c1 [c2 [-> [C1 C2]]]].
  destruct (IH b2 c2 (skipn bs l) (skipn bs k) ltac:(rewrite skipn_length; lia) ltac:(rewrite !skipn_length; lia) A2 C2) as [x [y [R XY]]].
  assert (FK : length (firstn bs k) = bs) by (apply firstn_length_le; lia).
  eexists _, _. split.
  - rewrite <- (app_assoc c1). apply (batch_step bs rho b1 b2 l t c1 (firstn bs k) (c2 ++ v) (Some (x, y))); auto.
  - intros d g H. rewrite (ltac:(intros; ring) : forall p q r : E, (p + q) * r = p * r + q * r).
    rewrite (dot_ratio d g (firstn bs l) (firstn bs k)).
    + rewrite (XY d g); [ring|]. intros i Hi. rewrite skipn_length in Hi. rewrite !nth_skip. apply H. lia.
    + rewrite !firstn_length. lia.
    + intros i Hi. rewrite firstn_length in Hi. rewrite !nth_first by lia. apply H. lia.
Qed.

(* an origin that ends inside Z *)
Lemma cut_in_Z bs (rho : nat -> nat -> nat -> E) h n0 (q qo : par2 E) f l lo k m : hdr_ok h -> int64 n0 -> is_file2 f h q l -> l <> [] ->
  sized2 h qo -> length (p_Z q) <= (m + 1) * bs -> length (p_K q) <= bs -> 1 <= bs ->
  p_d1 qo * p_d2 q = p_d1 q * p_d2 qo -> linked2 (p_d1 qo) [] l -> last (map d_delta l) 0 = p_d1 q ->
  let g := gob_hdr (set_contribs h n0) in
  length g + 96 + 32 * (m * bs) <= k < length g + 96 + 32 * length (p_Z qo) ->
  exec (verify2 bs rho) f (firstn k (file2 (set_contribs h n0) qo lo)) = (Ok (map d_hash l), []).
Proof.
  intros HO N0 [pb [rb [junk [-> [[b1 [b2 [b3 [b4 [-> [I1 [I2 [A3 A4]]]]]]]] [[SZ SK] [HC RA]]]]]]] NE [SZ' SK'] BZ BK B SR LK LD g K.
  assert (HO' : hdr_ok (set_contribs h n0)) by now apply hdr_ok_set.
  unfold file2, head2, par2_bytes, enc1. fold g. rewrite <- !app_assoc.
  rewrite firstn_app, (firstn_all2 g) by lia. rewrite firstn_app, g1c_len, (firstn_all2 (g1c _)) by (rewrite g1c_len; lia).
  rewrite firstn_app, g2c_len, (firstn_all2 (g2c _)) by (rewrite g2c_len; lia).
  set (j := (k - length g - 32 - 64)%nat).
  assert (FL : length (flat_map g1c (p_Z qo)) = (32 * length (p_Z qo))%nat).
  { generalize (p_Z qo). induction l0 as [|z zs IH]; [reflexivity|]. cbn [flat_map length]. rewrite app_length, g1c_len, IH. lia. }
  rewrite firstn_app, FL. replace (j - 32 * length (p_Z qo))%nat with 0%nat by lia. rewrite firstn_O, app_nil_r.
  assert (LZ : length (p_Z qo) = length (p_Z q)) by lia.
  apply v2_if; [exact B|exact HO|exact HO'|].
  split. { rewrite HC. destruct l; [contradiction|]. cbn [length]. lia. }
  split; [now destruct h|]. split; [lia|]. split; [lia|].
  exists b1, b2, (b3 ++ b4 ++ rb ++ junk), (p_d1 q), (p_d2 q), (g1c (p_d1 qo)), (g2c (p_d2 qo)), (firstn j (flat_map g1c (p_Z qo))), (p_d1 qo), (p_d2 qo).
  split; [reflexivity|]. split; [exact I1|]. split; [exact I2|]. split; [reflexivity|]. split; [apply is1_c|]. split; [apply is2_c|]. split; [exact SR|].
  assert (C2 : exists o2, compared bs (rho 1%nat) (length (p_K q)) (b4 ++ rb ++ junk) [] o2 (rb ++ junk) [] /\ agrees (p_d2 q) (p_d2 qo) o2).
  { destruct (p_K q) as [|y ys] eqn:PK.
    - inversion A4; subst. exists (Some (0, 0)). split; [constructor|]. cbn [agrees]. ring.
    - rewrite <- PK in *. exists None. split; [|exact I]. eapply cmp_cut; [exact BK|rewrite PK; cbn; lia|exact A4|]. apply run_none. rewrite PK. cbn. lia. }
  destruct C2 as [o2 [C2 G2]].
  exists None, (b4 ++ rb ++ junk), [], o2, (rb ++ junk), [], l.
  replace (Z.to_nat (h_domain h - 1)) with (length (p_Z q)) by lia. replace (Z.to_nat (h_witness h)) with (length (p_K q)) by lia.
  split; [apply (cmp_cut_last bs (rho 0%nat) _ B m); [exact A3|exact LZ|lia|exact BZ]|]. split; [exact I|]. split; [exact C2|]. split; [exact G2|].
  split; [lia|]. split; [|split; [exact LK|split; [exact LD|reflexivity]]].
  rewrite !app_length in *. match type of RA with recs2_at ?a _ _ => match goal with |- seen2 ?c _ _ => replace c with a by lia end end.
  now apply readable_seen.
Qed.
(* an origin that ends inside PKK *)
Lemma cut_in_K bs (rho : nat -> nat -> nat -> E) h n0 (q qo : par2 E) f l lo k m : hdr_ok h -> int64 n0 -> is_file2 f h q l -> l <> [] ->
  sized2 h qo -> length (p_K q) <= (m + 1) * bs -> 1 <= bs ->
  p_d1 qo * p_d2 q = p_d1 q * p_d2 qo -> linked2 (p_d1 qo) [] l -> last (map d_delta l) 0 = p_d1 q ->
  (forall i, (i < length (p_Z q))%nat -> nth i (p_Z q) 0 * p_d2 q = nth i (p_Z qo) 0 * p_d2 qo) ->
  let g := gob_hdr (set_contribs h n0) in
  length g + 96 + 32 * length (p_Z qo) + 32 * (m * bs) <= k < length g + 96 + 32 * length (p_Z qo) + 32 * length (p_K qo) ->
  exec (verify2 bs rho) f (firstn k (file2 (set_contribs h n0) qo lo)) = (Ok (map d_hash l), []).
Proof.
  intros HO N0 [pb [rb [junk [-> [[b1 [b2 [b3 [b4 [-> [I1 [I2 [A3 A4]]]]]]]] [[SZ SK] [HC RA]]]]]]] NE [SZ' SK'] BK B SR LK LD EQ g K.
  assert (HO' : hdr_ok (set_contribs h n0)) by now apply hdr_ok_set.
  unfold file2, head2, par2_bytes, enc1. fold g. rewrite <- !app_assoc.
  rewrite firstn_app, (firstn_all2 g) by lia. rewrite firstn_app, g1c_len, (firstn_all2 (g1c _)) by (rewrite g1c_len; lia).
  rewrite firstn_app, g2c_len, (firstn_all2 (g2c _)) by (rewrite g2c_len; lia).
  set (j := (k - length g - 32 - 64)%nat).
  assert (FL : forall zs : list E, length (flat_map g1c zs) = (32 * length zs)%nat).
  { induction zs as [|z zs IH]; [reflexivity|]. cbn [flat_map length]. rewrite app_length, g1c_len, IH. lia. }
  rewrite firstn_app, (firstn_all2 (flat_map g1c (p_Z qo))), FL by (rewrite FL; lia).
  rewrite firstn_app, FL. replace (j - 32 * length (p_Z qo) - 32 * length (p_K qo))%nat with 0%nat by lia. rewrite firstn_O, app_nil_r.
  set (i := (j - 32 * length (p_Z qo))%nat).
  assert (LZ : length (p_Z qo) = length (p_Z q)) by lia. assert (LK' : length (p_K qo) = length (p_K q)) by lia.
  apply v2_if; [exact B|exact HO|exact HO'|].
  split. { rewrite HC. destruct l; [contradiction|]. cbn [length]. lia. }
  split; [now destruct h|]. split; [lia|]. split; [lia|].
  exists b1, b2, (b3 ++ b4 ++ rb ++ junk), (p_d1 q), (p_d2 q), (g1c (p_d1 qo)), (g2c (p_d2 qo)), (flat_map g1c (p_Z qo) ++ firstn i (flat_map g1c (p_K qo))), (p_d1 qo), (p_d2 qo).
  split; [reflexivity|]. split; [exact I1|]. split; [exact I2|]. split; [reflexivity|]. split; [apply is1_c|]. split; [apply is2_c|]. split; [exact SR|].
  assert (AZ : are1 (flat_map g1c (p_Z qo)) (p_Z qo)).
  { generalize (p_Z qo). induction l0 as [|z zs IH]; cbn [flat_map]; constructor; [apply is1_c|exact IH]. }
  destruct (cmp_all bs (rho 0%nat) (b4 ++ rb ++ junk) (firstn i (flat_map g1c (p_K qo))) B _ b3 (flat_map g1c (p_Z qo)) (p_Z q) (p_Z qo) (le_n _) LZ A3 AZ) as [x [y [C1 XY]]].
  exists (Some (x, y)), (b4 ++ rb ++ junk), (firstn i (flat_map g1c (p_K qo))), None, (rb ++ junk), [], l.
  replace (Z.to_nat (h_domain h - 1)) with (length (p_Z q)) by lia. replace (Z.to_nat (h_witness h)) with (length (p_K q)) by lia.
  split; [exact C1|]. split; [exact (XY _ _ EQ)|]. split; [apply (cmp_cut_last bs (rho 1%nat) _ B m); [exact A4|exact LK'|lia|exact BK]|]. split; [exact I|].
  split; [lia|]. split; [|split; [exact LK|split; [exact LD|reflexivity]]].
  rewrite !app_length in *. match type of RA with recs2_at ?a _ _ => match goal with |- seen2 ?c _ _ => replace c with a by lia end end.
  now apply readable_seen.
Qed.
(* an origin without its last byte *)
Lemma cut_last bs (rho : nat -> nat -> nat -> E) h n0 (q qo : par2 E) f l fo b : hdr_ok h -> int64 n0 -> is_file2 f h q l -> l <> [] ->
  sized2 h qo -> p_K q <> [] -> 1 <= bs ->
  p_d1 qo * p_d2 q = p_d1 q * p_d2 qo -> linked2 (p_d1 qo) [] l -> last (map d_delta l) 0 = p_d1 q ->
  (forall i, (i < length (p_Z q))%nat -> nth i (p_Z q) 0 * p_d2 q = nth i (p_Z qo) 0 * p_d2 qo) ->
  file2 (set_contribs h n0) qo [] = fo ++ [b] ->
  exec (verify2 bs rho) f fo = (Ok (map d_hash l), []).
Proof.
  intros HO N0 F NE SZ KN B SR LK LD EQ W.
  assert (LE : length (p_K qo) = length (p_K q)) by (destruct F as [? [? [? [_ [_ [[_ S] _]]]]]]; destruct SZ as [_ S']; lia).
  assert (LL : length fo = (length (gob_hdr (set_contribs h n0)) + 96 + 32 * length (p_Z qo) + 32 * length (p_K qo) - 1)%nat).
  { apply (f_equal (@length _)) in W. rewrite app_length in W. unfold file2, head2, par2_bytes, enc1, recs2_bytes in W.
    rewrite !app_length, g1c_len, g2c_len, !flat_len in W. cbn [flat_map length] in W. lia. }
  assert (P : (1 <= length (p_K q))%nat) by (destruct (p_K q); [contradiction|cbn; lia]).
  pose proof (Nat.div_mod (length (p_K q) - 1) bs ltac:(lia)) as D. pose proof (Nat.mod_upper_bound (length (p_K q) - 1) bs ltac:(lia)) as M.
  assert (MM : exists m, length (p_K q) <= (m + 1) * bs /\ m * bs < length (p_K q)).
  { exists ((length (p_K q) - 1) / bs)%nat. revert D M. generalize ((length (p_K q) - 1) / bs)%nat ((length (p_K q) - 1) mod bs)%nat. intros a r D M. rewrite Nat.mul_add_distr_r, (Nat.mul_comm a bs). lia. }
  destruct MM as [m [M1 M2]].
  replace fo with (firstn (length fo) (file2 (set_contribs h n0) qo [])).
  - apply (cut_in_K bs rho h n0 q qo f l [] (length fo) m); auto. cbv zeta. lia.
  - rewrite W, firstn_app, Nat.sub_diag, firstn_all, firstn_O. apply app_nil_r.
Qed.
End C.
