(* Mix2.v -- phase 2: the order of the contributors, and one honest contributor among them. *)
From Coq Require Import Ring Field Permutation.
From Verif Require Import Base Fld IO Ext Spec1 Phase1 Phase1Io Phase1Facts Phase1More Phase1Claims Gob GobLemmas Circuit Spec2 Phase2 Phase2Io Phase2Lemmas Phase2Claims.
Local Open Scope fld_scope.

Section Mix.
Context {E : Ext2}.
Add Field Emix : (f_th E).

Lemma ceremony2_head bs f0 h (q : par2 E) ws : 1 <= bs -> hdr_ok h -> h_contribs h = 0%Z -> is_file2 f0 h q [] ->
  (Z.of_nat (length ws) < 9223372036854775808)%Z -> ws <> [] ->
  (forall j, (1 <= j <= length ws)%nat -> unsplit (set_contribs h (Z.of_nat j)) q j) ->
  exists r hs, ceremony2 (E := E) bs f0 ws = Ok (head2 (set_contribs h (Z.of_nat (length ws))) (upd_par2 (prodf ws) q) ++ r, hs).
Proof.
  intros B HO H0 F L Ne U. destruct (ceremony2_result bs f0 h q ws B HO H0 F L Ne U) as [R _]. rewrite honest2_par in R.
  eexists _, _. exact R.
Qed.

Lemma order2 bs f0 h (q : par2 E) (ws ws' : list (E * E)) : 1 <= bs -> hdr_ok h -> h_contribs h = 0%Z -> is_file2 f0 h q [] ->
  (Z.of_nat (length ws) < 9223372036854775808)%Z -> ws <> [] ->
  (forall j, (1 <= j <= length ws)%nat -> unsplit (set_contribs h (Z.of_nat j)) q j) -> Permutation ws ws' ->
  exists h' (q' : par2 E) r r' hs hs', length (p_Z q') = length (p_Z q) /\ length (p_K q') = length (p_K q) /\
    ceremony2 (E := E) bs f0 ws = Ok (head2 h' q' ++ r, hs) /\ ceremony2 (E := E) bs f0 ws' = Ok (head2 h' q' ++ r', hs').
Proof.
  intros B HO H0 F L Ne U P. pose proof (Permutation_length P) as LP.
  destruct (ceremony2_head bs f0 h q ws B HO H0 F L Ne U) as [r [hs R]].
  destruct (ceremony2_head bs f0 h q ws' B HO H0 F) as [r' [hs' R']].
  - now rewrite <- LP.
  - intros ->. cbn in LP. now apply length_zero_iff_nil in LP.
  - now rewrite <- LP.
  - rewrite <- LP in R'. unfold prodf in *. rewrite <- (prodl_perm _ _ (Permutation_map fst P)) in R'.
    eexists _, _, r, r', hs, hs'. split; [|split; [|split; [exact R|exact R']]]; cbn [upd_par2 p_Z p_K]; now rewrite map_length.
Qed.

(* the ceremony ends in the parameters of one contribution with secret D *)
Definition ends2 bs f0 h (q : par2 E) ws D : Prop :=
  exists r hs, ceremony2 (E := E) bs f0 ws = Ok (head2 (set_contribs h (Z.of_nat (length ws))) (upd_par2 D q) ++ r, hs).

Lemma honest2_one bs f0 h (q : par2 E) ws1 ws2 s : 1 <= bs -> hdr_ok h -> h_contribs h = 0%Z -> is_file2 f0 h q [] -> p_d1 q <> 0 ->
  (Z.of_nat (length ws1 + 1 + length ws2) < 9223372036854775808)%Z ->
  (forall j, (1 <= j <= length ws1 + 1 + length ws2)%nat -> unsplit (set_contribs h (Z.of_nat j)) q j) ->
  (forall w, In w (ws1 ++ ws2) -> fst w <> 0) ->
  forall D, D <> 0 -> exists! d, d <> 0 /\ ends2 bs f0 h q (ws1 ++ [(d, s)] ++ ws2) D.
Proof.
  intros B HO H0 F Q0 L U NZ D HD.
  assert (LL : forall d, length (ws1 ++ [(d, s)] ++ ws2) = (length ws1 + 1 + length ws2)%nat) by (intros; rewrite !app_length; cbn [length]; lia).
  assert (R : forall d, exists r hs, ceremony2 (E := E) bs f0 (ws1 ++ [(d, s)] ++ ws2) =
    Ok (head2 (set_contribs h (Z.of_nat (length ws1 + 1 + length ws2))) (upd_par2 (prodl (map fst ws1 ++ [d] ++ map fst ws2)) q) ++ r, hs)).
  { intros d. destruct (ceremony2_head bs f0 h q (ws1 ++ [(d, s)] ++ ws2) B HO H0 F) as [r [hs Q]].
    - now rewrite LL.
    - intros X. apply app_eq_nil in X as [_ X]. discriminate X.
    - now rewrite LL.
    - rewrite LL in Q. unfold prodf in Q. rewrite !map_app in Q. eexists _, _. exact Q. }
  assert (N : forall x, In x (map fst ws1 ++ map fst ws2) -> x <> 0).
  { intros x Hx. rewrite <- map_app in Hx. apply in_map_iff in Hx as [w [<- Hw]]. auto. }
  destruct (prodl_bij (map fst ws1) (map fst ws2) N D HD) as [d [[Nd Ed] Ud]].
  exists d. split.
  - split; [exact Nd|]. destruct (R d) as [r [hs X]]. unfold ends2. rewrite LL, X, Ed. eauto.
  - intros d' [Nd' [r' [hs' X']]]. rewrite LL in X'. destruct (R d') as [r [hs X]]. rewrite X in X'. injection X' as X' _.
    apply Ud. split; [exact Nd'|]. unfold head2 in X'. rewrite <- !app_assoc in X'.
    apply app_inv_head in X'. unfold par2_bytes in X'. rewrite <- !app_assoc in X'.
    apply app_inv_len in X' as [X' _]; [|now rewrite !g1c_len]. apply g1c_inj in X'. cbn [upd_par2 p_d1] in X'.
    assert (X2 : prodl (map fst ws1 ++ [d'] ++ map fst ws2) * p_d1 q = D * p_d1 q) by exact X'.
    transitivity (prodl (map fst ws1 ++ [d'] ++ map fst ws2) * p_d1 q / p_d1 q); [field; exact Q0|]. rewrite X2. field. exact Q0.
Qed.
End Mix.
