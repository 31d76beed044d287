(* Binds.v -- every hash that p1v and p2v show binds the hashes before it. *)
From Coq Require Import Ring Field.
From Verif Require Import Base Fld IO Ext Spec1 Phase1 Phase1Io Phase1Verify Phase1Trans Phase1Facts Phase1Inv Phase1Claims Gob GobLemmas Circuit Spec2 Phase2 Phase2Io Phase2Lemmas Phase2Claims Phase2More Spec3 Spec4 Cut3 Spec18 Spec25 Spec26 Origin2 Attest.
Local Open Scope fld_scope.
Local Open Scope io_scope.

(* chains in general: good ph c, record c may follow the hash ph *)
Section Chains.
Context {R : Type} (hsh : R -> bytes) (good : bytes -> R -> Prop) (live : R -> Prop) (c1 : R -> R -> Prop) (c2 : R -> bytes -> bytes -> Prop).
Definition before (l : list R) (i : nat) : bytes := last (map hsh (firstn i l)) [].
Definition chained (l : list R) : Prop := forall i c, nth_error l i = Some c -> good (before l i) c.
Hypothesis same : forall p c p' c', good p c -> good p' c' -> hsh c = hsh c' -> c = c' \/ c1 c c'.
Hypothesis point : forall p p' c, good p c -> good p' c -> live c -> p = p' \/ c2 c p p'.
Hypothesis full : forall p c, good p c -> hsh c <> [].

Lemma before_app (l t : list R) i : i <= length l -> before (l ++ t) i = before l i.
Proof. intros H. unfold before. rewrite firstn_app. replace (i - length l)%nat with 0%nat by lia. cbn. now rewrite app_nil_r. Qed.
Lemma chained_app (l t : list R) : chained (l ++ t) -> chained l.
Proof.
  intros H i c Hi. assert (I : i < length l) by (apply nth_error_Some; congruence).
  rewrite <- (before_app l t) by lia. apply H. now rewrite nth_error_app1.
Qed.
Lemma nth_last (l : list R) c : nth_error (l ++ [c]) (length l) = Some c.
Proof. rewrite nth_error_app2, Nat.sub_diag by lia. reflexivity. Qed.
Lemma before_last (l : list R) c : before (l ++ [c]) (length l) = last (map hsh l) [].
Proof. unfold before. now rewrite firstn_app_exact. Qed.
Lemma last_hsh (l : list R) c : last (map hsh (l ++ [c])) [] = hsh c.
Proof. rewrite map_app. cbn [map]. apply last_last. Qed.

Lemma binds : forall l l', chained l -> chained l' -> (forall c, In c l' -> live c) ->
  last (map hsh l) [] = last (map hsh l') [] ->
  l = l' \/ exists a b c c', nth_error l a = Some c /\ nth_error l' b = Some c' /\ (c1 c c' \/ (c = c' /\ c2 c (before l a) (before l' b))).
Proof.
  induction l as [|c l IH] using rev_ind; intros l' C C' L H.
  - destruct l' as [|c' l' _] using rev_ind; [now left|]. rewrite last_hsh in H. cbn in H.
    destruct (full _ _ (C' _ _ (nth_last l' c'))). now symmetry.
  - destruct l' as [|c' l' _] using rev_ind; [rewrite last_hsh in H; destruct (full _ _ (C _ _ (nth_last l c))); exact H|].
    rewrite !last_hsh in H. pose proof (C _ _ (nth_last l c)) as G. pose proof (C' _ _ (nth_last l' c')) as G'.
    destruct (same _ _ _ _ G G' H) as [->|X].
    2:{ right. exists (length l), (length l'), c, c'. rewrite !nth_last. auto. }
    destruct (point _ _ _ G G' ltac:(apply L; apply in_or_app; right; now left)) as [P|X].
    2:{ right. exists (length l), (length l'), c', c'. rewrite !nth_last. auto. }
    rewrite !before_last in P.
    destruct (IH l' (chained_app _ _ C) (chained_app _ _ C') ltac:(intros d Hd; apply L; apply in_or_app; now left) P) as [->|[a [b [d [d' [Ha [Hb X]]]]]]]; [now left|].
    right. exists a, b, d, d'.
    assert (A : a < length l) by (apply nth_error_Some; congruence). assert (B : b < length l') by (apply nth_error_Some; congruence).
    rewrite !nth_error_app1, !before_app by lia. auto.
Qed.

(* a hash in the middle *)
Lemma binds_at (l l' : list R) i : chained l -> chained l' -> (forall c, In c l' -> live c) ->
  nth_error (map hsh l) i = Some (last (map hsh l') []) ->
  firstn (S i) l = l' \/
  exists a b c c', nth_error l a = Some c /\ nth_error l' b = Some c' /\ (c1 c c' \/ (c = c' /\ c2 c (before l a) (before l' b))).
Proof.
  intros C C' L H. rewrite nth_error_map in H. destruct (nth_error l i) as [c|] eqn:Hc; [|discriminate]. cbn in H. injection H as H.
  destruct (nth_error_split _ _ Hc) as [m [t [-> Len]]]. subst i.
  replace (m ++ c :: t) with ((m ++ [c]) ++ t) in * by (rewrite <- app_assoc; reflexivity).
  destruct (binds (m ++ [c]) l' (chained_app _ _ C) C' L) as [Q|[a [b [d [d' [Ha [Hb X]]]]]]].
  - now rewrite last_hsh.
  - left. rewrite <- Q. replace (S (length m)) with (length (m ++ [c])) by (rewrite app_length; cbn; lia).
    apply firstn_app_exact.
  - right. exists a, b, d, d'. assert (A : a < length (m ++ [c])) by (apply nth_error_Some; congruence).
    rewrite nth_error_app1, before_app by lia. auto.
Qed.

Lemma nth_snoc (l : list R) i c : nth_error l i = Some c -> exists m t, l = (m ++ [c]) ++ t /\ length m = i.
Proof. intros H. destruct (nth_error_split _ _ H) as [m [t [-> Len]]]. exists m, t. split; [now rewrite <- app_assoc|exact Len]. Qed.
(* no hash twice *)
Lemma once (l : list R) i j x : chained l -> (forall c, In c l -> live c) ->
  nth_error (map hsh l) i = Some x -> nth_error (map hsh l) j = Some x ->
  i = j \/ exists a b c c', nth_error l a = Some c /\ nth_error l b = Some c' /\ (c1 c c' \/ (c = c' /\ c2 c (before l a) (before l b))).
Proof.
  intros C L Hi Hj. rewrite nth_error_map in Hj. destruct (nth_error l j) as [c|] eqn:Hc; [|discriminate]. cbn in Hj. injection Hj as <-.
  destruct (nth_snoc _ _ _ Hc) as [m [t [Q Len]]].
  destruct (binds_at l (m ++ [c]) i C) as [P|[a [b [d [d' [Ha [Hb X]]]]]]].
  - apply (chained_app _ t). now rewrite <- Q.
  - intros d Hd. apply L. rewrite Q. apply in_or_app. now left.
  - now rewrite last_hsh.
  - left. assert (I : i < length l) by (apply nth_error_Some; rewrite nth_error_map in Hi; destruct (nth_error l i); [discriminate|discriminate Hi]).
    assert (K : length (firstn (S i) l) = S i) by (rewrite firstn_length; lia). rewrite P, app_length in K. cbn in K. lia.
  - right. exists a, b, d, d'. assert (B : b < length (m ++ [c])) by (apply nth_error_Some; congruence).
    split; [exact Ha|]. split; [rewrite Q, nth_error_app1 by exact B; exact Hb|]. rewrite <- (before_app (m ++ [c]) t b) in X by lia. rewrite <- Q in X. exact X.
Qed.
(* no two records after the same hash *)
Lemma next (l : list R) i j : chained l -> (forall c, In c l -> live c) -> i < length l -> j < length l -> before l i = before l j ->
  i = j \/ exists a b c c', nth_error l a = Some c /\ nth_error l b = Some c' /\ (c1 c c' \/ (c = c' /\ c2 c (before l a) (before l b))).
Proof.
  intros C L Hi Hj Q.
  assert (N : forall k, k < length l -> match k with O => before l k = [] | S k' => nth_error (map hsh l) k' = Some (before l k) /\ before l k <> [] end).
  { intros [|k] Hk; [reflexivity|]. destruct (nth_error l k) as [c|] eqn:Hc; [|apply nth_error_None in Hc; lia].
    assert (K : before l (S k) = hsh c).
    { unfold before. destruct (nth_snoc _ _ _ Hc) as [m [t [-> <-]]].
      replace (S (length m)) with (length (m ++ [c])) by (rewrite app_length; cbn; lia). rewrite firstn_app_exact. apply last_hsh. }
    rewrite K. split; [rewrite nth_error_map, Hc; reflexivity|]. exact (full _ _ (C k c Hc)). }
  pose proof (N i Hi) as Ni. pose proof (N j Hj) as Nj. destruct i as [|i], j as [|j]; [now left| | |].
  - destruct Nj as [_ Nj]. destruct Nj. now rewrite <- Q.
  - destruct Ni as [_ Ni]. destruct Ni. now rewrite Q.
  - destruct Ni as [Ni _], Nj as [Nj _]. rewrite <- Q in Nj. destruct (once l i j _ C L Ni Nj) as [->|X]; [now left|right; exact X].
Qed.
End Chains.

Section Phase2.
Context {E : Ext2}.
Add Field Ebd2 : (f_th E).
Definition good2 (ph : bytes) (c : contrib2 E) : Prop := exists pd, verify_contrib2 c pd ph = None.
Definition alive2 (c : contrib2 E) : Prop := kS (d_key c) <> 0 /\ kSX (d_key c) <> 0.
Lemma good2_same p (c : contrib2 E) p' c' : good2 p c -> good2 p' c' -> d_hash c = d_hash c' -> c = c' \/ sha_clash c c'.
Proof.
  intros [pd V] [pd' V'] H. apply verify2_inv in V as [_ [_ S1]]. apply verify2_inv in V' as [_ [_ S2]].
  destruct (bytes_eqb (enc_vals (rec2_vals c)) (enc_vals (rec2_vals c'))) eqn:B.
  - left. apply bytes_eqb_eq in B. apply enc_vals_inj in B; [|reflexivity]. apply rec2_vals_inj; auto.
  - right. split; [|unfold hash_good2 in *; congruence]. intros X. rewrite X, bytes_eqb_refl in B. discriminate.
Qed.
Lemma good2_point p p' (c : contrib2 E) : good2 p c -> good2 p' c -> alive2 c -> p = p' \/ point_clash (d_key c) p p'.
Proof.
  intros [pd V] [pd' V'] [_ A]. apply verify2_inv in V as [K1 _]. apply verify2_inv in V' as [K2 _].
  destruct (bytes_eqb p p') eqn:B; [left; now apply bytes_eqb_eq|right]. split.
  - intros X. apply app_inv_len in X; auto. destruct X as [_ X]. apply app_inv_len in X; auto. destruct X as [_ X].
    rewrite X, bytes_eqb_refl in B. discriminate.
  - apply (fmul_cancel_l _ (kSX (d_key c))); [exact A|]. change (kSX (d_key c) * chal (kS (d_key c)) (kSX (d_key c)) p 1 = kSX (d_key c) * chal (kS (d_key c)) (kSX (d_key c)) p' 1).
    congruence.
Qed.
Lemma good2_full p (c : contrib2 E) : good2 p c -> d_hash c <> [].
Proof.
  intros [pd V] H. apply verify2_inv in V as [_ [_ S]]. unfold hash_good2 in S. rewrite H in S.
  pose proof (sha_len E (enc_vals (rec2_vals c))) as L. rewrite <- S in L. discriminate.
Qed.
Lemma chain2_good : forall l (o : E) ph, chain2_err o ph l = None -> forall i c, nth_error l i = Some c ->
  good2 (last (map d_hash (firstn i l)) ph) c.
Proof.
  induction l as [|x l IH]; intros o ph C i c Hi; [destruct i; discriminate|]. cbn [chain2_err] in C.
  destruct (verify_contrib2 x o ph) eqn:V; [discriminate|]. destruct i as [|i].
  - cbn in Hi |- *. injection Hi as <-. now exists o.
  - cbn [nth_error] in Hi. cbn [firstn map]. rewrite last_cons. exact (IH _ _ C i c Hi).
Qed.
Lemma chain2_chained (l : list (contrib2 E)) o : chain2_err o [] l = None -> chained d_hash good2 l.
Proof. intros C i c Hi. exact (chain2_good l o [] C i c Hi). Qed.

Lemma accepted2 bs (rho : nat -> nat -> nat -> E) F G h (q : par2 E) l ho (qo : par2 E) hs : 1 <= bs -> hdr_ok h -> is_file2 F h q l -> ph2 G ho qo ->
  fst (exec (verify2 bs rho) F G) = Ok hs -> hs = map d_hash l /\ chained d_hash good2 l.
Proof. intros B H F2 P V. destruct (records2 bs rho F G h q l hs ho qo B H F2 P V) as [C [_ ->]]. split; [reflexivity|]. exact (chain2_chained _ _ C). Qed.

Lemma history2 bs bs' (rho rho' : nat -> nat -> nat -> E) F G F' G' h ho h' ho' (q qo q' qo' : par2 E) l l' hs hs' i : 1 <= bs -> 1 <= bs' ->
  hdr_ok h -> is_file2 F h q l -> ph2 G ho qo -> fst (exec (verify2 bs rho) F G) = Ok hs ->
  hdr_ok h' -> is_file2 F' h' q' l' -> ph2 G' ho' qo' -> fst (exec (verify2 bs' rho') F' G') = Ok hs' ->
  (forall c, In c l' -> kS (d_key c) <> 0 /\ kSX (d_key c) <> 0) ->
  nth_error hs i = Some (last hs' []) ->
  firstn (S i) l = l' \/ exists a b, clash2 l l' a b.
Proof.
  intros B B' HO F2 P V HO' F2' P' V' L Hi.
  destruct (accepted2 bs rho F G h q l ho qo hs B HO F2 P V) as [-> C]. destruct (accepted2 bs' rho' F' G' h' q' l' ho' qo' hs' B' HO' F2' P' V') as [-> C'].
  destruct (binds_at d_hash good2 alive2 sha_clash (fun c => point_clash (d_key c)) good2_same good2_point good2_full l l' i
    C C' L Hi) as [Q|[a [b [c [c' [Ha [Hb X]]]]]]]; [left; exact Q|].
  right. exists a, b, c, c'. auto.
Qed.

(* the contributor's own record, whatever the others are like *)
Lemma own2 (l : list (contrib2 E)) bs' X g h (q : par2 E) lx (d s : E) hc O i : chained d_hash good2 l ->
  1 <= bs' -> hdr_ok h -> count_ok (h_contribs h) -> is_file2 X h q lx -> d <> 0 -> s <> 0 ->
  exec (contribute2 bs' d s) X g = (Ok hc, O) -> nth_error (map d_hash l) i = Some hc ->
  prev_hash l i = last_hash2 lx \/ own_clash2 l lx i (new_rec2 d s (d * p_d1 q) (last_hash2 lx)).
Proof.
  intros C B HO CO FX D0 S0 HX Hi.
  pose proof (c35 bs' d s X g h q lx B HO CO FX) as Q. cbv zeta in Q. rewrite HX in Q. injection Q as Hh _.
  rewrite nth_error_map in Hi. destruct (nth_error l i) as [c|] eqn:Hc; [|discriminate]. cbn in Hi. injection Hi as Hi.
  pose proof (C i c Hc) as G0. set (r := new_rec2 d s (d * p_d1 q) (last_hash2 lx)) in *.
  assert (GR : good2 (last_hash2 lx) r) by (exists (p_d1 q); apply verify_new2).
  assert (HR : d_hash c = d_hash r) by (rewrite Hi, Hh; reflexivity).
  destruct (good2_same _ _ _ _ G0 GR HR) as [->|X1]; [|right; exists c; auto].
  assert (A : alive2 r) by (split; [exact S0|cbn; now apply fmul_neq0]).
  destruct (good2_point _ _ _ G0 GR A) as [P|P]; [left; exact P|right; exists r; auto].
Qed.

Lemma predecessor2 bs bs' (rho : nat -> nat -> nat -> E) F G h0 ho (q0 qo : par2 E) l hs X g h (q : par2 E) lx (d s : E) hc O i : 1 <= bs ->
  hdr_ok h0 -> is_file2 F h0 q0 l -> ph2 G ho qo -> fst (exec (verify2 bs rho) F G) = Ok hs ->
  1 <= bs' -> hdr_ok h -> count_ok (h_contribs h) -> is_file2 X h q lx -> d <> 0 -> s <> 0 ->
  exec (contribute2 bs' d s) X g = (Ok hc, O) -> nth_error hs i = Some hc ->
  last (firstn i hs) [] = last (map d_hash lx) [] \/ own_clash2 l lx i (new_rec2 d s (d * p_d1 q) (last_hash2 lx)).
Proof.
  intros B0 HO0 F2 P V B HO CO FX D0 S0 HX Hi. destruct (accepted2 bs rho F G h0 q0 l ho qo hs B0 HO0 F2 P V) as [-> C].
  rewrite firstn_map. exact (own2 l bs' X g h q lx d s hc O i C B HO CO FX D0 S0 HX Hi).
Qed.

Lemma once2 bs (rho : nat -> nat -> nat -> E) F G h ho (q qo : par2 E) l hs i j x : 1 <= bs ->
  hdr_ok h -> is_file2 F h q l -> ph2 G ho qo -> fst (exec (verify2 bs rho) F G) = Ok hs ->
  (forall c, In c l -> kS (d_key c) <> 0 /\ kSX (d_key c) <> 0) ->
  nth_error hs i = Some x -> nth_error hs j = Some x -> i = j \/ exists a b, clash2 l l a b.
Proof.
  intros B HO F2 P V L Hi Hj. destruct (accepted2 bs rho F G h q l ho qo hs B HO F2 P V) as [-> C].
  destruct (once d_hash good2 alive2 sha_clash (fun c => point_clash (d_key c)) good2_same good2_point good2_full l i j x C L Hi Hj)
    as [Q|[a [b [c [c' [Ha [Hb X]]]]]]]; [left; exact Q|]. right. exists a, b, c, c'. auto.
Qed.

Lemma fork2 bs bs1 bs2 (rho : nat -> nat -> nat -> E) F G h0 ho (q0 qo : par2 E) l hs X g1 g2 h (q : par2 E) lx (d1 s1 d2 s2 : E) x1 x2 O1 O2 i j : 1 <= bs ->
  hdr_ok h0 -> is_file2 F h0 q0 l -> ph2 G ho qo -> fst (exec (verify2 bs rho) F G) = Ok hs ->
  (forall c, In c l -> kS (d_key c) <> 0 /\ kSX (d_key c) <> 0) ->
  1 <= bs1 -> 1 <= bs2 -> hdr_ok h -> count_ok (h_contribs h) -> is_file2 X h q lx -> d1 <> 0 -> s1 <> 0 -> d2 <> 0 -> s2 <> 0 ->
  exec (contribute2 bs1 d1 s1) X g1 = (Ok x1, O1) -> exec (contribute2 bs2 d2 s2) X g2 = (Ok x2, O2) ->
  nth_error hs i = Some x1 -> nth_error hs j = Some x2 ->
  x1 = x2 \/ (exists a b, clash2 l l a b) \/ own_clash2 l lx i (new_rec2 d1 s1 (d1 * p_d1 q) (last_hash2 lx)) \/
    own_clash2 l lx j (new_rec2 d2 s2 (d2 * p_d1 q) (last_hash2 lx)).
Proof.
  intros B HO0 F2 P V L B1 B2 HO CO FX D1 S1 D2 S2 X1 X2 Hi Hj. destruct (accepted2 bs rho F G h0 q0 l ho qo hs B HO0 F2 P V) as [-> C].
  destruct (own2 l bs1 X g1 h q lx d1 s1 x1 O1 i C B1 HO CO FX D1 S1 X1 Hi) as [Qi|]; [|auto].
  destruct (own2 l bs2 X g2 h q lx d2 s2 x2 O2 j C B2 HO CO FX D2 S2 X2 Hj) as [Qj|]; [|auto].
  assert (I : forall k y, nth_error (map d_hash l) k = Some y -> k < length l).
  { intros k y Hk. rewrite <- (map_length d_hash). apply nth_error_Some. congruence. }
  destruct (next d_hash good2 alive2 sha_clash (fun c => point_clash (d_key c)) good2_same good2_point good2_full l i j C L (I _ _ Hi) (I _ _ Hj))
    as [->|[a [b [c [c' [Ha [Hb Y]]]]]]].
  - change (prev_hash l i = prev_hash l j). congruence.
  - left. congruence.
  - right. left. exists a, b, c, c'. auto.
Qed.
End Phase2.

Section Phase1.
Context {E : Ext}.
Add Field Ebd1 : (f_th E).
Definition good1 (ph : bytes) (c : contrib E) : Prop := exists o, c_hash o = ph /\ verify_contrib c o = None.
Definition alive1 (c : contrib E) : Prop := kS (c_kt c) <> 0 /\ kSX (c_kt c) <> 0.
Lemma good1_same p (c : contrib E) p' c' : good1 p c -> good1 p' c' -> c_hash c = c_hash c' -> c = c' \/ sha_clash1 c c'.
Proof.
  intros [pd [_ V]] [pd' [_ V']] H. apply verify_inv in V as [_ [_ [_ [_ [_ [_ [_ [_ S1]]]]]]]]. apply verify_inv in V' as [_ [_ [_ [_ [_ [_ [_ [_ S2]]]]]]]].
  destruct (bytes_eqb (enc_vals (rec_vals c)) (enc_vals (rec_vals c'))) eqn:B.
  - left. apply bytes_eqb_eq in B. apply enc_vals_inj in B; [|reflexivity]. apply rec_vals_inj; auto.
  - right. split; [|congruence]. intros X. rewrite X, bytes_eqb_refl in B. discriminate.
Qed.
Lemma good1_point p p' (c : contrib E) : good1 p c -> good1 p' c -> alive1 c -> p = p' \/ point_clash (c_kt c) p p'.
Proof.
  intros [o [<- V]] [o' [<- V']] [_ A]. apply verify_inv in V as [K1 _]. apply verify_inv in V' as [K2 _].
  destruct (bytes_eqb (c_hash o) (c_hash o')) eqn:B; [left; now apply bytes_eqb_eq|right]. split.
  - intros X. apply app_inv_len in X; auto. destruct X as [_ X]. apply app_inv_len in X; auto. destruct X as [_ X].
    rewrite X, bytes_eqb_refl in B. discriminate.
  - apply (fmul_cancel_l _ (kSX (c_kt c))); [exact A|].
    change (kSX (c_kt c) * chal (kS (c_kt c)) (kSX (c_kt c)) (c_hash o) 1 = kSX (c_kt c) * chal (kS (c_kt c)) (kSX (c_kt c)) (c_hash o') 1).
    congruence.
Qed.
Lemma good1_full p (c : contrib E) : good1 p c -> c_hash c <> [].
Proof.
  intros [o [_ V]] H. apply verify_inv in V as [_ [_ [_ [_ [_ [_ [_ [_ S]]]]]]]]. rewrite H in S.
  pose proof (sha_len E (enc_vals (rec_vals c))) as L. rewrite <- S in L. discriminate.
Qed.
Lemma chain1_good : forall l (o : contrib E), chain_err o l = None -> forall i c, nth_error l i = Some c ->
  good1 (last (map c_hash (firstn i l)) (c_hash o)) c.
Proof.
  induction l as [|x l IH]; intros o C i c Hi; [destruct i; discriminate|]. cbn [chain_err] in C.
  destruct (verify_contrib x o) eqn:V; [discriminate|]. destruct i as [|i].
  - cbn in Hi |- *. injection Hi as <-. now exists o.
  - cbn [nth_error] in Hi. cbn [firstn map]. rewrite last_cons. exact (IH _ C i c Hi).
Qed.
Lemma chain1_chained (l : list (contrib E)) o : c_hash o = [] -> chain_err o l = None -> chained c_hash good1 l.
Proof. intros H C i c Hi. unfold before. rewrite <- H. exact (chain1_good l o C i c Hi). Qed.

Lemma accepted_chain1 bs (rho : nat -> nat -> nat -> E) trans F g hs : 1 <= bs -> fst (exec (verify bs rho trans) F g) = Ok hs ->
  exists l, records1 F l /\ hs = map c_hash l /\ chained c_hash good1 l.
Proof.
  intros B H. destruct (exec (verify bs rho trans) F g) as [r out0] eqn:X. cbn [fst] in H. subst r.
  destruct (verify_ok_inv bs rho trans F g hs out0 B X) as [p [n [s [sb [tail [o [H1 [H2 [H3 [H4 [H5 [H6 H7]]]]]]]]]]]].
  cbv zeta in H7. destruct H7 as [C [-> _]]. eexists. split; [|split; [reflexivity|]].
  - exists p, n, s, sb, tail. repeat (split; [first [assumption|lia]|]). reflexivity.
  - eapply chain1_chained; [|exact C]. eapply origin_no_hash; eauto.
Qed.

Lemma history1 bs bs' (rho rho' : nat -> nat -> nat -> E) trans trans' F g F' g' p (s : srs E) l' (o : contrib E) hs hs' i : mexp_strict E -> 1 <= bs -> 1 <= bs' ->
  fst (exec (verify bs rho trans) F g) = Ok hs ->
  p <= 62 -> length l' < N.to_nat 65536 -> is_file1 F' p s l' -> origin_is trans' g' o -> fst (exec (verify bs' rho' trans') F' g') = Ok hs' ->
  (forall c, In c l' -> kS (c_kt c) <> 0 /\ kSX (c_kt c) <> 0) ->
  nth_error hs i = Some (last hs' []) ->
  exists l, records1 F l /\ hs = map c_hash l /\ (firstn (S i) l = l' \/ exists a b, clash1 l l' a b).
Proof.
  intros MS B B' V P Ll F1 O V' L Hi. destruct (accepted_chain1 bs rho trans F g hs B V) as [l [RL [-> C]]].
  exists l. split; [exact RL|]. split; [reflexivity|].
  rewrite (verify_file bs' rho' trans' F' g' p s l' o) in V' by auto using origin_is_src. cbn [fst] in V'. unfold outcome in V'.
  destruct (chain_err o l') eqn:C'; [discriminate|]. destruct (feqb _ _); [|discriminate]. injection V' as <-.
  destruct (binds_at c_hash good1 alive1 sha_clash1 (fun c => point_clash (c_kt c)) good1_same good1_point good1_full l l' i
    C (chain1_chained _ _ (origin_no_hash _ _ _ O) C') L Hi) as [Q|[a [b [c [c' [Ha [Hb X]]]]]]]; [left; exact Q|].
  right. exists a, b, c, c'. auto.
Qed.

Lemma own1 (l : list (contrib E)) bs' X g' p (s : srs E) lx (w : @rnd1 E) hc O i : chained c_hash good1 l ->
  2 <= bs' -> 1 <= p <= 62 -> length lx < N.to_nat 65535 -> is_file1 X p s lx -> firsts_ok bs' s -> r_tau w <> 0 -> r_st w <> 0 ->
  exec (contribute bs' w) X g' = (Ok hc, O) -> nth_error (map c_hash l) i = Some hc ->
  prev_hash1 l i = last_hash lx \/
  own_clash1 l lx i (new_rec (r_tau w) (r_alpha w) (r_beta w) (r_st w) (r_sa w) (r_sb w) (upd_srs (r_tau w) (r_alpha w) (r_beta w) s) (last_hash lx)).
Proof.
  intros C B' P Ll FX FO D0 S0 HX Hi.
  pose proof (contribute_exec bs' w X g' p s lx B' P Ll FX FO) as Q. cbv zeta in Q. rewrite HX in Q. injection Q as Hh _.
  rewrite nth_error_map in Hi. destruct (nth_error l i) as [c|] eqn:Hc; [|discriminate]. cbn in Hi. injection Hi as Hi.
  destruct (C i c Hc) as [o [Ho G0]]. set (r := new_rec _ _ _ _ _ _ _ _) in *.
  apply verify_inv in G0 as [K1 [_ [_ [_ [_ [_ [_ [_ S1]]]]]]]].
  assert (HR : c_hash c = c_hash r) by (rewrite Hi, Hh; reflexivity).
  assert (S2 : c_hash r = sha E (enc_vals (rec_vals r))) by reflexivity.
  destruct (bytes_eqb (enc_vals (rec_vals c)) (enc_vals (rec_vals r))) eqn:Bq.
  2:{ right. exists c. split; [exact Hc|left]. split; [|congruence]. intros Z. rewrite Z, bytes_eqb_refl in Bq. discriminate. }
  apply bytes_eqb_eq in Bq. apply enc_vals_inj in Bq; [|reflexivity]. assert (c = r) by (apply rec_vals_inj; auto). subst c.
  change (prev_hash1 l i) with (before c_hash l i).
  destruct (bytes_eqb (before c_hash l i) (last_hash lx)) eqn:HB; [left; apply bytes_eqb_eq in HB; exact HB|right; exists r; split; [exact Hc|right; split; [reflexivity|]]]. split.
  - intros Z. apply app_inv_len in Z; auto. destruct Z as [_ Z]. apply app_inv_len in Z; auto. destruct Z as [_ Z].
    change (prev_hash1 l i) with (before c_hash l i) in Z. rewrite Z, bytes_eqb_refl in HB. discriminate.
  - rewrite Ho in K1. change (kS (c_kt r)) with (r_st w) in *. change (kSX (c_kt r)) with (r_tau w * r_st w) in *.
    change (kSPX (c_kt r)) with (r_tau w * chal (r_st w) (r_tau w * r_st w) (last_hash lx) 1) in K1.
    apply (fmul_cancel_l _ (r_tau w * r_st w)); [now apply fmul_neq0|].
    change (r_tau w * r_st w * chal (r_st w) (r_tau w * r_st w) (before c_hash l i) 1 = r_tau w * r_st w * chal (r_st w) (r_tau w * r_st w) (last_hash lx) 1).
    rewrite <- K1. ring.
Qed.

Lemma predecessor1 bs bs' (rho : nat -> nat -> nat -> E) trans F g hs X g' p (s : srs E) lx (w : @rnd1 E) hc O i : 1 <= bs ->
  fst (exec (verify bs rho trans) F g) = Ok hs ->
  2 <= bs' -> 1 <= p <= 62 -> length lx < N.to_nat 65535 -> is_file1 X p s lx -> firsts_ok bs' s -> r_tau w <> 0 -> r_st w <> 0 ->
  exec (contribute bs' w) X g' = (Ok hc, O) -> nth_error hs i = Some hc ->
  last (firstn i hs) [] = last (map c_hash lx) [] \/ exists l, records1 F l /\
  own_clash1 l lx i (new_rec (r_tau w) (r_alpha w) (r_beta w) (r_st w) (r_sa w) (r_sb w) (upd_srs (r_tau w) (r_alpha w) (r_beta w) s) (last_hash lx)).
Proof.
  intros B V B' P Ll FX FO D0 S0 HX Hi. destruct (accepted_chain1 bs rho trans F g hs B V) as [l [RL [-> C]]].
  rewrite firstn_map. destruct (own1 l bs' X g' p s lx w hc O i C B' P Ll FX FO D0 S0 HX Hi) as [Q|Q]; [left; exact Q|].
  right. exists l. auto.
Qed.

Lemma once1 bs (rho : nat -> nat -> nat -> E) trans F g hs : 1 <= bs -> fst (exec (verify bs rho trans) F g) = Ok hs ->
  exists l : list (contrib E), records1 F l /\ hs = map c_hash l /\ ((forall c, In c l -> kS (c_kt c) <> 0 /\ kSX (c_kt c) <> 0) ->
    forall i j x, nth_error hs i = Some x -> nth_error hs j = Some x -> i = j \/ exists a b, clash1 l l a b).
Proof.
  intros B V. destruct (accepted_chain1 bs rho trans F g hs B V) as [l [RL [-> C]]]. exists l. split; [exact RL|]. split; [reflexivity|]. intros L i j x Hi Hj.
  destruct (once c_hash good1 alive1 sha_clash1 (fun c => point_clash (c_kt c)) good1_same good1_point good1_full l i j x C L Hi Hj)
    as [Q|[a [b [c [c' [Ha [Hb X]]]]]]]; [left; exact Q|]. right. exists a, b, c, c'. auto.
Qed.

Lemma fork1 bs (rho : nat -> nat -> nat -> E) trans F g hs : 1 <= bs -> fst (exec (verify bs rho trans) F g) = Ok hs ->
  exists l : list (contrib E), records1 F l /\ hs = map c_hash l /\ ((forall c, In c l -> kS (c_kt c) <> 0 /\ kSX (c_kt c) <> 0) ->
    forall bs1 bs2 X g1 g2 p (s : srs E) lx (w1 w2 : @rnd1 E) x1 x2 O1 O2 i j,
    2 <= bs1 -> 2 <= bs2 -> 1 <= p <= 62 -> length lx < N.to_nat 65535 -> is_file1 X p s lx -> firsts_ok bs1 s -> firsts_ok bs2 s ->
    r_tau w1 <> 0 -> r_st w1 <> 0 -> r_tau w2 <> 0 -> r_st w2 <> 0 ->
    exec (contribute bs1 w1) X g1 = (Ok x1, O1) -> exec (contribute bs2 w2) X g2 = (Ok x2, O2) ->
    nth_error hs i = Some x1 -> nth_error hs j = Some x2 ->
    let rec w := new_rec (r_tau w) (r_alpha w) (r_beta w) (r_st w) (r_sa w) (r_sb w) (upd_srs (r_tau w) (r_alpha w) (r_beta w) s) (last_hash lx) in
    x1 = x2 \/ (exists a b, clash1 l l a b) \/ own_clash1 l lx i (rec w1) \/ own_clash1 l lx j (rec w2)).
Proof.
  intros B V. destruct (accepted_chain1 bs rho trans F g hs B V) as [l [RL [-> C]]]. exists l. split; [exact RL|]. split; [reflexivity|].
  intros L bs1 bs2 X g1 g2 p s lx w1 w2 x1 x2 O1 O2 i j B1 B2 P Ll FX FO1 FO2 D1 S1 D2 S2 X1 X2 Hi Hj. cbv zeta.
  destruct (own1 l bs1 X g1 p s lx w1 x1 O1 i C B1 P Ll FX FO1 D1 S1 X1 Hi) as [Qi|]; [|auto].
  destruct (own1 l bs2 X g2 p s lx w2 x2 O2 j C B2 P Ll FX FO2 D2 S2 X2 Hj) as [Qj|]; [|auto].
  assert (I : forall k y, nth_error (map c_hash l) k = Some y -> k < length l).
  { intros k y Hk. rewrite <- (map_length c_hash). apply nth_error_Some. congruence. }
  destruct (next c_hash good1 alive1 sha_clash1 (fun c => point_clash (c_kt c)) good1_same good1_point good1_full l i j C L (I _ _ Hi) (I _ _ Hj))
    as [->|[a [b [c [c' [Ha [Hb Y]]]]]]].
  - change (prev_hash1 l i = prev_hash1 l j). congruence.
  - left. congruence.
  - right. left. exists a, b, c, c'. auto.
Qed.

(* a record with nothing but points at infinity follows everything *)
Definition dead_rec : contrib E := idle_rec 0 0 0 0 0 0 0 0.
Lemma dead_follows bs (rho : nat -> nat -> nat -> E) trans f g p (s : srs E) l (o : contrib E) hs : mexp_strict E -> 1 <= bs -> p <= 62 ->
  length l < N.to_nat 65535 -> is_file1 f p s l -> hashed32 l -> origin_is trans g o ->
  fst (exec (verify bs rho trans) f g) = Ok hs ->
  fst (exec (verify bs rho trans) (file1 p (set_beta2 s 0) (l ++ [dead_rec])) g) = Ok (hs ++ [c_hash dead_rec]).
Proof.
  intros MS B P Hl F H32 O H. rewrite (verify_file bs rho trans f g p s l o) in H by (auto using origin_is_src; lia).
  cbn [fst] in H. unfold outcome in H. destruct (chain_err o l) eqn:C; [discriminate|].
  destruct (feqb (beta2 s) (c_beta2 (last l zero_contrib))); [|discriminate]. injection H as <-.
  assert (SZ : sized p s) by (destruct F as [? [? [? [_ [Q _]]]]]; exact Q).
  assert (DK : forall prev : contrib E, verify_contrib dead_rec prev = None).
  { intros prev. pose proof (idle_ok prev 0 0 0 0 0) as I0.
    rewrite !(ltac:(intros; ring) : forall a : E, 0 * a = 0) in I0. exact I0. }
  rewrite (verify_file bs rho trans _ g p (set_beta2 s 0) (l ++ [dead_rec]) o); auto using origin_is_src.
  - cbn [fst]. unfold outcome. rewrite chain_err_app, C. cbn [chain_err]. rewrite DK.
    rewrite last_last. cbn [set_beta2 beta2]. unfold dead_rec at 1. cbn [idle_rec c_beta2]. rewrite feqb_refl.
    now rewrite map_app.
  - rewrite app_length. cbn [length]. lia.
  - apply file1_is0; [exact SZ|]. apply hashed_snoc; auto. apply sha_len.
Qed.

(* and itself *)
Lemma dead_twice bs (rho : nat -> nat -> nat -> E) trans f g p (s : srs E) l (o : contrib E) hs : mexp_strict E -> 1 <= bs -> p <= 62 ->
  length l < N.to_nat 65534 -> is_file1 f p s l -> hashed32 l -> origin_is trans g o ->
  fst (exec (verify bs rho trans) f g) = Ok hs ->
  fst (exec (verify bs rho trans) (file1 p (set_beta2 s 0) (l ++ [dead_rec; dead_rec])) g) = Ok (hs ++ [c_hash dead_rec; c_hash dead_rec]).
Proof.
  intros MS B P Hl F H32 O H. pose proof (dead_follows bs rho trans f g p s l o hs MS B P ltac:(lia) F H32 O H) as H1.
  assert (SZ : sized p s) by (destruct F as [? [? [? [_ [Q _]]]]]; exact Q).
  assert (H33 : hashed32 (l ++ [dead_rec])) by (apply hashed_snoc; auto; apply sha_len).
  apply (dead_follows bs rho trans _ g p (set_beta2 s 0) (l ++ [dead_rec]) o) in H1; auto.
  - rewrite <- !app_assoc in H1. exact H1.
  - rewrite app_length. cbn [length]. lia.
  - apply file1_is0; [exact SZ|exact H33].
Qed.
End Phase1.
