(* Phase2Claims.v -- the phase-2 properties about contributing and verifying, assembled; stated in Prop2.v. *)
From Coq Require Import Ring Field.
From Verif Require Import Base Fld Conc Parallel IO Ext Spec1 Phase1 Phase1Io Phase1Verify Phase1Trans Phase1Facts Phase1Inv
  Phase1Claims Gob GobLemmas Circuit Spec2 Phase2 Phase2Io Phase2Lemmas.
Local Open Scope fld_scope.
Local Open Scope io_scope.

Section Claims.
Context {E : Ext2}.
Add Field Kfld2c : (f_th E).

(* C35 *)
Lemma c35 bs (d s : E) f g h q l : 1 <= bs -> hdr_ok h -> count_ok (h_contribs h) -> is_file2 f h q l ->
  let r := new_rec2 d s (d * p_d1 q) (last_hash2 l) in
  exec (contribute2 bs d s) f g =
    (Ok (d_hash r), file2 (set_contribs h (h_contribs h + 1)) (upd_par2 d q) (l ++ [r])).
Proof.
  intros B H Cn F r. destruct (contribute2_ev bs d s f h q l (opened f, opened g) B H Cn F eq_refl) as [st' Q].
  apply ev_exec in Q. exact Q.
Qed.

(* ---- files written by the tool ---- *)
Lemma vals2_length (c : contrib2 E) : length (enc_vals (rec2_vals c)) = 160%nat.
Proof. destruct c as [cd [cs csx cspx] ch]. cbn. rewrite ?app_length, ?g1c_len, ?g2c_len. reflexivity. Qed.
Definition hashed2 (l : list (contrib2 E)) : Prop := forall c, In c l -> length (d_hash c) = 32%nat.
Lemma recs2_at_bytes : forall (l : list (contrib2 E)) off, hashed2 l ->
  (forall i, (i < length l)%nat -> ((off + 192 * i + 160) mod N.to_nat 4096 <= N.to_nat 4064)%nat) ->
  recs2_at off (recs2_bytes l) l.
Proof.
  induction l as [|c l IH]; intros off HH U; [constructor|].
  cbn [recs2_bytes flat_map]. unfold rec2_bytes. rewrite <- app_assoc. constructor.
  - apply are_vals_enc.
  - apply HH. now left.
  - rewrite vals2_length. specialize (U 0%nat). cbn [length] in U. rewrite Nat.mul_0_r, Nat.add_0_r in U. apply U. lia.
  - rewrite vals2_length. apply IH; [intros x Hx; apply HH; now right|].
    intros i Hi. specialize (U (S i)). cbn [length] in U.
    replace (off + 160 + 32 + 192 * i + 160)%nat with (off + 192 * S i + 160)%nat by lia. apply U. lia.
Qed.
Lemma file2_is h (q : par2 E) l junk : sized2 h q -> h_contribs h = Z.of_nat (length l) -> hashed2 l ->
  unsplit h q (length l) -> is_file2 (file2 h q l ++ junk) h q l.
Proof.
  intros Sz Hl HH U. exists (par2_bytes q), (recs2_bytes l), junk.
  split; [unfold file2, head2; now rewrite <- !app_assoc|]. split; [apply par2_is|]. split; [exact Sz|]. split; [exact Hl|].
  apply recs2_at_bytes; [exact HH|]. intros i Hi. specialize (U i Hi). unfold hash_off, head2 in U. rewrite app_length in U. exact U.
Qed.
Lemma new_rec2_hash (d s d1 : E) prev : length (d_hash (new_rec2 d s d1 prev)) = 32%nat.
Proof. unfold new_rec2. cbn [d_hash]. apply sha_len. Qed.
Lemma new_rec2_good (d s d1 : E) prev : hash_good2 (new_rec2 d s d1 prev).
Proof. reflexivity. Qed.

(* ---- ceremonies ---- *)
(* contribute again and again; the output of one step is the input of the next *)
Definition step2 (bs : nat) (r : res (bytes * list bytes)) (w : E * E) : res (bytes * list bytes) :=
  match r with
  | Ok (f, hs) => match ok_out (exec (contribute2 bs (fst w) (snd w)) f []) with
                  | Ok (h, f') => Ok (f', hs ++ [h]) | Err e => Err e | Panic => Panic end
  | Err e => Err e | Panic => Panic end.
Definition ceremony2 (bs : nat) (f0 : bytes) (ws : list (E * E)) : res (bytes * list bytes) :=
  fold_left (step2 bs) ws (Ok (f0, [])).

Fixpoint honest2 (q : par2 E) (l : list (contrib2 E)) (ws : list (E * E)) : par2 E * list (contrib2 E) :=
  match ws with
  | [] => (q, l)
  | w :: ws' => honest2 (upd_par2 (fst w) q) (l ++ [new_rec2 (fst w) (snd w) (fst w * p_d1 q) (last_hash2 l)]) ws'
  end.
Lemma honest2_len : forall ws q l, length (snd (honest2 q l ws)) = (length l + length ws)%nat.
Proof.
  induction ws as [|w ws IH]; intros q l; cbn [honest2 length]; [cbn; lia|]. rewrite IH, app_length. cbn. lia.
Qed.
Lemma sized2_upd h (q : par2 E) d n : sized2 h q -> sized2 (set_contribs h n) (upd_par2 d q).
Proof. intros [A B]. split; cbn [set_contribs h_domain h_witness upd_par2 p_Z p_K]; rewrite map_length; assumption. Qed.
Lemma par2_bytes_length (q : par2 E) : length (par2_bytes q) = (96 + 32 * length (p_Z q) + 32 * length (p_K q))%nat.
Proof. unfold par2_bytes. rewrite !app_length, g1c_len, g2c_len, !enc1_length. lia. Qed.
Lemma unsplit_upd h (q : par2 E) d n : unsplit h q n -> unsplit h (upd_par2 d q) n.
Proof.
  intros U i Hi. specialize (U i Hi). unfold hash_off, head2 in *. rewrite app_length, par2_bytes_length in *.
  cbn [upd_par2 p_Z p_K]. rewrite !map_length. exact U.
Qed.
Lemma set_set h a b : set_contribs (set_contribs h a) b = set_contribs h b. Proof. reflexivity. Qed.
Lemma hdr_ok_set h n : hdr_ok h -> int64 n -> hdr_ok (set_contribs h n).
Proof. unfold hdr_ok, hdr_fields. cbn. rewrite !Forall_cons_iff. tauto. Qed.

Lemma steps2 bs h : 1 <= bs -> hdr_ok h -> forall ws (q : par2 E) l hs f,
  sized2 h q -> hashed2 l -> is_file2 f (set_contribs h (Z.of_nat (length l))) q l ->
  (Z.of_nat (length l + length ws) < 9223372036854775808)%Z ->
  (forall j, (length l < j < length l + length ws)%nat -> unsplit (set_contribs h (Z.of_nat j)) q j) ->
  ws <> [] ->
  exists hs', fold_left (step2 bs) ws (Ok (f, hs)) =
    Ok (let r := honest2 q l ws in file2 (set_contribs h (Z.of_nat (length l + length ws))) (fst r) (snd r), hs ++ hs') /\
    map d_hash l ++ hs' = map d_hash (snd (honest2 q l ws)).
Proof.
  intros B HO. induction ws as [|[d s] ws IH]; intros q l hs f Sz HH F Bd U Ne; [congruence|].
  cbn [fold_left]. unfold step2 at 2. cbn [fst snd].
  cbn [length] in Bd, U.
  rewrite (c35 bs d s f [] (set_contribs h (Z.of_nat (length l))) q l B (hdr_ok_set h (Z.of_nat (length l)) HO ltac:(unfold int64; lia)) ltac:(unfold count_ok; cbn [set_contribs h_contribs]; lia) F).
  cbn [ok_out]. rewrite set_set. cbn [set_contribs h_contribs].
  set (r := new_rec2 d s (d * p_d1 q) (last_hash2 l)).
  assert (EL : length (l ++ [r]) = S (length l)) by (rewrite app_length; cbn [length]; apply Nat.add_1_r).
  replace (Z.of_nat (length l) + 1)%Z with (Z.of_nat (length (l ++ [r]))) by (rewrite EL; lia).
  destruct ws as [|w2 ws].
  - exists [d_hash r]. cbn [fold_left honest2 fst snd length]. split.
    + fold r. cbv zeta. rewrite app_length. reflexivity.
    + fold r. now rewrite map_app.
  - assert (HH' : hashed2 (l ++ [r])).
    { intros c Hc. apply in_app_or in Hc as [Hc|[<-|[]]]; [auto|apply new_rec2_hash]. }
    destruct (IH (upd_par2 d q) (l ++ [r]) (hs ++ [d_hash r]) (file2 (set_contribs h (Z.of_nat (length (l ++ [r])))) (upd_par2 d q) (l ++ [r]))) as [hs' [Q1 Q2]].
    + destruct (sized2_upd h q d (h_contribs h) Sz) as [X Y]. split; [exact X|exact Y].
    + exact HH'.
    + rewrite <- (app_nil_r (file2 _ _ _)). apply file2_is; [now apply sized2_upd|reflexivity|exact HH'|].
      apply unsplit_upd. apply U. rewrite app_length. cbn [length]. lia.
    + rewrite app_length. cbn [length] in *. lia.
    + intros j Hj. apply unsplit_upd, U. rewrite app_length in Hj. cbn [length] in *. lia.
    + discriminate.
    + exists (d_hash r :: hs'). cbn [honest2 fst snd]. fold r. cbn [honest2] in Q1, Q2. split.
      * etransitivity; [exact Q1|]. cbv zeta. rewrite EL, <- (app_assoc hs).
        replace (S (length l) + length (w2 :: ws))%nat with (length l + length ((d, s) :: w2 :: ws))%nat by (cbn [length]; lia). reflexivity.
      * rewrite <- Q2, map_app, <- app_assoc. reflexivity.
Qed.

(* the chain an honest ceremony leaves *)
Lemma verify_new2 (d s prev : E) ph : verify_contrib2 (new_rec2 d s (d * prev) ph) prev ph = None.
Proof.
  unfold verify_contrib2, new_rec2. cbn [d_key d_delta d_hash]. unfold mk_key. cbn [kS kSX kSPX].
  change (@gen_sp E) with (@chal E). unfold check, same_ratio.
  set (sp := chal _ _ _ _).
  replace (feqb (s * (d * sp)) (d * s * sp)) with true by (symmetry; apply feqb_ok; ring).
  replace (feqb (d * prev * sp) (prev * (d * sp))) with true by (symmetry; apply feqb_ok; ring).
  rewrite compute_hash2_spec. cbn [rec2_vals d_delta d_key]. rewrite bytes_eqb_refl. reflexivity.
Qed.
Lemma chain2_app : forall l1 l2 (pd : E) ph,
  chain2_err pd ph (l1 ++ l2) = match chain2_err pd ph l1 with Some e => Some e
    | None => chain2_err (last (map d_delta l1) pd) (last (map d_hash l1) ph) l2 end.
Proof.
  induction l1 as [|c l1 IH]; intros l2 pd ph; [reflexivity|]. cbn [app chain2_err map].
  destruct (verify_contrib2 c pd ph); [reflexivity|]. rewrite IH, !last_cons. reflexivity.
Qed.
Lemma last_snoc {X} (l : list X) x d : last (l ++ [x]) d = x. Proof. apply last_last. Qed.
Lemma honest2_chain (o : E) : forall ws q l, chain2_err o [] l = None -> last (map d_delta l) o = p_d1 q ->
  let r := honest2 q l ws in chain2_err o [] (snd r) = None /\ last (map d_delta (snd r)) o = p_d1 (fst r).
Proof.
  induction ws as [|[d s] ws IH]; intros q l C L; cbn [honest2]; [auto|]. apply IH.
  - rewrite chain2_app, C, L. cbn [chain2_err fst snd]. unfold last_hash2. now rewrite verify_new2.
  - rewrite map_app. cbn [map]. rewrite last_snoc. reflexivity.
Qed.

Lemma div_mul_id (x d : E) : d <> 0 -> x / d * d = x.
Proof. intros. field. auto. Qed.
Definition prodf (ws : list (E * E)) : E := prodl (map fst ws).
Lemma div_mul (x a b : E) : x / a / b = x / (b * a).
Proof.
  destruct (feqb a 0) eqn:A0; [apply feqb_ok in A0; subst|].
  { rewrite div_0. rewrite (ltac:(ring) : b * 0 = (0 : E)), div_0. rewrite <- inv_div. ring. }
  destruct (feqb b 0) eqn:B0; [apply feqb_ok in B0; subst|].
  { rewrite div_0. rewrite (ltac:(ring) : 0 * a = (0 : E)), div_0. reflexivity. }
  assert (a <> 0) by (intros ->; rewrite feqb_refl in A0; discriminate).
  assert (b <> 0) by (intros ->; rewrite feqb_refl in B0; discriminate).
  field. auto.
Qed.
Lemma upd_par2_upd (a b : E) q : upd_par2 b (upd_par2 a q) = upd_par2 (b * a) q.
Proof.
  unfold upd_par2. cbn [p_d1 p_d2 p_Z p_K]. rewrite !map_map. f_equal; try ring; apply map_ext; intros; apply div_mul.
Qed.
Lemma div_1 (x : E) : x / 1 = x. Proof. field. apply (F_1_neq_0 (f_th E)). Qed.
Lemma upd_par2_1 (q : par2 E) : upd_par2 1 q = q.
Proof.
  destruct q as [a b c d]. unfold upd_par2. cbn. f_equal; try ring; (etransitivity; [|apply map_id]); apply map_ext; intros; apply div_1.
Qed.
Lemma honest2_par : forall ws (q : par2 E) l, fst (honest2 q l ws) = upd_par2 (prodf ws) q.
Proof.
  induction ws as [|w ws IH]; intros q l; cbn [honest2].
  - symmetry. apply upd_par2_1.
  - rewrite IH, upd_par2_upd. unfold prodf. cbn [map prodl fold_right]. f_equal. unfold prodl. cbn [fold_right]. ring.
Qed.

Lemma agg_div bs (rho : nat -> nat -> E) l (d : E) : d <> 0 -> agg bs rho (map (fun x => x / d) l) * d = agg bs rho l.
Proof.
  intros D. unfold agg. rewrite map_length. rewrite (ltac:(intros; ring) : forall a : E, a * d = d * a), <- sumn_scal. apply sumn_ext. intros i Hi.
  rewrite (nth_indep _ 0 (0 / d)) by now rewrite map_length. rewrite map_nth with (d := 0) (f := fun x => x / d). field. auto.
Qed.
Lemma agg_zero bs (rho : nat -> nat -> E) l : agg bs rho (map (fun x => x / 0) l) = 0.
Proof.
  unfold agg. apply sumn_zero. intros i Hi. rewrite map_length in Hi.
  rewrite (nth_indep _ 0 (0 / 0)) by now rewrite map_length. rewrite map_nth with (d := 0) (f := fun x => x / 0), div_0. ring.
Qed.
Lemma hdr_eqb_refl h n m : hdr_eqb (set_contribs h n) (set_contribs h m) = true.
Proof. unfold hdr_eqb. cbn [set_contribs h_wires h_witness h_public h_privc h_cons h_domain]. now rewrite !Z.eqb_refl. Qed.

(* verification of a readable file against a readable origin *)
Lemma verify2_exec bs (rho : nat -> nat -> nat -> E) f g h ho q qo l lo : 1 <= bs -> hdr_ok h -> hdr_ok ho ->
  is_file2 f h q l -> is_file2 g ho qo lo -> exec (verify2 bs rho) f g = (verdict2 bs rho h ho q qo l, []).
Proof.
  intros B H Ho F [pb [rb [junk [Eg [P [Sz _]]]]]].
  destruct (verify2_ev bs rho f g h ho q qo pb (rb ++ junk) l (opened f, opened g) B H Ho F Eg P Sz eq_refl eq_refl) as [s' Q].
  apply ev_exec in Q. exact Q.
Qed.

(* C37 and C54: the verdict on an honest ceremony's file *)
Lemma honest_verdict bs (rho : nat -> nat -> nat -> E) h n q ws : ws <> [] ->
  let r := honest2 q [] ws in
  verdict2 bs rho (set_contribs h (Z.of_nat (length ws))) (set_contribs h n) (fst r) q (snd r) =
    if feqb (prodf ws) 0 then
      if negb (feqb (agg bs (rho 0%nat) (p_Z q) * p_d2 q) 0) then Err EInconsZ else
      if negb (feqb (agg bs (rho 1%nat) (p_K q) * p_d2 q) 0) then Err EInconsPKK else Ok (map d_hash (snd r))
    else Ok (map d_hash (snd r)).
Proof.
  intros Ne. destruct (honest2_chain (p_d1 q) ws q [] eq_refl eq_refl) as [C L].
  pose proof (honest2_len ws q []) as Len. cbn [length] in Len.
  cbv zeta. rewrite (honest2_par ws q []) in *. set (l := snd _) in *. set (D := prodf ws) in *.
  unfold verdict2. cbn [set_contribs h_contribs]. rewrite C.
  destruct (Z.eqb_spec (Z.of_nat (length ws)) 0); [destruct ws; [congruence|cbn in *; lia]|].
  change (mkHdr _ _ _ _ _ _ n) with (set_contribs h n).
  change (mkHdr _ _ _ _ _ _ (Z.of_nat (length ws))) with (set_contribs h (Z.of_nat (length ws))).
  rewrite hdr_eqb_refl. cbn [negb]. unfold same_ratio. cbn [upd_par2 p_d1 p_d2 p_Z p_K] in *.
  replace (feqb (p_d1 q * (D * p_d2 q)) (D * p_d1 q * p_d2 q)) with true by (symmetry; apply feqb_ok; ring).
  assert (LL : last (map d_delta l) 0 = D * p_d1 q).
  { rewrite <- L. destruct l as [|c l']; [cbn in Len; destruct ws; [congruence|discriminate]|]. cbn [map]. now rewrite !last_cons. }
  rewrite LL, feqb_refl. cbn [negb].
  destruct (feqb D 0) eqn:D0.
  - apply feqb_ok in D0. rewrite D0, !agg_zero. rewrite !(ltac:(ring) : 0 * (0 * p_d2 q) = (0 : E)).
    assert (SY : forall x : E, feqb 0 x = feqb x 0).
    { intros x. destruct (feqb 0 x) eqn:A; destruct (feqb x 0) eqn:A'; auto.
      - apply feqb_ok in A. rewrite <- A, feqb_refl in A'. discriminate.
      - apply feqb_ok in A'. rewrite A', feqb_refl in A. discriminate. }
    rewrite !SY. reflexivity.
  - assert (DN : D <> 0) by (intros X; rewrite X, feqb_refl in D0; discriminate).
    assert (EQ : forall k (L : list E), feqb (agg bs (rho k) (map (fun x => x / D) L) * (D * p_d2 q)) (agg bs (rho k) L * p_d2 q) = true).
    { intros k L0. apply feqb_ok. rewrite (ltac:(intros; ring) : forall a : E, a * (D * p_d2 q) = a * D * p_d2 q), agg_div by auto. reflexivity. }
    rewrite !EQ. reflexivity.
Qed.

Lemma prodf_nz ws : (forall w, In w ws -> fst w <> 0) -> prodf ws <> 0.
Proof.
  unfold prodf. induction ws as [|w ws IH]; intros H; cbn [map prodl fold_right].
  - apply (F_1_neq_0 (f_th E)).
  - unfold prodl in *. cbn [fold_right]. apply fmul_neq0; [apply H; now left|apply IH; intros; apply H; now right].
Qed.
Lemma prodf_z ws w : In w ws -> fst w = 0 -> prodf ws = 0.
Proof.
  unfold prodf, prodl. induction ws as [|v ws IH]; intros H Z0; [destruct H|]. cbn [map fold_right]. destruct H as [->|H].
  - rewrite Z0. ring.
  - rewrite IH; auto. ring.
Qed.

Lemma ceremony2_result bs f0 h (q : par2 E) ws : 1 <= bs -> hdr_ok h -> h_contribs h = 0%Z -> is_file2 f0 h q [] ->
  (Z.of_nat (length ws) < 9223372036854775808)%Z -> ws <> [] ->
  (forall j, (1 <= j <= length ws)%nat -> unsplit (set_contribs h (Z.of_nat j)) q j) ->
  let r := honest2 q [] ws in let h' := set_contribs h (Z.of_nat (length ws)) in let f := file2 h' (fst r) (snd r) in
  ceremony2 bs f0 ws = Ok (f, map d_hash (snd r)) /\ is_file2 f h' (fst r) (snd r) /\ hdr_ok h'.
Proof.
  intros B HO H0 F Bd Ne U r h' f.
  assert (Hh : set_contribs h (Z.of_nat (length (@nil (contrib2 E)))) = h) by (destruct h; cbn in *; now subst).
  assert (Sz : sized2 h q). { destruct F as [? [? [? [? [? [S0 _]]]]]]. exact S0. }
  destruct (steps2 bs h B HO ws q [] [] f0) as [hs' [Q1 Q2]].
  - exact Sz.
  - intros c [].
  - rewrite Hh. exact F.
  - cbn [length]. lia.
  - cbn [length]. intros j Hj. apply U. lia.
  - exact Ne.
  - cbn [map app] in Q1, Q2. rewrite Q2 in Q1. split; [exact Q1|].
    assert (Len : length (snd r) = length ws) by apply (honest2_len ws q []).
    split; [|apply hdr_ok_set; [exact HO|unfold int64; lia]].
    unfold f. rewrite <- (app_nil_r (file2 _ _ _)). apply file2_is.
    + unfold r. rewrite honest2_par. now apply sized2_upd.
    + unfold h'. cbn [set_contribs h_contribs]. now rewrite Len.
    + unfold r. clear. assert (X : hashed2 (@nil (contrib2 E))) by (intros c []).
      revert q X. generalize (@nil (contrib2 E)). induction ws as [|w ws IH]; intros l q X; cbn [honest2]; [exact X|].
      apply IH. intros c Hc. apply in_app_or in Hc as [Hc|[<-|[]]]; [auto|apply new_rec2_hash].
    + rewrite Len. unfold r. rewrite honest2_par. apply unsplit_upd, U. destruct ws; [congruence|]. cbn [length]. lia.
Qed.

(* C37 *)
Lemma c37 bs f0 h (q : par2 E) ws : 1 <= bs -> hdr_ok h -> h_contribs h = 0%Z -> is_file2 f0 h q [] ->
  (Z.of_nat (length ws) < 9223372036854775808)%Z -> ws <> [] ->
  (forall j, (1 <= j <= length ws)%nat -> unsplit (set_contribs h (Z.of_nat j)) q j) ->
  (forall w, In w ws -> fst w <> 0) ->
  exists f hs, ceremony2 bs f0 ws = Ok (f, hs) /\ length hs = length ws /\
    (exists l, f = file2 (set_contribs h (Z.of_nat (length ws))) (upd_par2 (prodf ws) q) l) /\
    forall bs' (rho : nat -> nat -> nat -> E), 1 <= bs' -> exec (verify2 bs' rho) f f0 = (Ok hs, []).
Proof.
  intros B HO H0 F Bd Ne U NZ. destruct (ceremony2_result bs f0 h q ws B HO H0 F Bd Ne U) as [R1 [R2 R3]].
  eexists _, _. split; [exact R1|]. split; [rewrite map_length; apply (honest2_len ws q [])|].
  split; [eexists; now rewrite honest2_par|].
  intros bs' rho B'. rewrite (verify2_exec bs' rho _ f0 _ h _ q _ [] B' R3 HO R2 F).
  assert (Hh : set_contribs h 0 = h) by (destruct h; cbn in *; now subst). rewrite <- Hh at 2.
  rewrite honest_verdict by exact Ne.
  destruct (feqb (prodf ws) 0) eqn:D0; [|reflexivity]. apply feqb_ok in D0. now apply prodf_nz in NZ.
Qed.

(* C54 *)
Lemma c54 bs f0 h (q : par2 E) ws w : 1 <= bs -> hdr_ok h -> h_contribs h = 0%Z -> is_file2 f0 h q [] ->
  (Z.of_nat (length ws) < 9223372036854775808)%Z -> In w ws -> fst w = 0 ->
  (forall j, (1 <= j <= length ws)%nat -> unsplit (set_contribs h (Z.of_nat j)) q j) ->
  exists f hs l, ceremony2 bs f0 ws = Ok (f, hs) /\
    f = file2 (set_contribs h (Z.of_nat (length ws)))
          (mkPar2 (0 : E) 0 (repeat 0 (length (p_Z q))) (repeat 0 (length (p_K q)))) l /\
    forall bs' (rho : nat -> nat -> nat -> E), 1 <= bs' -> exec (verify2 bs' rho) f f0 =
      (if negb (feqb (agg bs' (rho 0%nat) (p_Z q) * p_d2 q) 0) then Err EInconsZ else
       if negb (feqb (agg bs' (rho 1%nat) (p_K q) * p_d2 q) 0) then Err EInconsPKK else Ok hs, []).
Proof.
  intros B HO H0 F Bd Iw W0 U. assert (Ne : ws <> []) by (intros ->; destruct Iw).
  destruct (ceremony2_result bs f0 h q ws B HO H0 F Bd Ne U) as [R1 [R2 R3]].
  pose proof (prodf_z ws w Iw W0) as D0.
  eexists _, _, _. split; [exact R1|]. split.
  { rewrite honest2_par, D0. unfold upd_par2. rewrite !(ltac:(intros; ring) : forall x : E, 0 * x = 0).
    assert (MR : forall L : list E, map (fun x => x / 0) L = repeat 0 (length L)).
    { induction L as [|x L IH]; [reflexivity|]. cbn [map length repeat]. now rewrite IH, div_0. }
    now rewrite !MR. }
  intros bs' rho B'. rewrite (verify2_exec bs' rho _ f0 _ h _ q _ [] B' R3 HO R2 F).
  assert (Hh : set_contribs h 0 = h) by (destruct h; cbn in *; now subst). rewrite <- Hh at 2.
  rewrite honest_verdict by exact Ne. rewrite D0, feqb_refl. reflexivity.
Qed.

(* ---- what acceptance of a readable file means ---- *)
Lemma verdict2_ok bs (rho : nat -> nat -> nat -> E) h ho q qo l hs : verdict2 bs rho h ho q qo l = Ok hs ->
  h_contribs h <> 0%Z /\ hdr_eqb h ho = true /\ p_d1 qo * p_d2 q = p_d1 q * p_d2 qo /\
  agg bs (rho 0%nat) (p_Z q) * p_d2 q = agg bs (rho 0%nat) (p_Z qo) * p_d2 qo /\
  agg bs (rho 1%nat) (p_K q) * p_d2 q = agg bs (rho 1%nat) (p_K qo) * p_d2 qo /\
  chain2_err (p_d1 qo) [] l = None /\ last (map d_delta l) 0 = p_d1 q /\ hs = map d_hash l.
Proof.
  unfold verdict2. destruct (Z.eqb_spec (h_contribs h) 0); [discriminate|].
  destruct (hdr_eqb h ho); cbn [negb]; [|discriminate]. unfold same_ratio.
  destruct (feqb (p_d1 qo * p_d2 q) _) eqn:A1; cbn [negb]; [|discriminate]. apply feqb_ok in A1.
  destruct (feqb (agg bs (rho 0%nat) (p_Z q) * p_d2 q) _) eqn:A2; cbn [negb]; [|discriminate]. apply feqb_ok in A2.
  destruct (feqb (agg bs (rho 1%nat) (p_K q) * p_d2 q) _) eqn:A3; cbn [negb]; [|discriminate]. apply feqb_ok in A3.
  destruct (chain2_err (p_d1 qo) [] l) eqn:C; [discriminate|].
  destruct (feqb (last _ _) _) eqn:A4; [|discriminate]. apply feqb_ok in A4. intros X. injection X as <-. auto 10.
Qed.

(* C38: sec = 0 for Z, 1 for PKK *)
Definition section2 (sec : nat) (q : par2 E) : list E := if Nat.eqb sec 0 then p_Z q else p_K q.
Lemma c38 bs (rho rho' : nat -> nat -> nat -> E) f g h ho q qo l lo sec k hs hs' : 1 <= bs -> hdr_ok h -> hdr_ok ho ->
  is_file2 f h q l -> is_file2 g ho qo lo -> sec <= 1 -> k < length (section2 sec q) ->
  nth k (section2 sec q) 0 * p_d2 q <> nth k (section2 sec qo) 0 * p_d2 qo ->
  let n := length (section2 sec q) in
  (forall a b c, (a, b, c) <> (sec, (n - bs * (k / bs))%nat, (k mod bs)%nat) -> rho a b c = rho' a b c) ->
  fst (exec (verify2 bs rho) f g) = Ok hs -> fst (exec (verify2 bs rho') f g) = Ok hs' ->
  rho sec (n - bs * (k / bs))%nat (k mod bs)%nat = rho' sec (n - bs * (k / bs))%nat (k mod bs)%nat.
Proof.
  intros B H Ho F G Sc Hk Bad n Same A1 A2.
  assert (SzF : sized2 h q). { destruct F as [? [? [? [? [? [S0 _]]]]]]. exact S0. }
  assert (SzG : sized2 ho qo). { destruct G as [? [? [? [? [? [S0 _]]]]]]. exact S0. }
  rewrite (verify2_exec bs rho f g h ho q qo l lo) in A1 by auto. rewrite (verify2_exec bs rho' f g h ho q qo l lo) in A2 by auto.
  cbn [fst] in A1, A2. apply verdict2_ok in A1 as [_ [HE [_ [Z1 [K1 _]]]]]. apply verdict2_ok in A2 as [_ [_ [_ [Z2 [K2 _]]]]].
  apply hdr_eqb_dom in HE as [HD HW]. destruct SzF as [SZ SK], SzG as [SZo SKo].
  assert (Leq : length (section2 sec qo) = n).
  { unfold n, section2. destruct (Nat.eqb sec 0); apply Nat2Z.inj; congruence. }
  assert (Eq1 : agg bs (rho sec) (section2 sec q) * p_d2 q = agg bs (rho sec) (section2 sec qo) * p_d2 qo).
  { unfold section2. destruct sec as [|[|]]; [exact Z1|exact K1|lia]. }
  assert (Eq2 : agg bs (rho' sec) (section2 sec q) * p_d2 q = agg bs (rho' sec) (section2 sec qo) * p_d2 qo).
  { unfold section2. destruct sec as [|[|]]; [exact Z2|exact K2|lia]. }
  set (L := section2 sec q) in *. set (Lo := section2 sec qo) in *.
  assert (DF : forall X : list E, length X = n -> agg bs (rho sec) X - agg bs (rho' sec) X =
     nth k X 0 * (scal_of bs n (rho sec) k - scal_of bs n (rho' sec) k)).
  { intros X LX. unfold agg. rewrite LX.
    rewrite <- sumn_sub. rewrite (sumn_single _ n k _ Hk).
    - ring.
    - intros i Hi Ne. replace (scal_of bs n (rho sec) i) with (scal_of bs n (rho' sec) i); [ring|].
      unfold scal_of. symmetry. apply Same. intros Q. injection Q as Q1 Q2.
      apply Ne. rewrite (Nat.div_mod i bs), (Nat.div_mod k bs) by lia.
      assert (DB : forall j, (j < n)%nat -> (bs * (j / bs) <= j)%nat) by (intros; apply Nat.mul_div_le; lia).
      pose proof (DB i Hi). pose proof (DB k Hk). rewrite Q2. f_equal. lia. }
  assert (Fin : (nth k L 0 * p_d2 q - nth k Lo 0 * p_d2 qo) * (scal_of bs n (rho sec) k - scal_of bs n (rho' sec) k) = 0).
  { pose proof (DF L eq_refl) as D1. pose proof (DF Lo Leq) as D2.
    transitivity ((nth k L 0 * (scal_of bs n (rho sec) k - scal_of bs n (rho' sec) k)) * p_d2 q
                  - (nth k Lo 0 * (scal_of bs n (rho sec) k - scal_of bs n (rho' sec) k)) * p_d2 qo); [ring|].
    rewrite <- D1, <- D2.
    transitivity ((agg bs (rho sec) L * p_d2 q - agg bs (rho sec) Lo * p_d2 qo) - (agg bs (rho' sec) L * p_d2 q - agg bs (rho' sec) Lo * p_d2 qo)); [ring|].
    rewrite Eq1, Eq2. ring. }
  apply fmul_0_iff in Fin as [Fin|Fin].
  - exfalso. apply Bad. transitivity (nth k L 0 * p_d2 q - nth k Lo 0 * p_d2 qo + nth k Lo 0 * p_d2 qo); [ring|]. rewrite Fin. ring.
  - change (scal_of bs n (rho sec) k = scal_of bs n (rho' sec) k).
    transitivity (scal_of bs n (rho sec) k - scal_of bs n (rho' sec) k + scal_of bs n (rho' sec) k); [ring|]. rewrite Fin. ring.
Qed.

(* C40 *)
Lemma verify2_inv (c : contrib2 E) pd ph : verify_contrib2 c pd ph = None ->
  let k := d_key c in
  kS k * kSPX k = kSX k * chal (kS k) (kSX k) ph 1 /\
  d_delta c * chal (kS k) (kSX k) ph 1 = pd * kSPX k /\ hash_good2 c.
Proof.
  unfold verify_contrib2, check, same_ratio. change (@gen_sp E) with (@chal E).
  destruct (feqb (kS (d_key c) * _) _) eqn:A1; [|discriminate]. apply feqb_ok in A1.
  destruct (feqb (d_delta c * _) _) eqn:A2; [|discriminate]. apply feqb_ok in A2.
  destruct (bytes_eqb _ _) eqn:A3; [|discriminate]. apply bytes_eqb_eq in A3. auto.
Qed.
Lemma accepted_linked2 (c : contrib2 E) pd ph : verify_contrib2 c pd ph = None -> live2 c ph -> exists x, linked2 pd c x.
Proof.
  intros V [S0 C0]. apply verify2_inv in V as [V1 [V2 _]]. exists (kSX (d_key c) / kS (d_key c)). split.
  - apply (cancel_l (kS (d_key c) * chal (kS (d_key c)) (kSX (d_key c)) ph 1)); [now apply fmul_neq0|].
    transitivity (kS (d_key c) * (d_delta c * chal (kS (d_key c)) (kSX (d_key c)) ph 1)); [ring|]. rewrite V2.
    transitivity (pd * (kS (d_key c) * kSPX (d_key c))); [ring|]. rewrite V1. field. auto.
  - field. auto.
Qed.
Lemma chain2_nth : forall l (o : E) ph, chain2_err o ph l = None -> forall i c, nth_error l i = Some c ->
  verify_contrib2 c (last (map d_delta (firstn i l)) o) (last (map d_hash (firstn i l)) ph) = None.
Proof.
  induction l as [|a l IH]; intros o ph C i c Hi; [destruct i; discriminate|]. cbn [chain2_err] in C.
  destruct (verify_contrib2 a o ph) eqn:V; [discriminate|]. destruct i as [|i]; cbn in Hi.
  - injection Hi as <-. exact V.
  - cbn [firstn map]. rewrite !last_cons. now apply IH.
Qed.

(* C41 *)
Lemma rec2_vals_inj (c1 c2 : contrib2 E) : rec2_vals c1 = rec2_vals c2 -> d_hash c1 = d_hash c2 -> c1 = c2.
Proof. destruct c1 as [? [] ?], c2 as [? [] ?]. cbn. intros H. injection H as -> -> -> ->. now intros ->. Qed.
Lemma firstn_snoc {X} (m : list X) x i : (i < length m)%nat -> firstn i (m ++ [x]) = firstn i m.
Proof. intros H. rewrite firstn_app. replace (i - length m)%nat with 0%nat by lia. cbn. apply app_nil_r. Qed.
Lemma hash_binds2 (o : E) : forall n l1 l2, length l1 = n -> length l2 = n ->
  chain2_err o [] l1 = None -> chain2_err o [] l2 = None ->
  (forall c, In c l1 -> kS (d_key c) <> 0 /\ kSX (d_key c) <> 0) ->
  last_hash2 l1 = last_hash2 l2 -> l1 = l2 \/ exists i, collision2_at l1 l2 i.
Proof.
  induction n as [|n IH]; intros l1 l2 L1 L2 C1 C2 NZ H.
  - destruct l1, l2; try discriminate. now left.
  - destruct (snoc_cases l1) as [->|[m1 [c1 ->]]]; [discriminate|].
    destruct (snoc_cases l2) as [->|[m2 [c2 ->]]]; [discriminate|].
    rewrite app_length in L1, L2. cbn [length] in L1, L2.
    unfold last_hash2 in H. rewrite !map_app in H. cbn [map] in H. rewrite !last_snoc in H.
    rewrite chain2_app in C1, C2.
    destruct (chain2_err o [] m1) eqn:D1; [discriminate|]. destruct (chain2_err o [] m2) eqn:D2; [discriminate|].
    cbn [chain2_err] in C1, C2.
    destruct (verify_contrib2 c1 _ _) eqn:V1; [discriminate|].
    destruct (verify_contrib2 c2 _ _) eqn:V2 in C2; [discriminate|]. clear C1 C2.
    apply verify2_inv in V1 as [K1 [_ S1]]. apply verify2_inv in V2 as [K2 [_ S2]].
    assert (N1 : nth_error (m1 ++ [c1]) n = Some c1) by (rewrite nth_error_app2 by lia; replace (n - length m1)%nat with 0%nat by lia; reflexivity).
    assert (N2 : nth_error (m2 ++ [c2]) n = Some c2) by (rewrite nth_error_app2 by lia; replace (n - length m2)%nat with 0%nat by lia; reflexivity).
    assert (F1 : firstn n (m1 ++ [c1]) = m1) by (replace n with (length m1) by lia; apply firstn_app_exact).
    assert (F2 : firstn n (m2 ++ [c2]) = m2) by (replace n with (length m2) by lia; apply firstn_app_exact).
    destruct (bytes_eqb (enc_vals (rec2_vals c1)) (enc_vals (rec2_vals c2))) eqn:B.
    2:{ right. exists n, c1, c2. split; [auto|]. split; [auto|]. left. split; [|congruence].
        intros X. rewrite X, bytes_eqb_refl in B. discriminate. }
    apply bytes_eqb_eq in B. apply enc_vals_inj in B; [|reflexivity].
    assert (c1 = c2) by (apply rec2_vals_inj; auto). subst c2. clear N2.
    destruct (NZ c1) as [Z1 Z2]; [apply in_or_app; right; now left|].
    assert (SPE : chal (kS (d_key c1)) (kSX (d_key c1)) (last (map d_hash m1) []) 1 = chal (kS (d_key c1)) (kSX (d_key c1)) (last (map d_hash m2) []) 1).
    { apply (cancel_l (kSX (d_key c1))); auto. congruence. }
    destruct (bytes_eqb (last (map d_hash m1) []) (last (map d_hash m2) [])) eqn:HB.
    + apply bytes_eqb_eq in HB.
      destruct (IH m1 m2) as [->|[i [e1 [e2 [E1 [E2 Q]]]]]]; auto; try lia.
      * intros c Hc. apply NZ. apply in_or_app. now left.
      * right. exists i, e1, e2.
        assert (I1 : (i < length m1)%nat) by (apply nth_error_Some; congruence).
        assert (I2 : (i < length m2)%nat) by (apply nth_error_Some; congruence).
        rewrite !nth_error_app1 by auto. split; [auto|]. split; [auto|].
        unfold prev_hash in *. cbv beta zeta in Q |- *. rewrite !firstn_snoc by auto. exact Q.
    + right. exists n, c1, c1. rewrite N1. split; [auto|]. split; [rewrite nth_error_app2 by lia; replace (n - length m2)%nat with 0%nat by lia; auto|].
      right. unfold prev_hash. cbv beta zeta. rewrite F1, F2. split; [|exact SPE].
      intros X. apply app_inv_len in X; auto. destruct X as [_ X]. apply app_inv_len in X; auto. destruct X as [_ X].
      rewrite X, bytes_eqb_refl in HB. discriminate.
Qed.
Lemma c41 bs bs' (rho rho' : nat -> nat -> nat -> E) f f' g h h' ho (q q' qo : par2 E) l l' lo hs hs' : 1 <= bs -> 1 <= bs' ->
  hdr_ok h -> hdr_ok h' -> hdr_ok ho -> is_file2 f h q l -> is_file2 f' h' q' l' -> is_file2 g ho qo lo -> length l = length l' ->
  fst (exec (verify2 bs rho) f g) = Ok hs -> fst (exec (verify2 bs' rho') f' g) = Ok hs' ->
  (forall c, In c l -> kS (d_key c) <> 0 /\ kSX (d_key c) <> 0) ->
  last hs [] = last hs' [] -> l = l' \/ exists i, collision2_at l l' i.
Proof.
  intros B B' H H' Ho F F' G Len A A' NZ EH.
  rewrite (verify2_exec bs rho f g h ho q qo l lo) in A by auto. rewrite (verify2_exec bs' rho' f' g h' ho q' qo l' lo) in A' by auto.
  cbn [fst] in A, A'. apply verdict2_ok in A as [_ [_ [_ [_ [_ [C [_ ->]]]]]]]. apply verdict2_ok in A' as [_ [_ [_ [_ [_ [C' [_ ->]]]]]]].
  eapply hash_binds2; eauto.
Qed.

(* C42 *)
Lemma c42 (c : contrib E) : verify_contrib c origin_gen = None ->
  verify_contrib2 (mkC2 (c_tau1 c) (c_kt c) (sha E (enc_vals (rec2_vals (mkC2 (c_tau1 c) (c_kt c) []))))) 1 [] = None.
Proof.
  intros V. apply verify_inv in V. unfold verify_contrib2, check, same_ratio. change (@gen_sp E) with (@chal E). cbn [d_key d_delta d_hash].
  destruct V as [K1 [_ [_ [T1 _]]]]. cbn [origin_gen c_hash c_tau1] in K1, T1.
  rewrite (proj2 (feqb_ok _ _ _) K1), (proj2 (feqb_ok _ _ _) T1), compute_hash2_spec. cbn [rec2_vals d_delta d_key].
  rewrite bytes_eqb_refl. reflexivity.
Qed.
End Claims.
