(* FixedPf.v -- what the filterL of Fixed3.v does. *)
From Coq Require Import Sorted.
From Verif Require Import Base Fld Conc Parallel BitRev FFT Poly IO Ext Spec1 Phase1 Phase1Io Gob Circuit Spec3 Fs Init2 Init2Pure Spec33 Spec36 PartIff Spec37 Fixed3.

Section Count.
Context {X : Type}.
Lemma those_ext f g : forall (l : list X) i, (forall j, i <= j < i + length l -> f j = g j) -> those f i l = those g i l.
Proof. induction l as [|x l IH]; intros i H; [reflexivity|]. cbn [those length] in *. rewrite (H i) by lia. rewrite (IH (S i)) by (intros j J; apply H; lia). reflexivity. Qed.
Lemma those_none f : forall (l : list X) i, (forall j, i <= j < i + length l -> f j = false) -> those f i l = [].
Proof. induction l as [|x l IH]; intros i H; [reflexivity|]. cbn [those length] in *. rewrite (H i) by lia. apply IH. intros j J. apply H. lia. Qed.
Lemma those_or f g : forall (l : list X) i, (forall j, i <= j < i + length l -> f j = true -> g j = false) ->
  length (those (fun j => f j || g j) i l) = (length (those f i l) + length (those g i l))%nat.
Proof.
  induction l as [|x l IH]; intros i H; [reflexivity|]. cbn [those length] in *. pose proof (H i ltac:(lia)) as N. pose proof (IH (S i) ltac:(intros j J; apply H; lia)) as K.
  destruct (f i); [rewrite (N eq_refl)|destruct (g i)]; cbn [orb length]; lia.
Qed.
Lemma those_not f : forall (l : list X) i, (length (those f i l) + length (those (fun j => negb (f j)) i l))%nat = length l.
Proof. induction l as [|x l IH]; intros i; [reflexivity|]. cbn [those length]. pose proof (IH (S i)). destruct (f i); cbn [negb length]; lia. Qed.
Lemma those_below p : forall (l : list X) i, p <= i + length l -> length (those (fun j => j <? p) i l) = (p - i)%nat.
Proof.
  induction l as [|x l IH]; intros i H; cbn [those length] in *; [lia|]. destruct (Nat.ltb_spec i p); cbn [length]; rewrite IH by lia; lia.
Qed.
Lemma those_one w : forall (l : list X) i, i <= w < i + length l -> length (those (fun j => j =? w) i l) = 1%nat.
Proof.
  induction l as [|x l IH]; intros i H; cbn [those length] in *; [lia|]. destruct (Nat.eqb_spec i w) as [->|N].
  - cbn [length]. rewrite those_none; [reflexivity|]. intros j J. apply Nat.eqb_neq. lia.
  - apply IH. lia.
Qed.
Lemma those_in : forall (l : list X) rs i, StronglySorted lt rs -> Forall (fun w => i <= w < i + length l) rs ->
  length (those (fun j => existsb (Nat.eqb j) rs) i l) = length rs.
Proof.
  induction l as [|x l IH]; intros rs i S F; cbn [length] in *.
  - destruct F as [|w rs W F]; [reflexivity|lia].
  - cbn [those]. destruct rs as [|w rs].
    + cbn [existsb]. exact (IH [] (Datatypes.S i) S ltac:(constructor)).
    + inversion S as [|? ? S' SF]; subst. inversion F as [|? ? W F']; subst.
      cbn [existsb]. destruct (Nat.eqb_spec i w) as [->|N].
      * cbn [orb length]. f_equal.
        rewrite (those_ext _ (fun j => existsb (Nat.eqb j) rs)).
        -- apply IH; [exact S'|]. rewrite Forall_forall in *. intros v V. specialize (SF v V). specialize (F' v V). lia.
        -- intros j J. destruct (Nat.eqb_spec j w); [lia|reflexivity].
      * assert (K : existsb (Nat.eqb i) rs = false).
        { apply not_true_iff_false. intros Q. apply existsb_exists in Q as [v [V Q]]. apply Nat.eqb_eq in Q. subst v. rewrite Forall_forall in SF. specialize (SF i V). lia. }
        rewrite K. cbn [orb]. apply (IH (w :: rs)); [exact S|]. rewrite Forall_forall in *. intros v [<-|V]; [lia|]. specialize (SF v V). specialize (F' v V). lia.
Qed.
End Count.

Section P.
Context {E : Ext2}.
Definition isck (privs : list nat) (j : nat) : bool := existsb (Nat.eqb j) privs.
Definition isvk (c : commitment) (pub j : nat) : bool := (is_cmt c && (j =? cm_index c)) || (j <? pub).
Lemma loop_right pub c privs : priv_committed c = Some privs -> cm_nbpriv c = length privs ->
  forall (L : list E) i ds rs (a b d : list E), privs = ds ++ rs -> length ds = length d -> StronglySorted lt rs ->
  Forall (fun w => w < i) ds -> Forall (fun w => i <= w) rs -> i = (length a + length b + length d)%nat ->
  let P := those (fun j => negb (isck privs j || isvk c pub j)) i L in
  let V := those (fun j => negb (isck privs j) && isvk c pub j) i L in
  let K := those (isck privs) i L in
  exists v k, loop_fixed pub c i L (mkSplit (a ++ repeat (0%F : E) (length P)) (b ++ repeat (0%F : E) (length V)) (d ++ repeat (0%F : E) (length K)) (length b) (length d)) =
    Some (mkSplit (a ++ P) (b ++ V) (d ++ K) v k).
Proof.
  intros PC NP. induction L as [|x L IH]; intros i ds rs a b d Q LD S FD FR I; cbn zeta.
  - cbn [those length repeat loop_fixed]. rewrite !app_nil_r. eexists _, _. reflexivity.
  - cbn [loop_fixed]. unfold step_fixed. cbn [s_pkk s_vkk s_ckk s_v s_c].
    assert (CF : committed_fixed c (length d) i = Some (isck privs i)).
    { unfold committed_fixed. rewrite PC, NP, Q, <- LD, app_length. unfold isck. rewrite existsb_app.
      assert (D0 : existsb (Nat.eqb i) ds = false).
      { apply not_true_iff_false. intros Y. apply existsb_exists in Y as [v [V Y]]. apply Nat.eqb_eq in Y. subst v. rewrite Forall_forall in FD. specialize (FD i V). lia. }
      rewrite D0. cbn [orb]. destruct rs as [|w rs].
      - cbn [length existsb]. destruct (Nat.ltb_spec (length ds) (length ds + 0)); [lia|reflexivity].
      - cbn [length]. destruct (Nat.ltb_spec (length ds) (length ds + Datatypes.S (length rs))); [|lia].
        rewrite nth_error_app2, Nat.sub_diag by lia. cbn [nth_error existsb]. f_equal. destruct (Nat.eqb_spec i w) as [_|N]; [reflexivity|]. cbn [orb]. symmetry.
        apply not_true_iff_false. intros Y. apply existsb_exists in Y as [v [V Y]]. apply Nat.eqb_eq in Y. subst v.
        inversion S as [|? ? _ SF]; subst. inversion FR; subst. rewrite Forall_forall in SF. specialize (SF _ V). lia. }
    rewrite CF. cbn [those]. destruct (isck privs i) eqn:CK; cbn [negb orb andb].
    + cbn [length]. rewrite set_at_fill.
      assert (R : exists rs', rs = i :: rs').
      { unfold isck in CK. apply existsb_exists in CK as [v [V Y]]. apply Nat.eqb_eq in Y. subst v. rewrite Q in V. apply in_app_or in V as [V|V].
        - rewrite Forall_forall in FD. specialize (FD i V). lia.
        - destruct rs as [|w rs]; [contradiction|]. destruct V as [->|V]; [now exists rs|]. inversion S as [|? ? _ SF]; subst. inversion FR; subst. rewrite Forall_forall in SF. specialize (SF _ V). lia. }
      destruct R as [rs' ->]. inversion S as [|? ? S' SF]; subst.
      destruct (IH (Datatypes.S (length a + length b + length d)) (ds ++ [(length a + length b + length d)%nat]) rs' a b (d ++ [x])) as [v [k H]].
      * now rewrite <- app_assoc.
      * rewrite !app_length. cbn. lia.
      * exact S'.
      * apply Forall_app. split; [|repeat constructor]. eapply Forall_impl; [|exact FD]. cbn. lia.
      * eapply Forall_impl; [|exact SF]. cbn. lia.
      * rewrite app_length. cbn. lia.
      * rewrite app_length in H. cbn [length] in H. rewrite Nat.add_1_r in H. exists v, k. rewrite H. now rewrite <- app_assoc.
    + assert (FR' : Forall (fun w => Datatypes.S i <= w) rs).
      { rewrite Forall_forall in *. intros w W. specialize (FR w W). destruct (Nat.eq_dec i w) as [<-|N]; [|lia]. exfalso.
        assert (isck privs i = true) by (unfold isck; apply existsb_exists; exists i; split; [rewrite Q; apply in_or_app; now right|apply Nat.eqb_refl]). congruence. }
      assert (FD' : Forall (fun w => w < Datatypes.S i) ds) by (eapply Forall_impl; [|exact FD]; cbn; lia).
      fold (isvk c pub i). destruct (isvk c pub i) eqn:VK; cbn [negb length].
      * rewrite set_at_fill. destruct (IH (Datatypes.S i) ds rs a (b ++ [x]) d Q LD S FD' FR' ltac:(rewrite app_length; cbn; lia)) as [v [k H]].
        rewrite app_length in H. cbn [length] in H. rewrite Nat.add_1_r in H. exists v, k. rewrite H. now rewrite <- app_assoc.
      * replace (i - length d - length b)%nat with (length a) by lia. rewrite set_at_fill.
        destruct (IH (Datatypes.S i) ds rs (a ++ [x]) b d Q LD S FD' FR' ltac:(rewrite app_length; cbn; lia)) as [v [k H]].
        exists v, k. rewrite H. now rewrite <- app_assoc.
Qed.
Lemma fixed_right (cs : r1cs E) nb dom (L : list E) pubs privs : let c := r_cmt cs in
  cm_committed c = pubs ++ privs -> cm_nbpriv c = length privs -> StronglySorted lt privs -> Forall (fun w => nb_public cs <= w < wires cs) privs ->
  (cm_committed c <> [] -> nb_public cs <= cm_index c < wires cs /\ ~ In (cm_index c) privs) -> length L = wires cs ->
  let ck j := existsb (Nat.eqb j) privs in
  let vk j := (j <? nb_public cs) || match cm_committed c with [] => false | _ => j =? cm_index c end in
  filterL_fixed L (nb_public cs) (header2_of cs nb dom) c =
    Some (those (fun j => negb (ck j || vk j)) 0 L, those vk 0 L, those ck 0 L).
Proof.
  intros c C1 C2 S F CI HL ck vk.
  assert (PC : priv_committed c = Some privs).
  { unfold priv_committed. rewrite C1, C2, app_length. destruct (Nat.leb_spec (length privs) (length pubs + length privs)); [|lia].
    replace (length pubs + length privs - length privs)%nat with (length pubs) by lia. now rewrite skipn_app, skipn_all, Nat.sub_diag. }
  assert (VE : forall j, isvk c (nb_public cs) j = vk j).
  { intros j. unfold isvk, vk, is_cmt. rewrite orb_comm. destruct (cm_committed c); reflexivity. }
  assert (DJ : forall j, ck j = true -> vk j = false).
  { intros j Y. apply existsb_exists in Y as [w [W Y]]. apply Nat.eqb_eq in Y. subst w. rewrite Forall_forall in F. specialize (F j W). unfold vk.
    destruct (Nat.ltb_spec j (nb_public cs)); [lia|]. cbn [orb]. destruct (cm_committed c) as [|y l]; [reflexivity|]. destruct (CI ltac:(discriminate)) as [_ NI].
    apply Nat.eqb_neq. intros ->. contradiction. }
  assert (LK : length (those ck 0 L) = length privs) by (apply those_in; [exact S|]; rewrite HL; eapply Forall_impl; [|exact F]; cbn; lia).
  assert (WP : nb_public cs <= wires cs) by (unfold wires; lia).
  assert (LV : length (those vk 0 L) = (nb_public cs + match cm_committed c with [] => 0 | _ => 1 end)%nat).
  { unfold vk. rewrite those_or.
    2: { intros j _ Y. apply Nat.ltb_lt in Y. destruct (cm_committed c) as [|y l]; [reflexivity|]. destruct (CI ltac:(discriminate)) as [? _]. apply Nat.eqb_neq. lia. }
    rewrite those_below by (rewrite HL; lia).
    rewrite Nat.sub_0_r. f_equal. destruct (cm_committed c) as [|y l]; [rewrite those_none; reflexivity|]. apply those_one. destruct (CI ltac:(discriminate)) as [? _]. lia. }
  pose proof (those_not (fun j => ck j || vk j) L 0) as LP. rewrite those_or in LP by (intros j _; apply DJ). rewrite LK, LV, HL in LP.
  destruct (loop_right (nb_public cs) c privs PC C2 L 0 [] privs [] [] [] eq_refl eq_refl S ltac:(constructor) ltac:(eapply Forall_impl; [|exact F]; cbn; lia) eq_refl) as [v [k H]].
  cbn [app length] in H. change (isck privs) with ck in H.
  rewrite (those_ext (fun j => negb (isck privs j || isvk c (nb_public cs) j)) (fun j => negb (ck j || vk j))) in H by (intros j _; now rewrite VE).
  rewrite (those_ext (fun j => negb (isck privs j) && isvk c (nb_public cs) j) vk) in H
    by (intros j _; rewrite VE; change (isck privs j) with (ck j); destruct (ck j) eqn:Y; [now rewrite (DJ j Y)|reflexivity]).
  rewrite LK, LV in H. set (np := length (those (fun j => negb (ck j || vk j)) 0 L)) in *.
  assert (HH : h_witness (header2_of cs nb dom) = Z.of_nat np /\
    h_public (header2_of cs nb dom) = Z.of_nat (nb_public cs + match cm_committed c with [] => 0 | _ => 1 end) /\ h_privc (header2_of cs nb dom) = Z.of_nat (length privs)).
  { unfold header2_of, is_cmt. fold c. rewrite C2. unfold wires in LP. destruct (cm_committed c); cbn [length Nat.eqb negb h_witness h_public h_privc]; lia. }
  destruct HH as [H1 [H2 H3]]. unfold filterL_fixed, zeros. rewrite H1, H2, H3, !Nat2Z.id.
  destruct (Z.ltb_spec (Z.of_nat np) 0); [lia|]. destruct (Z.ltb_spec (Z.of_nat (length privs)) 0); [lia|].
  match goal with |- context [(?z <? 0)%Z] => destruct (Z.ltb_spec z 0); [lia|] end. cbn [orb]. rewrite H. reflexivity.
Qed.
End P.
