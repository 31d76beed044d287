(* PartIff.v -- filterL for any data about a commitment. *)
From Verif Require Import Base Fld Conc Parallel BitRev FFT Poly IO Ext Spec1 Phase1 Phase1Io Gob Circuit Spec3 Fs Init2 Init2Pure Spec36.

Section P.
Context {E : Ext2}.
Lemma set_full (a : list E) x : set_at (a ++ repeat (0%F : E) 0) (length a) x = None.
Proof. unfold set_at. cbn [repeat]. rewrite app_nil_r. destruct (Nat.ltb_spec (length a) (length a)); [lia|reflexivity]. Qed.
Lemma cmp_true c n i : committed_private c n i = Some true <->
  n < cm_nbpriv c /\ cm_nbpriv c <= length (cm_committed c) /\ nth_error (private_of c) i = Some i.
Proof.
  unfold committed_private, priv_committed. fold (private_of c). destruct (Nat.ltb_spec n (cm_nbpriv c)) as [H|H]; [|split; [discriminate|lia]].
  destruct (Nat.leb_spec (cm_nbpriv c) (length (cm_committed c))) as [K|K]; [|split; [discriminate|lia]].
  destruct (nth_error (private_of c) i) as [w|]; [|split; [discriminate|intros [_ [_ Q]]; discriminate]].
  destruct (Nat.eqb_spec i w) as [->|N]; [tauto|]. split; [discriminate|]. intros [_ [_ Q]]. congruence.
Qed.
Lemma cmp_false c n i : committed_private c n i = Some false <->
  (n < cm_nbpriv c -> cm_nbpriv c <= length (cm_committed c) /\ exists w, nth_error (private_of c) i = Some w /\ w <> i).
Proof.
  unfold committed_private, priv_committed. fold (private_of c). destruct (Nat.ltb_spec n (cm_nbpriv c)) as [H|H]; [|split; [lia|reflexivity]].
  destruct (Nat.leb_spec (cm_nbpriv c) (length (cm_committed c))) as [K|K]; [|split; [discriminate|intros Q; specialize (Q H); lia]].
  destruct (nth_error (private_of c) i) as [w|]; [|split; [discriminate|intros Q; destruct (Q H) as [_ [w [Y _]]]; discriminate]].
  destruct (Nat.eqb_spec i w) as [->|N].
  - split; [discriminate|]. intros Q. destruct (Q H) as [_ [w' [Y Y']]]. congruence.
  - split; [|reflexivity]. intros _ _. split; [exact K|]. exists w. split; [reflexivity|congruence].
Qed.
Lemma to_vk_iff c h i : (is_cmt c && (i =? cm_index c)) || (Z.of_nat i <? h_public h)%Z = true <-> to_vk c (h_public h) i.
Proof.
  unfold to_vk, is_cmt. rewrite orb_true_iff, andb_true_iff, negb_true_iff, Nat.eqb_neq, Nat.eqb_eq, Z.ltb_lt.
  destruct (cm_committed c); cbn [length]; split; intros [[A B]|B]; try (right; exact B); try (left; split; [discriminate|exact B]);
    try (left; split; [lia|exact B]); try (now contradiction A).
Qed.
Lemma shift (a : list E) x p n : (a ++ [x]) ++ p ++ repeat (0%F : E) (n - length p) = a ++ (x :: p) ++ repeat (0%F : E) (S n - length (x :: p)).
Proof. cbn [length Nat.sub]. now rewrite <- app_assoc. Qed.
Lemma loop_iff h c : forall L i (a b d : list E) na nb nc r, i = (length a + length b + length d)%nat ->
  (filter_loop h c i L (mkSplit (a ++ repeat (0%F : E) na) (b ++ repeat (0%F : E) nb) (d ++ repeat (0%F : E) nc) (length b) (length d)) = Some r <->
   exists p v k, parted c (h_public h) i (length d) L p v k /\ length p <= na /\ length v <= nb /\ length k <= nc /\
     r = mkSplit (a ++ p ++ repeat (0%F : E) (na - length p)) (b ++ v ++ repeat (0%F : E) (nb - length v)) (d ++ k ++ repeat (0%F : E) (nc - length k))
       (length b + length v) (length d + length k)).
Proof.
  induction L as [|x L IH]; intros i a b d na nb nc r I; cbn [filter_loop].
  - split.
    + intros [= <-]. exists [], [], []. split; [constructor|]. cbn [length app]. rewrite !Nat.sub_0_r, !Nat.add_0_r. repeat split; lia.
    + intros [p [v [k [Q [_ [_ [_ ->]]]]]]]. inversion Q; subst. cbn [length app]. now rewrite !Nat.sub_0_r, !Nat.add_0_r.
  - unfold filter_step. cbn [s_pkk s_vkk s_ckk s_v s_c].
    destruct (committed_private c (length d) i) as [[|]|] eqn:CP.
    + pose proof (proj1 (cmp_true _ _ _) CP) as [C1 [C2 C3]].
      assert (NF : ~ (length d < cm_nbpriv c -> cm_nbpriv c <= length (cm_committed c) /\ exists w, nth_error (private_of c) i = Some w /\ w <> i))
        by (intros Q; destruct (Q C1) as [_ [w [Y Y']]]; congruence).
      destruct nc as [|nc].
      * rewrite set_full. split; [discriminate|]. intros [p [v [k [Q [_ [_ [K _]]]]]]]. inversion Q; subst; [cbn in K; lia|contradiction|contradiction].
      * rewrite set_at_fill. pose proof (IH (S i) a b (d ++ [x]) na nb nc r ltac:(rewrite app_length; cbn; lia)) as H.
        rewrite app_length in H. cbn [length] in H. rewrite Nat.add_1_r in H. rewrite H. clear H IH. split.
        -- intros [p [v [k [Q [A1 [A2 [A3 ->]]]]]]]. exists p, v, (x :: k). split; [now constructor|]. split; [exact A1|]. split; [exact A2|]. split; [cbn; lia|].
           rewrite shift. cbn [length]. f_equal; lia.
        -- intros [p [v [k [Q [A1 [A2 [A3 ->]]]]]]]. inversion Q; subst; [|contradiction|contradiction]. exists p, v, k0. split; [assumption|]. cbn [length] in A3. repeat (split; [lia|]).
           rewrite shift. cbn [length]. f_equal; lia.
    + pose proof (proj1 (cmp_false _ _ _) CP) as CF.
      assert (NT : ~ (length d < cm_nbpriv c /\ cm_nbpriv c <= length (cm_committed c) /\ nth_error (private_of c) i = Some i))
        by (intros Q; apply cmp_true in Q; congruence).
      destruct ((is_cmt c && (i =? cm_index c)) || (Z.of_nat i <? h_public h)%Z) eqn:TV.
      * apply to_vk_iff in TV. destruct nb as [|nb].
        -- rewrite set_full. split; [discriminate|]. intros [p [v [k [Q [_ [K _]]]]]]. inversion Q; subst; [now contradiction NT|cbn in K; lia|contradiction].
        -- rewrite set_at_fill. pose proof (IH (S i) a (b ++ [x]) d na nb nc r ltac:(rewrite app_length; cbn; lia)) as H.
           rewrite app_length in H. cbn [length] in H. rewrite Nat.add_1_r in H. rewrite H. clear H IH. split.
           ++ intros [p [v [k [Q [A1 [A2 [A3 ->]]]]]]]. exists p, (x :: v), k. split; [now apply pt_vk|]. split; [exact A1|]. split; [cbn; lia|]. split; [exact A3|].
              rewrite shift. cbn [length]. f_equal; lia.
           ++ intros [p [v [k [Q [A1 [A2 [A3 ->]]]]]]]. inversion Q; subst; [now contradiction NT| |contradiction]. exists p, v0, k. split; [assumption|]. cbn [length] in A2. repeat (split; [lia|]).
              rewrite shift. cbn [length]. f_equal; lia.
      * assert (NV : ~ to_vk c (h_public h) i) by (intros Q; apply to_vk_iff in Q; congruence).
        replace (i - length d - length b)%nat with (length a) by lia. destruct na as [|na].
        -- rewrite set_full. split; [discriminate|]. intros [p [v [k [Q [K _]]]]]. inversion Q; subst; [now contradiction NT|contradiction|cbn in K; lia].
        -- rewrite set_at_fill. pose proof (IH (S i) (a ++ [x]) b d na nb nc r ltac:(rewrite app_length; cbn; lia)) as H. rewrite H. clear H IH. split.
           ++ intros [p [v [k [Q [A1 [A2 [A3 ->]]]]]]]. exists (x :: p), v, k. split; [now apply pt_pk|]. split; [cbn; lia|]. split; [exact A2|]. split; [exact A3|].
              rewrite shift. reflexivity.
           ++ intros [p [v [k [Q [A1 [A2 [A3 ->]]]]]]]. inversion Q; subst; [now contradiction NT|contradiction|]. exists p0, v, k. split; [assumption|]. cbn [length] in A1. repeat (split; [lia|]).
              rewrite shift. reflexivity.
    + clear I IH. split; [discriminate|]. intros [p [v [k [Q _]]]]. inversion Q; subst.
      * assert (committed_private c (length d) i = Some true) by (apply cmp_true; auto). congruence.
      * assert (committed_private c (length d) i = Some false) by now apply cmp_false. congruence.
      * assert (committed_private c (length d) i = Some false) by now apply cmp_false. congruence.
Qed.
Lemma part_iff (L : list E) h c pkk vkk ckk :
  filterL L h c = Some (pkk, vkk, ckk) <->
  (0 <= h_witness h)%Z /\ (0 <= h_public h)%Z /\ (0 <= h_privc h)%Z /\
  exists p v k, parted c (h_public h) 0 0 L p v k /\
    (Z.of_nat (length p) <= h_witness h)%Z /\ (Z.of_nat (length v) <= h_public h)%Z /\ (Z.of_nat (length k) <= h_privc h)%Z /\
    pkk = p ++ repeat (0%F : E) (Z.to_nat (h_witness h) - length p) /\ vkk = v ++ repeat (0%F : E) (Z.to_nat (h_public h) - length v) /\
    ckk = k ++ repeat (0%F : E) (Z.to_nat (h_privc h) - length k).
Proof.
  unfold filterL, zeros. destruct (Z.ltb_spec (h_witness h) 0) as [A|A]; [split; [discriminate|lia]|].
  destruct (Z.ltb_spec (h_public h) 0) as [B|B]; [split; [discriminate|lia]|]. destruct (Z.ltb_spec (h_privc h) 0) as [C|C]; [split; [discriminate|lia]|]. cbn [orb].
  pose proof (fun r => loop_iff h c L 0 [] [] [] (Z.to_nat (h_witness h)) (Z.to_nat (h_public h)) (Z.to_nat (h_privc h)) r eq_refl) as H. cbn [app length Nat.add] in H.
  split.
  - destruct (filter_loop _ _ _ _ _) as [s|] eqn:Q; [|discriminate]. intros [= <- <- <-]. destruct (proj1 (H s) eq_refl) as [p [v [k [P [A1 [A2 [A3 ->]]]]]]].
    do 3 (split; [assumption|]). exists p, v, k. split; [exact P|]. cbn [s_pkk s_vkk s_ckk]. repeat split; lia.
  - intros [_ [_ [_ [p [v [k [P [A1 [A2 [A3 [-> [-> ->]]]]]]]]]]]]. rewrite (proj2 (H _) ltac:(exists p, v, k; split; [exact P|]; split; [lia|]; split; [lia|]; split; [lia|reflexivity])). reflexivity.
Qed.
End P.
