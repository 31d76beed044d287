(* Init2Pure.v -- the computations of phase-2 initialisation that do no I/O. *)
From Verif Require Import Base Fld Conc Parallel BitRev FFT Poly IO Ext Spec1 Phase1 Phase1Io Gob Circuit Spec3 Fs Init2.

(* ---- nextPowerofTwo ---- *)
Lemma np2_spec (n : Z) : forall fuel j, j + fuel = 28 -> 1 <= j -> (forall i, 1 <= i < j -> (2 ^ Z.of_nat i < n)%Z) ->
  (exists k, 1 <= k <= 27 /\ np2 fuel (2 ^ Z.of_nat j) n = Some (2 ^ Z.of_nat k)%Z /\ (n <= 2 ^ Z.of_nat k)%Z /\
     forall i, 1 <= i < k -> (2 ^ Z.of_nat i < n)%Z) \/
  (np2 fuel (2 ^ Z.of_nat j) n = None /\ forall i, 1 <= i < 28 -> (2 ^ Z.of_nat i < n)%Z).
Proof.
  induction fuel as [|fuel IH]; intros j H1 H2 H3.
  - right. split; [reflexivity|]. intros i Hi. apply H3. lia.
  - cbn [np2]. destruct (Z.leb_spec n (2 ^ Z.of_nat j)).
    + left. exists j. split; [lia|]. split; [reflexivity|]. split; [auto|]. intros i Hi. apply H3. lia.
    + assert (W : wrap64 (2 ^ Z.of_nat j * 2) = (2 ^ Z.of_nat (S j))%Z).
      { assert (0 < 2 ^ Z.of_nat j <= 2 ^ 27)%Z by (split; [apply Z.pow_pos_nonneg; lia|apply Z.pow_le_mono_r; lia]).
        rewrite Nat2Z.inj_succ, Z.pow_succ_r by lia.
        rewrite wrap64_small; unfold two63; [ring|change (2 ^ 27)%Z with 134217728%Z in *; lia]. }
      rewrite W. apply IH; [lia|lia|]. intros i Hi. destruct (Nat.eq_dec i j) as [->|]; [auto|apply H3; lia].
Qed.
Lemma next_pow2_spec (n : Z) :
  (n <= 2 ^ 27 -> exists k, 1 <= k <= 27 /\ next_pow2 n = Some (2 ^ k) /\ n <= 2 ^ k /\
     forall j, 1 <= j -> n <= 2 ^ j -> k <= j)%Z /\
  (2 ^ 27 < n -> next_pow2 n = None)%Z.
Proof.
  destruct (np2_spec n 27 1 eq_refl ltac:(lia)) as [[k [K1 [K2 [K3 K4]]]]|[N1 N2]]; [intros i Hi; lia| |].
  - split.
    + intros _. exists (Z.of_nat k). split; [lia|]. split; [exact K2|]. split; [auto|].
      intros j J1 J2. destruct (Z.le_gt_cases (Z.of_nat k) j); [auto|].
      specialize (K4 (Z.to_nat j) ltac:(lia)). rewrite Z2Nat.id in K4 by lia. lia.
    + intros H. assert (2 ^ Z.of_nat k <= 2 ^ 27)%Z by (apply Z.pow_le_mono_r; lia). lia.
  - split; [|intros _; exact N1]. intros H. specialize (N2 27%nat ltac:(lia)).
    change (Z.of_nat 27) with 27%Z in N2. lia.
Qed.
Lemma next_pow2_fits (n d : Z) (p : nat) : 1 <= p -> next_pow2 n = Some d -> (n <= 2 ^ Z.of_nat p)%Z ->
  exists k, 1 <= k <= 27 /\ k <= p /\ d = Z.of_nat (2 ^ k) /\ (n <= d)%Z.
Proof.
  intros Hp E H. destruct (next_pow2_spec n) as [H1 H2].
  destruct (Z.le_gt_cases n (2 ^ 27)) as [L|L]; [|rewrite H2 in E by lia; discriminate].
  destruct (H1 L) as [k [K1 [K2 [K3 K4]]]]. rewrite K2 in E. injection E as <-.
  exists (Z.to_nat k). specialize (K4 (Z.of_nat p) ltac:(lia) H).
  split; [lia|]. split; [lia|]. rewrite Nat2Z.inj_pow, Z2Nat.id by lia. auto.
Qed.
Lemma log2_up_pow k : Z.to_nat (Z.log2_up (Z.of_nat (2 ^ k))) = k.
Proof. rewrite Nat2Z.inj_pow. change (Z.of_nat 2) with 2%Z. rewrite Z.log2_up_pow2 by lia. lia. Qed.

(* ---- characteristic not 2 ---- *)
Local Open Scope fld_scope.
Section Char.
Context {K : Fld}.
Add Field Kfld : (f_th K).
Lemma fnat_add a b : fnat (a + b) = fnat a + fnat b :> K.
Proof. induction a as [|a IH]; cbn [fnat Nat.add]; [ring|]. rewrite IH. ring. Qed.
Lemma fnat_pow2 k : (1 : K) + 1 <> 0 -> (fnat (2 ^ k) : K) <> 0.
Proof.
  intros H. induction k as [|k IH]; [cbn; intros X; apply (f1_neq_0 K); rewrite <- X; ring|].
  replace (2 ^ S k)%nat with (2 ^ k + 2 ^ k)%nat by (cbn; lia). rewrite fnat_add.
  replace (fnat (2 ^ k) + fnat (2 ^ k)) with ((1 + 1) * (fnat (2 ^ k) : K)) by ring. now apply fmul_neq0.
Qed.
End Char.

Section Pure.
Context {E : Ext2}.
Add Field Kfld2 : (f_th E).

Lemma new_domain_pow k : k <= kmax E -> new_domain (E := E) (Z.of_nat (2 ^ k)) = Some k.
Proof.
  intros H. unfold new_domain. destruct (Z.ltb_spec (Z.of_nat (2 ^ k)) 0); [lia|].
  rewrite log2_up_pow. destruct (Nat.ltb_spec (kmax E) k); [lia|auto].
Qed.

Lemma root_neq0 k : 1 <= k <= kmax E -> root (e := E) k <> 0.
Proof.
  intros H X. pose proof (root_ok E k H) as R. rewrite X in R.
  rewrite fpow_0_l in R by (apply Nat.pow_nonzero; lia).
  apply (f1_neq_0 E). transitivity (- (- (1)) : E); [ring|]. rewrite <- R. ring.
Qed.
Lemma convert_ok k (a : list E) : 1 <= k <= kmax E -> length a = (2 ^ k)%nat ->
  exists b, convert (ncpu E) (domain_of k) a = Some b /\ lag_basis (2 ^ k) (root k) a b.
Proof.
  intros Hk La. pose proof (kmax_lt E).
  destruct (fft_lagrange k (root k) (finv (root k)) (ncpu E) a) as [b [p [C [Lb [_ [_ [_ [_ H']]]]]]]].
  - apply ncpu_pos.
  - lia.
  - now apply finv_r, root_neq0.
  - now apply root_ok.
  - apply fnat_pow2, char_ok.
  - auto.
  - exists b. split; [exact C|]. split; auto.
Qed.
Lemma convert_length k (a b : list E) : 1 <= k <= kmax E -> length a = (2 ^ k)%nat ->
  convert (ncpu E) (domain_of k) a = Some b -> length b = (2 ^ k)%nat.
Proof. intros H1 H2 H3. destruct (convert_ok k a H1 H2) as [b' [X [Y _]]]. congruence. Qed.

(* ---- accumulation ---- *)
Lemma accumulate_spec (cs : r1cs E) (r v : E) t : (t_coeff t < 4 \/ t_coeff t < length (r_coeffs cs)) ->
  accumulate cs r t v = Some (r + cval cs (t_coeff t) * v).
Proof.
  intros H. unfold accumulate, cval. destruct (t_coeff t) as [|[|[|[|c]]]]; try (f_equal; ring).
  rewrite (@nth_error_nth_lt E _ _ 0) by lia. f_equal. ring.
Qed.

Lemma nth_upd (l : list E) i j x : nth j (upd l i x) 0 = if (i =? j) && (j <? length l) then x else nth j l 0.
Proof.
  rewrite !nth_nth_error, nth_error_upd. destruct (Nat.eqb_spec i j) as [->|]; cbn [andb]; [|auto].
  destruct (Nat.ltb_spec j (length l)); cbn [andb]; auto. 
Qed.

Lemma acc_terms_spec (cs : r1cs E) srs i : forall ts buff,
  (forall t, In t ts -> term_ok cs t) -> length buff = wires cs -> i < length srs ->
  exists b, acc_terms cs srs i ts buff = Some b /\ length b = wires cs /\
    forall w, nth w b 0 = nth w buff 0 + (if w <? wires cs then entry cs ts w * nth i srs 0 else 0).
Proof.
  induction ts as [|t ts IH]; intros buff H L Hi; cbn [acc_terms].
  - exists buff. split; [auto|]. split; [auto|]. intros w. unfold entry, fsum. cbn [map fold_right]. destruct (w <? wires cs); ring.
  - destruct (H t (or_introl eq_refl)) as [T1 T2].
    rewrite (@nth_error_nth_lt E buff (t_wire t) 0), (@nth_error_nth_lt E srs i 0) by lia.
    rewrite accumulate_spec by auto.
    destruct (IH (upd buff (t_wire t) (nth (t_wire t) buff 0 + cval cs (t_coeff t) * nth i srs 0))) as [b [B1 [B2 B3]]];
      [intros; apply H; now right|now rewrite upd_length|auto|].
    exists b. split; [auto|]. split; [auto|]. intros w. rewrite B3, nth_upd, L.
    unfold entry, fsum. cbn [map fold_right].
    destruct (Nat.eqb_spec (t_wire t) w) as [<-|N]; cbn [andb].
    + destruct (Nat.ltb_spec (t_wire t) (wires cs)); [|lia]. ring.
    + destruct (w <? wires cs); ring.
Qed.
Lemma acc_cons_spec (cs : r1cs E) sel srs : forall cons i buff,
  (forall c t, In c cons -> In t (sel c) -> term_ok cs t) -> length buff = wires cs -> i + length cons <= length srs ->
  exists b, acc_cons cs sel srs i cons buff = Some b /\ length b = wires cs /\
    forall w, w < wires cs -> nth w b 0 = nth w buff 0 +
      sumn (length cons) (fun j => entry cs (sel (nth j cons (mkR1c [] [] []))) w * nth (i + j)%nat srs 0).
Proof.
  induction cons as [|c cons IH]; intros i buff H L Hi; cbn [acc_cons length].
  - exists buff. split; [auto|]. split; [auto|]. intros w _. rewrite sumn_0. ring.
  - cbn [length] in Hi. destruct (acc_terms_spec cs srs i (sel c) buff) as [b1 [B1 [B2 B3]]];
      [intros t Ht; eapply H; [now left|auto]|auto|lia|].
    rewrite B1. destruct (IH (S i) b1) as [b [C1 [C2 C3]]]; [intros c' t Hc Ht; eapply H; [right; eauto|auto]|auto|lia|].
    exists b. split; [auto|]. split; [auto|]. intros w Hw. rewrite C3, B3 by auto.
    destruct (Nat.ltb_spec w (wires cs)); [|lia].
    rewrite (sumn_split E 1 (length cons)), sumn_S, sumn_0. cbn [nth Nat.add]. rewrite Nat.add_0_r.
    replace (sumn (length cons) (fun i0 => entry cs (sel (nth i0 cons (mkR1c [] [] []))) w * nth (i + S i0)%nat srs 0))
      with (sumn (length cons) (fun j => entry cs (sel (nth j cons (mkR1c [] [] []))) w * nth (S i + j)%nat srs 0)).
    + cbn [Nat.add]. ring.
    + apply sumn_ext. intros j _. now replace (S i + j)%nat with (i + S j)%nat by lia.
Qed.
Lemma nth_list_ext (l1 l2 : list E) n : length l1 = n -> length l2 = n ->
  (forall i, i < n -> nth i l1 0 = nth i l2 0) -> l1 = l2.
Proof.
  intros L1 L2 H. apply list_ext. intros i. destruct (Nat.lt_ge_cases i n).
  - rewrite !(@nth_error_nth_lt E _ _ 0) by lia. f_equal. auto.
  - assert (nth_error l1 i = None /\ nth_error l2 i = None) as [-> ->]; [|auto]. split; apply nth_error_None; lia.
Qed.
Lemma nth_repeat_0 n i : nth i (repeat (0 : E) n) 0 = 0.
Proof. revert i. induction n; intros [|i]; cbn; auto. Qed.
Lemma cols_length (cs : r1cs E) sel v : length (cols cs sel v) = wires cs.
Proof. unfold cols. now rewrite map_length, seq_length. Qed.
Lemma nth_cols (cs : r1cs E) sel v w : w < wires cs -> nth w (cols cs sel v) 0 = col cs sel v w.
Proof. intros H. unfold cols. now rewrite nth_map_seq. Qed.

Definition padd (a b : list E) : list E := map (fun i => nth i a 0 + nth i b 0) (seq 0 (length a)).
Lemma acc_all (cs : r1cs E) sel srs buff : circuit_ok cs ->
  (sel = r_L \/ sel = r_R \/ sel = r_O) -> length buff = wires cs -> length (r_cons cs) <= length srs ->
  acc_cons cs sel srs 0 (r_cons cs) buff = Some (padd buff (cols cs sel srs)).
Proof.
  intros H S L Hl.
  destruct (acc_cons_spec cs sel srs (r_cons cs) 0 buff) as [b [B1 [B2 B3]]]; [|auto|auto|].
  - intros c t Hc Ht. apply (H c Hc). rewrite !in_app_iff. destruct S as [->|[->| ->]]; auto.
  - rewrite B1. f_equal. apply (nth_list_ext _ _ (wires cs)); [auto|unfold padd; now rewrite map_length, seq_length|].
    intros w Hw. rewrite B3 by auto. unfold padd. rewrite nth_map_seq by lia. rewrite nth_cols by auto. reflexivity.
Qed.
Lemma padd_0 n (b : list E) : length b = n -> padd (repeat (0 : E) n) b = b.
Proof.
  intros L. unfold padd. rewrite repeat_length. apply (nth_list_ext _ _ n); [now rewrite map_length, seq_length|auto|].
  intros i Hi. rewrite nth_map_seq by auto. rewrite nth_repeat_0. cbn. ring.
Qed.
Lemma padd_length a b : length (padd a b) = length a.
Proof. unfold padd. now rewrite map_length, seq_length. Qed.
Lemma nth_padd a b i : i < length a -> nth i (padd a b) 0 = nth i a 0 + nth i b 0.
Proof. intros H. unfold padd. now rewrite nth_map_seq. Qed.

Lemma h_wires_spec (cs : r1cs E) nb dom : h_wires (header2_of cs nb dom) = Z.of_nat (wires cs).
Proof. unfold header2_of, wires. destruct (is_cmt _); cbn [h_wires]; lia. Qed.
Lemma zeros_wires (cs : r1cs E) nb dom : zeros (h_wires (header2_of cs nb dom)) = repeat (0 : E) (wires cs).
Proof. unfold zeros. now rewrite h_wires_spec, Nat2Z.id. Qed.

(* ---- filterL without commitment ---- *)
Lemma upd_app_r (a b : list E) x : upd (a ++ b) (length a) x = a ++ upd b 0 x.
Proof. unfold upd. rewrite firstn_app_exact, skipn_app_exact. reflexivity. Qed.
Lemma set_at_fill (a : list E) n x : set_at (a ++ repeat 0 (S n)) (length a) x = Some ((a ++ [x]) ++ repeat 0 n).
Proof.
  unfold set_at. rewrite app_length, repeat_length. destruct (Nat.ltb_spec (length a) (length a + S n)); [|lia].
  rewrite upd_app_r. cbn [repeat]. unfold upd. cbn. now rewrite <- app_assoc.
Qed.

Lemma filter_loop_nocmt h c (pub wit : nat) : (forall i, is_cmt c && (i =? cm_index c)%nat = true -> (i < pub)%nat) -> cm_nbpriv c = 0%nat -> h_public h = Z.of_nat pub ->
  forall L2 L1 : list E, (length L1 + length L2 = pub + wit)%nat ->
  filter_loop h c (length L1) L2
    (mkSplit (skipn pub L1 ++ repeat 0 (wit - (length L1 - pub))%nat)
             (firstn pub L1 ++ repeat 0 (pub - length L1)%nat) [] (Nat.min (length L1) pub) 0) =
  Some (mkSplit (skipn pub (L1 ++ L2)) (firstn pub (L1 ++ L2)) [] (Nat.min (length (L1 ++ L2)) pub) 0).
Proof.
  intros C1 C2 Hp. induction L2 as [|x L2 IH]; intros L1 HL.
  - cbn [filter_loop]. rewrite app_nil_r. cbn [length] in HL.
    replace (wit - (length L1 - pub))%nat with 0%nat by lia. replace (pub - length L1)%nat with 0%nat by lia.
    cbn [repeat]. now rewrite !app_nil_r.
  - cbn [filter_loop length] in *. unfold filter_step. cbn [s_pkk s_vkk s_ckk s_v s_c].
    unfold committed_private. rewrite C2. cbn [Nat.ltb Nat.leb]. rewrite Hp.
    assert (Q : (is_cmt c && (length L1 =? cm_index c)%nat || (Z.of_nat (length L1) <? Z.of_nat pub)%Z)%bool =
                (Z.of_nat (length L1) <? Z.of_nat pub)%Z).
    { destruct (is_cmt c && (length L1 =? cm_index c)%nat)%bool eqn:Y; [|reflexivity]. apply C1 in Y.
      cbn [orb]. symmetry. apply Z.ltb_lt. lia. }
    rewrite Q. clear Q.
    replace (x :: L2) with ([x] ++ L2) by reflexivity. rewrite app_assoc.
    specialize (IH (L1 ++ [x])). rewrite app_length in IH. cbn [length] in IH.
    replace (length L1 + 1)%nat with (S (length L1)) in IH by lia.
    destruct (Z.ltb_spec (Z.of_nat (length L1)) (Z.of_nat pub)) as [Lt|Ge].
    + replace (Nat.min (length L1) pub) with (length (firstn pub L1)) by (rewrite firstn_length; lia).
      replace (pub - length L1)%nat with (S (pub - S (length L1))) by lia.
      rewrite set_at_fill. rewrite <- IH by lia. f_equal. f_equal.
      * rewrite !skipn_all2 by (rewrite ?app_length; cbn; lia). f_equal. f_equal. lia.
      * rewrite !firstn_all2 by (rewrite ?app_length; cbn; lia). reflexivity.
      * rewrite firstn_length. lia.
    + replace (length L1 - 0 - Nat.min (length L1) pub)%nat with (length (skipn pub L1)) by (rewrite skipn_length; lia).
      replace (wit - (length L1 - pub))%nat with (S (wit - (S (length L1) - pub))) by lia.
      rewrite set_at_fill. rewrite <- IH by lia. f_equal. f_equal.
      * rewrite skipn_app. replace (pub - length L1)%nat with 0%nat by lia. reflexivity.
      * rewrite firstn_app. replace (pub - length L1)%nat with 0%nat by lia. cbn [firstn].
        replace (pub - S (length L1))%nat with 0%nat by lia. cbn [repeat]. now rewrite !app_nil_r.
      * lia.
Qed.
Lemma filterL_nocmt (cs : r1cs E) nb dom (L : list E) : no_cmt cs -> length L = wires cs ->
  filterL L (header2_of cs nb dom) (r_cmt cs) = Some (skipn (nb_public cs) L, firstn (nb_public cs) L, []).
Proof.
  intros [C1 C2] HL. assert (IS : is_cmt (r_cmt cs) = false) by (unfold is_cmt; now rewrite C1).
  unfold filterL, header2_of. rewrite IS, C2. cbn [h_witness h_public h_privc].
  unfold wires in HL.
  destruct (Z.ltb_spec (Z.of_nat (nb_secret cs) + Z.of_nat (nb_internal cs) - Z.of_nat 0) 0); [lia|].
  destruct (Z.ltb_spec (Z.of_nat (nb_public cs)) 0); [lia|]. cbn [Z.of_nat Z.ltb Z.compare orb].
  match goal with |- context [filter_loop ?h _ _ _ _] => set (HH := h) end.
  pose proof (filter_loop_nocmt HH (r_cmt cs) (nb_public cs) (nb_secret cs + nb_internal cs)%nat ltac:(intros i; rewrite IS; discriminate) C2 eq_refl L []) as F.
  cbn [length] in F. unfold zeros. cbn [Z.to_nat repeat].
  replace (Z.to_nat (Z.of_nat (nb_secret cs) + Z.of_nat (nb_internal cs) - 0)) with (nb_secret cs + nb_internal cs)%nat by lia.
  rewrite Nat2Z.id. rewrite skipn_nil, firstn_nil in F. cbn [app Nat.min] in F. rewrite !Nat.sub_0_r in F.
  rewrite F by lia. reflexivity.
Qed.

(* only public wires committed to, and the commitment wire directly after the public wires *)
Lemma filterL_pubcmt (cs : r1cs E) nb dom (L : list E) : cm_committed (r_cmt cs) <> [] -> cm_nbpriv (r_cmt cs) = 0%nat ->
  cm_index (r_cmt cs) = nb_public cs -> (nb_public cs < wires cs)%nat -> length L = wires cs ->
  filterL L (header2_of cs nb dom) (r_cmt cs) = Some (skipn (S (nb_public cs)) L, firstn (S (nb_public cs)) L, []).
Proof.
  intros C1 C2 CI Hw HL. assert (IS : is_cmt (r_cmt cs) = true) by (unfold is_cmt; destruct (cm_committed _); [congruence|reflexivity]).
  unfold filterL, header2_of. rewrite IS, C2. cbn [h_witness h_public h_privc].
  unfold wires in *.
  destruct (Z.ltb_spec (Z.of_nat (nb_secret cs) + Z.of_nat (nb_internal cs) - Z.of_nat 0 - 1) 0); [lia|].
  destruct (Z.ltb_spec (Z.of_nat (nb_public cs) + 1) 0); [lia|]. cbn [Z.of_nat Z.ltb Z.compare orb].
  match goal with |- context [filter_loop ?h _ _ _ _] => set (HH := h) end.
  assert (HP : h_public HH = Z.of_nat (S (nb_public cs))) by (cbn; lia).
  pose proof (filter_loop_nocmt HH (r_cmt cs) (S (nb_public cs)) (nb_secret cs + nb_internal cs - 1)%nat) as F.
  specialize (F ltac:(intros i; rewrite IS, CI; cbn [andb]; intros Y; apply Nat.eqb_eq in Y; lia) C2 HP L []).
  cbn [length] in F. change (zeros (E := E) 0) with (@nil E). unfold zeros.
  replace (Z.to_nat (Z.of_nat (nb_secret cs) + Z.of_nat (nb_internal cs) - 0 - 1)) with (nb_secret cs + nb_internal cs - 1)%nat by lia.
  replace (Z.to_nat (Z.of_nat (nb_public cs) + 1)) with (S (nb_public cs)) by lia.
  rewrite skipn_nil, firstn_nil in F. cbn [app Nat.min] in F. rewrite !Nat.sub_0_r in F.
  rewrite F by lia. reflexivity.
Qed.

(* private wires committed to *)
Lemma filter_loop_priv h c l : priv_committed c = Some l -> length l = cm_nbpriv c ->
  (forall i w, nth_error l i = Some w -> (i < w)%nat) ->
  forall (L : list E) i s, s_c s = 0%nat -> (i <= length l < i + length L)%nat -> (0 < length l)%nat -> filter_loop h c i L s = None.
Proof.
  intros Hl Ln Hi. induction L as [|x L IH]; intros i s Hs Hr H0; [cbn in Hr; lia|].
  cbn [filter_loop length] in *. unfold filter_step, committed_private. rewrite Hs, <- Ln.
  destruct (Nat.ltb_spec 0 (length l)); [|lia]. rewrite Hl.
  destruct (nth_error l i) as [w|] eqn:N; [|reflexivity].
  pose proof (Hi i w N). destruct (Nat.eqb_spec i w); [lia|].
  assert (i < length l)%nat by (apply nth_error_Some; congruence).
  destruct (_ || _)%bool; [destruct (set_at (s_vkk s) (s_v s) x)|destruct (set_at (s_pkk s) _ x)]; auto; apply IH; auto; lia.
Qed.
Lemma filterL_priv (cs : r1cs E) nb dom (L : list E) pubs privs : cm_committed (r_cmt cs) = pubs ++ privs ->
  length privs = cm_nbpriv (r_cmt cs) -> (forall i w, nth_error privs i = Some w -> (i < w < wires cs)%nat) -> privs <> [] ->
  length L = wires cs -> filterL L (header2_of cs nb dom) (r_cmt cs) = None.
Proof.
  intros C1 C2 C3 C4 HL. unfold filterL. destruct (_ || _)%bool; [reflexivity|].
  assert (P : priv_committed (r_cmt cs) = Some privs).
  { unfold priv_committed. rewrite C1, app_length, <- C2. destruct (Nat.leb_spec (length privs) (length pubs + length privs)); [|lia].
    replace (length pubs + length privs - length privs)%nat with (length pubs) by lia. now rewrite skipn_app, skipn_all, Nat.sub_diag. }
  assert (Q : (0 < length privs < wires cs)%nat).
  { destruct (exists_last C4) as [q [w ->]]. rewrite app_length. cbn [length]. split; [lia|].
    assert (nth_error (q ++ [w]) (length q) = Some w) by (rewrite nth_error_app2, Nat.sub_diag by lia; reflexivity).
    apply C3 in H. lia. }
  rewrite (filter_loop_priv _ _ privs P C2); auto; try lia. intros i w N. apply C3 in N. lia.
Qed.

(* only public wires committed to, and the commitment wire further on *)
Lemma filter_loop_far h c P : is_cmt c = true -> cm_nbpriv c = 0%nat -> h_public h = Z.of_nat P ->
  forall (L : list E) i s, s_c s = 0%nat -> length (s_vkk s) = P -> s_v s = Nat.min i P -> (P <= cm_index c)%nat ->
    (i <= cm_index c < i + length L)%nat -> filter_loop h c i L s = None.
Proof.
  intros C1 C2 Hp. induction L as [|x L IH]; intros i s Hs Hv Hn HI Hr; [cbn in Hr; lia|].
  cbn [filter_loop length] in *. unfold filter_step, committed_private. rewrite Hs, C2. cbn [Nat.ltb Nat.leb].
  rewrite C1, Hp. cbn [andb]. destruct (Nat.eqb_spec i (cm_index c)) as [->|NE].
  - cbn [orb]. unfold set_at. rewrite Hv, Hn. destruct (Nat.ltb_spec (Nat.min (cm_index c) P) P); [lia|reflexivity].
  - cbn [orb]. destruct (Z.ltb_spec (Z.of_nat i) (Z.of_nat P)).
    + unfold set_at. rewrite Hv, Hn. destruct (Nat.ltb_spec (Nat.min i P) P); [|lia].
      apply IH; cbn [s_c s_vkk s_v]; auto; try lia. now rewrite upd_length.
    + destruct (set_at (s_pkk s) _ x); [|reflexivity]. apply IH; cbn [s_c s_vkk s_v]; auto; lia.
Qed.
Lemma filterL_far (cs : r1cs E) nb dom (L : list E) : cm_committed (r_cmt cs) <> [] -> cm_nbpriv (r_cmt cs) = 0%nat ->
  (nb_public cs < cm_index (r_cmt cs) < wires cs)%nat -> length L = wires cs ->
  filterL L (header2_of cs nb dom) (r_cmt cs) = None.
Proof.
  intros C1 C2 CI HL. assert (IS : is_cmt (r_cmt cs) = true) by (unfold is_cmt; destruct (cm_committed _); [congruence|reflexivity]).
  unfold filterL. destruct (_ || _)%bool; [reflexivity|].
  rewrite (filter_loop_far _ _ (S (nb_public cs)) IS C2); cbn [s_c s_vkk s_v]; auto; try lia.
  - unfold header2_of. rewrite IS. cbn. lia.
  - unfold zeros. rewrite repeat_length. unfold header2_of. rewrite IS. cbn [h_public]. lia.
Qed.
End Pure.
