(* Negative.v -- p2np with a negative number of constraints: what 0 constraints give, but for the number in the header. *)
From Coq Require Import String.
From Verif Require Import Base Fld IO Ext Spec1 Phase1 Phase1Io Phase1Verify Phase1Facts Gob GobLemmas Circuit Spec2 Phase2 Phase2Lemmas Phase2Claims Phase2More Fs Spec3 Init2 Init2Pure Init2Io Init2Claims Init2More Spec4 Keys KeysClaims Groth KeysProps Spec14 Parted.
Local Open Scope fld_scope.

(* two directories that differ in the beginning of one file that is only written to *)
Section Differ.
Variables (o : string) (X X' : bytes).
Definition two (f f' : fs) : Prop := (exists D, f o = Some (X ++ D) /\ f' o = Some (X' ++ D)) /\ forall q, q <> o -> f' q = f q.
Definition alike {Y} (c c' : cmd Y) : Prop := forall f f', two f f' -> fst (c' f') = fst (c f) /\ two (snd (c f)) (snd (c' f')).
Lemma alike_bind {Y Z} (c c' : cmd Y) (k k' : Y -> cmd Z) : alike c c' -> (forall y, alike (k y) (k' y)) -> alike (cbind c k) (cbind c' k').
Proof.
  intros H K f f' T. destruct (H f f' T) as [A B]. unfold cbind. destruct (c f) as [r g]. destruct (c' f') as [r' g']. cbn [fst snd] in A, B. subst r'.
  destruct r as [y|e|]; [exact (K y g g' B)|split; [reflexivity|exact B]|split; [reflexivity|exact B]].
Qed.
Lemma alike_ret {Y} (y : Y) : alike (cret y) (cret y).
Proof. intros f f' T. split; [reflexivity|exact T]. Qed.
Lemma alike_boom {Y} : alike (@cboom Y) cboom.
Proof. intros f f' T. split; [reflexivity|exact T]. Qed.
Lemma alike_open q : q <> o -> alike (copen q) (copen q).
Proof. intros N f f' T. unfold copen. cbn [fst snd]. rewrite (proj2 T q N). split; [reflexivity|exact T]. Qed.
Lemma two_set f f' q d : q <> o -> two f f' -> two (fset f q d) (fset f' q d).
Proof.
  intros N [[D [A B]] T]. split.
  - exists D. rewrite !fset_other by exact N. auto.
  - intros r R. unfold fset. destruct (String.eqb q r); [reflexivity|now apply T].
Qed.
Lemma alike_create q : q <> o -> alike (ccreate q) (ccreate q).
Proof. intros N f f' T. split; [reflexivity|]. now apply two_set. Qed.
Lemma two_log outs w : forall f f', two f f' -> two (wapply outs w f) (wapply outs w f').
Proof.
  induction w as [|[i d] w IH]; intros f f' T; [exact T|].
  change (two (wapply outs w (wstep outs f (i, d))) (wapply outs w (wstep outs f' (i, d)))). apply IH. unfold wstep. cbn [fst snd].
  destruct (nth_error outs i) as [q|]; [|exact T]. destruct (String.eqb_spec q o) as [->|N].
  - destruct T as [[D [A B]] T]. split.
    + exists (D ++ d). rewrite !fset_same. unfold contents. rewrite A, B, <- !app_assoc. auto.
    + intros r R. rewrite !fset_other by congruence. now apply T.
  - unfold contents at 2. rewrite (proj2 T q N). now apply two_set.
Qed.
Lemma alike_stages {Y} (p p' : io Y) a b outs : a <> o -> b <> o -> (forall s, run p' s = run p s) -> alike (stage p a b outs) (stage p' a b outs).
Proof.
  intros N1 N2 P f f' T. unfold stage.
  assert (A : forall q, q <> o -> contents f' q = contents f q) by (intros q N; unfold contents; now rewrite (proj2 T q N)).
  rewrite (A a N1), (A b N2), P. destruct (run p (opened (contents f a), opened (contents f b))) as [[r s] w]. split; [reflexivity|]. now apply two_log.
Qed.
Lemma alike_stage {Y} (p : io Y) a b outs : a <> o -> b <> o -> alike (stage p a b outs) (stage p a b outs).
Proof. intros N1 N2. now apply alike_stages. Qed.
End Differ.

Section Negative.
Context {E : Ext2}.

Lemma np_neg z : (z < 0)%Z -> next_pow2 z = next_pow2 0.
Proof. intros H. unfold next_pow2. cbn [np2]. destruct (Z.leb_spec z 2); [reflexivity|lia]. Qed.

(* the header with another number of constraints *)
Definition cons_at (h : hdr) (z : Z) : hdr := mkHdr (h_wires h) (h_witness h) (h_public h) (h_privc h) z (h_domain h) (h_contribs h).

Lemma lag_alike p1 p2 pw h z X X' : p1 <> p2 -> p2 <> lag_path -> alike p2 X X' (c_lagrange (E := E) p1 p2 pw h) (c_lagrange (E := E) p1 p2 pw (cons_at h z)).
Proof.
  intros N1 N2. unfold c_lagrange. cbn [cons_at h_domain]. destruct (new_domain (h_domain h)) as [k|]; [|apply alike_boom].
  apply alike_bind; [apply alike_create; congruence|]. intros []. now apply alike_stage.
Qed.
(* the programs do not use the number of constraints of the header *)
Lemma filter_at h z c : forall (L : list E) i s, filter_loop (cons_at h z) c i L s = filter_loop h c i L s.
Proof.
  induction L as [|x L IH]; intros i s; [reflexivity|]. cbn [filter_loop].
  change (filter_step (cons_at h z) c i x s) with (filter_step h c i x s). destruct (filter_step h c i x s); [apply IH|reflexivity].
Qed.
Lemma filterL_at h z c (L : list E) : filterL L (cons_at h z) c = filterL L h c.
Proof.
  unfold filterL. rewrite (filter_at h z c). reflexivity.
Qed.
Lemma run_bind_ext {Y Z} (p : io Y) (k k' : Y -> io Z) s : (forall y s', run (k' y) s' = run (k y) s') -> run (bind p k') s = run (bind p k) s.
Proof. intros H. rewrite !run_bind. destruct (run p s) as [[[y|e|] s1] w]; [now rewrite H|reflexivity|reflexivity]. Qed.
Lemma pvckk_at (cs : r1cs E) cons h z s : run (process_pvckk cs cons (cons_at h z)) s = run (process_pvckk cs cons h) s.
Proof.
  unfold process_pvckk. cbn [run]. rewrite !run_with_flush. cbn [cons_at h_wires].
  apply run_bind_ext. intros t1 s1. destruct cons as [cons|]; cbn [orBoom]; [|reflexivity].
  destruct (acc_cons cs r_O t1 0 cons (zeros (h_wires h))) as [L1|]; cbn [orBoom]; [|reflexivity].
  apply run_bind_ext. intros t2 s2. destruct (acc_cons cs r_R t2 0 cons L1) as [L2|]; cbn [orBoom]; [|reflexivity].
  apply run_bind_ext. intros t3 s3. destruct (acc_cons cs r_L t3 0 cons L2) as [L|]; cbn [orBoom]; [|reflexivity].
  now rewrite filterL_at.
Qed.
Lemma p2np_neg p c0 c1 (S0 : srs E) tail (cs : r1cs E) p1 p2 z f fa : p <= 62 -> (z < 0)%Z ->
  p1 <> p2 -> p1 <> lag_path -> p1 <> evals_path -> p2 <> lag_path -> p2 <> evals_path -> f p1 = Some (phase1_file p c0 c1 S0 tail) ->
  p2np (E := E) cs p1 p2 0 f = (Ok tt, fa) ->
  exists fa', let h := header2_of cs 0 2 in p2np (E := E) cs p1 p2 z f = (Ok tt, fa') /\ two p2 (gob_hdr h) (gob_hdr (cons_at h z)) fa fa'.
Proof.
  intros Hp Hz N1 N2 N3 N4 N5 F1 R. rewrite (p2np_start _ _ _ _ _ _ F1) in R. rewrite (p2np_start _ _ _ _ _ _ F1).
  set (g := fset f p2 []) in *. assert (G1 : contents g p1 = phase1_file p c0 c1 S0 tail) by (unfold contents, g; rewrite fset_other by congruence; now rewrite F1).
  assert (G2 : g p2 = Some []) by (unfold g; apply fset_same).
  set (h := header2_of cs 0 2) in *. assert (HH : header2_of cs z 2 = cons_at h z) by (unfold h, header2_of; now destruct (is_cmt (r_cmt cs))).
  unfold init_steps in *. rewrite (cbind_ok (cret cs) _ g cs g eq_refl) in R. rewrite (cbind_ok (cret cs) _ g cs g eq_refl).
  assert (ST : forall y, (y <= 0)%Z -> exists f1, stage (process_header cs y) p1 p1 [p2] g = (Ok (b8 (N.of_nat p), header2_of cs y 2), f1) /\
    f1 p2 = Some (gob_hdr (header2_of cs y 2)) /\ forall q, q <> p2 -> f1 q = g q).
  { intros y Hy. assert (NP : next_pow2 y = Some 2%Z) by (unfold next_pow2; cbn [np2]; destruct (Z.leb_spec y 2); [reflexivity|lia]).
    destruct (ev_process_header cs y p c0 c1 (srs_bytes S0 ++ tail) (opened (phase1_file p c0 c1 S0 tail), opened (phase1_file p c0 c1 S0 tail)) _ Hp NP ltac:(lia) eq_refl) as [s1 EV].
    rewrite <- G1 in EV. destruct (stage_ev _ p1 p1 [p2] g _ _ _ EV) as [f1 [S1 [O1 W1]]]. exists f1. split; [exact S1|]. split.
    - rewrite (W1 ltac:(constructor; [intros []|constructor]) 0%nat p2 eq_refl ltac:(congruence)). rewrite (contents_some _ _ _ G2). reflexivity.
    - intros q Q. apply O1. intros [X|[]]. congruence. }
  destruct (ST 0%Z ltac:(lia)) as [f1 [S1 [H1 O1]]]. destruct (ST z ltac:(lia)) as [f1' [S1' [H1' O1']]]. rewrite HH in S1', H1'. fold h in S1, H1.
  rewrite (cbind_ok _ _ _ _ _ S1) in R. rewrite (cbind_ok _ _ _ _ _ S1'). cbn beta iota in *.
  assert (T1 : two p2 (gob_hdr h) (gob_hdr (cons_at h z)) f1 f1').
  { split; [exists []; now rewrite !app_nil_r|]. intros q Q. now rewrite O1, O1'. }
  assert (PC : forall c : r1cs E, parted_cons c z = parted_cons c 0) by (intros c; unfold parted_cons; now destruct z).
  assert (L : lag_path <> p2) by congruence. assert (L2 : evals_path <> p2) by congruence.
  cbv zeta. match type of R with ?c f1 = _ => match goal with |- exists fa', ?c' f1' = _ /\ _ => assert (AL : alike p2 (gob_hdr h) (gob_hdr (cons_at h z)) c c') end end.
  { apply alike_bind; [now apply lag_alike|intros []].
    apply alike_bind; [now apply alike_open|intros []]. apply alike_bind; [now apply alike_create|intros []].
    apply alike_bind; [now apply alike_stage|intros []]. apply alike_bind; [apply alike_ret|intros cs'; rewrite PC].
    apply alike_bind; [now apply (alike_stage p2 _ _ (process_eval_body cs' _ h))|intros []].
    apply alike_bind; [now apply (alike_stage p2 _ _ (process_delta_z h))|intros []].
    apply alike_bind; [now apply alike_open|intros []]. apply alike_bind; [apply alike_ret|intros cs2; rewrite PC].
    apply alike_stages; [assumption|assumption|]. intros s. apply pvckk_at. }
  destruct (AL f1 f1' T1) as [A1 A2]. rewrite R in A1, A2. cbn [fst snd] in A1, A2.
  match goal with |- exists fa', ?c' f1' = _ /\ _ => destruct (c' f1') as [r g'] end. cbn [fst snd] in A1, A2. subst r. exists g'. split; [reflexivity|exact A2].
Qed.

Lemma negative_keys p T A B (cs : r1cs E) z f p1 p2 bs (ws : list (E * E)) : parted_input p T A B cs 0 f p1 p2 ->
  (-9223372036854775808 <= z < 0)%Z -> 1 <= bs -> (Z.of_nat (length ws) < 9223372036854775808)%Z -> ws <> [] -> (forall w, In w ws -> fst w <> 0) ->
  exists fa h (q0 : par2 E), p2np (E := E) cs p1 p2 z f = (Ok tt, fa) /\ fa p2 = Some (file2 h q0 []) /\ h_cons h = z /\
    ((forall j, (1 <= j <= length ws)%nat -> unsplit (set_contribs h (Z.of_nat j)) q0 j) ->
     exists F hs, ceremony2 (E := E) bs (file2 h q0 []) ws = Ok (F, hs) /\
     (forall bs' (rho : nat -> nat -> nat -> E), 1 <= bs' -> exec (verify2 bs' rho) F (file2 h q0 []) = (Ok hs, [])) /\
     forall g sg pz, pz <> pk_path -> pz <> vk_path -> pz <> evals_path ->
     exists fb (q : pkey E) (v : vkey E), extract_keys wrap64 g sg pz (fset fa pz F) = (Ok tt, fb) /\
       fb pk_path = Some (pk_bytes 1 (N.of_nat (wires cs)) q) /\
       fb vk_path = Some (vk_bytes (ped (e := E) g sg []) (empty_info (E := E)) v) /\
       forall x, exists hq, forall r s ar bs krs, proves q cs 1 x hq r s ar bs krs -> accepts v cs x ar bs krs).
Proof.
  intros [[N1 [N2 [N3 [N4 N5]]]] [HP [[c0 [c1 [tail F1]]] [CO [NC [HW [M1 [M2 [M3 [K1 M4]]]]]]]]]] HZ HB HL WN WZ.
  set (E' := always (trunc 0 cs)).
  assert (HI : init_input (E := E') p (srs_of p T A B) (trunc 0 cs) f p1 p1 p2).
  { split; [repeat split; assumption|]. split; [exact HP|]. split; [apply srs_of_sized|]. split; [exists c0, c1, tail; exact F1|].
    split; [eexists; split; [exact F1|reflexivity]|]. split; [intros c []|]. cbn [trunc r_cons firstn length]. repeat split; try assumption; lia. }
  pose proof (p2np_trunc (E := E') cs 0 p1 p1 p2 f _ M1 N1 N2 N3 F1 eq_refl) as P. unfold E' in P. rewrite p2np_always in P. fold E' in P.
  destruct (after_ceremony (E := E') p T A B (trunc 0 cs) f p1 p1 p2 1 [] HI NC HW (le_n 1) ltac:(cbn; lia)) as
    [f0 [k [t [zs [h0 [q0 [v [H1 [H2 [H3 [H4 [H5 [H6 [H7 [H8 [H9 [H10 [H11 [H12 [H13 [H14 H15]]]]]]]]]]]]]]]]]]]]].
  assert (K : k = 1%nat) by (destruct H5 as [A1 [A2 A3]]; cbn in A3; specialize (A3 1%nat ltac:(lia) ltac:(lia)); lia). subst k.
  rewrite H1 in P. change (Z.of_nat 0) with 0%Z in P.
  destruct (p2np_neg p c0 c1 (srs_of p T A B) tail cs p1 p2 z f f0 ltac:(lia) (proj2 HZ) N1 N2 N3 N4 N5 F1 P) as [fa [R [[D [D1 D2]] D3]]].
  assert (HH : header2_of cs 0 2 = h0) by (rewrite H9; exact (header2_hdr (E := E') (trunc 0 cs) 1 NC)). cbv zeta in R, D1, D2. rewrite HH in D1, D2.
  set (h := cons_at h0 z) in *.
  assert (HD : D = par2_bytes q0).
  { rewrite H3 in D1. injection D1 as D1. unfold file2, head2 in D1. cbn [recs2_bytes flat_map] in D1. rewrite app_nil_r in D1. now apply app_inv_head in D1. }
  assert (FA : fa p2 = Some (file2 h q0 [])) by (rewrite D2, HD; unfold file2, head2; cbn [recs2_bytes flat_map]; now rewrite app_nil_r).
  assert (FE : fa evals_path = Some (evals_bytes (E := E) v)) by (rewrite D3 by congruence; exact H4).
  destruct H15 as [F' [hs' [l' [_ [_ PH]]]]]; [intros j Hj; cbn in Hj; lia|]. destruct PH as [HO0 [SZ0 _]].
  assert (HO : hdr_ok h).
  { unfold hdr_ok, hdr_fields in HO0 |- *. rewrite !Forall_cons_iff in *. cbn [set_contribs h_wires h_witness h_public h_privc h_cons h_domain h_contribs] in HO0.
    unfold h. cbn [cons_at h_wires h_witness h_public h_privc h_cons h_domain h_contribs]. rewrite H9 in *. cbn [hdr_of h_contribs] in *.
    unfold int64 in *. repeat split; try tauto; lia. }
  assert (SZ : sized2 h q0).
  { unfold sized2 in *. unfold upd_par2 in SZ0. cbn [p_Z p_K set_contribs h_domain h_witness] in SZ0. rewrite !map_length in SZ0. exact SZ0. }
  assert (CZ : h_contribs h = 0%Z) by (unfold h; cbn [cons_at h_contribs]; rewrite H9; reflexivity).
  exists fa, h, q0. split; [exact R|]. split; [exact FA|]. split; [reflexivity|]. intros U.
  assert (I2 : is_file2 (file2 h q0 []) h q0 []).
  { rewrite <- (app_nil_r (file2 h q0 [])). apply file2_is; [exact SZ|exact CZ|intros c []|intros i Hi; inversion Hi]. }
  destruct (c37 bs (file2 h q0 []) h q0 ws HB HO CZ I2 HL WN U WZ) as [F [hs [C1 [_ [[l FL] V]]]]].
  exists F, hs. split; [exact C1|]. split; [exact V|]. intros g sg pz Z1 Z2 Z3.
  assert (PH : ph2 F (set_contribs h (Z.of_nat (length ws))) (upd_par2 (prodf ws) q0)).
  { rewrite FL. apply (file2_ph2 (E := E)); [apply hdr_ok_set; [exact HO|unfold int64; lia]|]. now apply (sized2_upd (E := E)). }
  destruct (read_pk_ok (E := E) F _ _ v PH H13) as [s1 R1].
  assert (HWZ : h_wires (set_contribs h (Z.of_nat (length ws))) = Z.of_nat (wires cs)) by (unfold h; rewrite H9; reflexivity).
  destruct (read_vk_ok (E := E) wrap64 F _ _ v (wires cs) PH H13 H14 HWZ) as [s2 R2]; [apply pos64; lia|].
  destruct (extract_keys_run (E := E) wrap64 g sg pz (fset fa pz F) F (evals_bytes v) _ _ 1%nat _ s1 s2 Z1 Z2 (fset_same _ _ _)
    (eq_trans (fset_other _ _ _ _ Z3) FE) R1 H12 R2) as [fb [B1 [B2 [B3 B4]]]].
  assert (KP : is_keypair (trunc 0 cs) 1 (root (e := E) 1) A B (prodf ws) T (pk_of (upd_par2 (prodf ws) q0) v) (vk_of (upd_par2 (prodf ws) q0) v)).
  { rewrite H10, H11. exact (keypair_of (E := E') (trunc 0 cs) 1 t zs A B T (prodf ws) _ H7 H8). }
  eexists fb, _, _. split; [exact B1|]. split; [rewrite B2, HWZ, u64_nat by lia; reflexivity|]. split.
  { rewrite B3. unfold vk_of. cbn [w_ck]. rewrite H11. cbn [v_ckk]. reflexivity. }
  intros x. assert (D0 : prodf ws <> 0) by (apply prodf_nz; exact WZ).
  destruct (c47_spec (E := E) 1 (trunc 0 cs) A B (prodf ws) T _ _ x ltac:(lia) (proj1 (proj2 H5)) D0 KP) as [Q1 Q2].
  destruct (proj1 Q1 ltac:(intros c [])) as [hq HQ]. exists hq. intros r s ar bs0 krs PR. exact (Q2 hq r s ar bs0 krs HQ PR).
Qed.
End Negative.
