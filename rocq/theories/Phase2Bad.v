(* Phase2Bad.v -- parameters that do not decode, negative counts, the header round trip. *)
From Coq Require Import Ring Field.
From Verif Require Import Base Fld Conc Parallel IO Ext Spec1 Phase1 Phase1Io Phase1Verify Phase1Trans Phase1Facts Phase1Inv
  Phase1Claims Gob GobLemmas Circuit Spec2 Phase2 Phase2Io Phase2Lemmas Phase2Claims Phase2More.
Local Open Scope fld_scope.
Local Open Scope io_scope.

(* p started in s ends with r *)
Definition gives {X} (p : io X) (s : rds) (r : res X) : Prop := exists s' d, ev p s r s' d.
Lemma gives_bind {X Y} (p : io X) (f : X -> io Y) s a s1 d r : ev p s (Ok a) s1 d -> gives (f a) s1 r -> gives (bind p f) s r.
Proof. intros H [s' [d' Q]]. eexists _, _. eapply ev_bind; eauto. Qed.
Lemma gives_err {X Y} (p : io X) (f : X -> io Y) s e : gives p s (Err e) -> gives (bind p f) s (Err e).
Proof. intros [s' [d H]]. eexists _, _. eapply ev_bind_err; eauto. Qed.
Lemma gives_exec {X} (p : io X) f g r : gives p (opened f, opened g) r -> fst (exec p f g) = r.
Proof. intros [s' [d H]]. apply ev_exec in H. now rewrite H. Qed.

Section Bad.
Context {E : Ext2}.
Add Field Kfld2e : (f_th E).

Lemma bad_decode1 h file cap p b t s : bigcap cap -> @bad1 E b -> getr h s = at_ file cap p (b ++ t) ->
  ev (decode1 (E := E) h) s (Err EDecode) (setr h (at_ file cap (p + 32) t) s) none.
Proof.
  intros C [L [Cb D]] G. unfold decode1. eapply evb; [eapply (readfull_ok h file cap p b t s 32 L); [apply bigcap_le; [exact C|lia]|exact G]|].
  cbv beta. rewrite Cb, D. apply ev_throw.
Qed.
Lemma bad_decodes1 h file cap p b t s n : bigcap cap -> @bad1 E b -> 1 <= n -> getr h s = at_ file cap p (b ++ t) ->
  ev (decodes1 (E := E) h n) s (Err EDecode) (setr h (at_ file cap (p + 32) t) s) none.
Proof.
  intros C Bd N G. destruct n as [|n]; [lia|]. cbn [decodes1]. apply ev_bind_err. eapply bad_decode1; eauto.
Qed.
Lemma bad_aggregate file cap p b t s bs (rho : nat -> nat -> E) N : bigcap cap -> @bad1 E b -> 1 <= bs -> (1 <= N)%Z ->
  getr false s = at_ file cap p (b ++ t) ->
  ev (aggregate bs rho N) s (Err EDecode) (setr false (at_ file cap (p + 32) t) s) none.
Proof.
  intros C Bd B N1 G. unfold aggregate. destruct (Z.ltb_spec N 0); [lia|].
  remember (Z.to_nat N) as n eqn:En. destruct n as [|n]; [lia|]. cbn [aggregate_loop].
  rewrite randomize_len. cbn [orBoom]. apply ev_bind_err. eapply bad_decodes1; [exact C|exact Bd|lia|exact G].
Qed.
Lemma bad_scale2 file cap p b t s bs o (d : E) N : bigcap cap -> @bad1 E b -> 1 <= bs -> (1 <= N)%Z ->
  getr false s = at_ file cap p (b ++ t) -> gives (scale2 bs false o N d) s (Err EDecode).
Proof.
  intros C Bd B N1 G. unfold scale2. destruct (Z.ltb_spec N 0); [lia|].
  remember (Z.to_nat N) as n eqn:En. destruct n as [|n]; [lia|]. cbn [scale2_loop]. apply gives_err.
  eexists _, _. eapply bad_decodes1; [exact C|exact Bd|lia|exact G].
Qed.

(* the forged file: delta times d, garbage parameters, one good record *)
Definition forged (h : hdr) (o1 o2 d s : E) (b : bytes) : bytes :=
  gob_hdr (set_contribs h 1) ++ g1c (d * o1) ++ g2c (d * o2) ++ b ++ b ++ rec2_bytes (new_rec2 d s (d * o1) []).

Lemma c39_accept bs (rho : nat -> nat -> nat -> E) h n0 (o1 o2 d s : E) b junk : 1 <= bs -> hdr_ok h -> int64 n0 ->
  (2 <= h_domain h)%Z -> (1 <= h_witness h)%Z -> @bad1 E b ->
  fst (exec (verify2 bs rho) (forged h o1 o2 d s b) (gob_hdr (set_contribs h n0) ++ g1c o1 ++ g2c o2 ++ junk)) =
    Ok [d_hash (new_rec2 d s (d * o1) [])].
Proof.
  intros B HO I0 HD HW Bd. apply gives_exec.
  assert (Dm : int64 (h_domain h)). { unfold hdr_ok, hdr_fields in HO. rewrite !Forall_cons_iff in HO. tauto. }
  unfold int64 in Dm.
  set (f := forged h o1 o2 d s b). set (g := gob_hdr (set_contribs h n0) ++ _).
  set (rec := new_rec2 d s (d * o1) []).
  assert (Hh1 : hdr_ok (set_contribs h 1)) by (apply hdr_ok_set; [exact HO|unfold int64; lia]).
  assert (Hh0 : hdr_ok (set_contribs h n0)) by (apply hdr_ok_set; assumption).
  unfold verify2.
  assert (RB : forall (k : io (list bytes)) R, (forall s, getr false s = at_ f defBuf 0 f -> getr true s = at_ g defBuf 0 g -> gives k s R) ->
     gives (NewRd false defBuf (NewRd true defBuf k)) (opened f, opened g) R).
  { intros k R Hk. destruct (Hk (setr true (at_ g defBuf 0 g) (setr false (at_ f defBuf 0 f) (opened f, opened g)))) as [s' [dd Q]].
    - rewrite getr_other by reflexivity. apply getr_setr.
    - apply getr_setr.
    - exists s', dd. eapply ev_newrd0; [reflexivity|]. eapply ev_newrd0; [rewrite getr_other by reflexivity; reflexivity|]. exact Q. }
  apply RB. clear RB. intros st G1 G2.
  eapply gives_bind; [eapply ev_read_hdr; [apply defBuf_gob|exact Hh1|exact G1]|].
  set (s1 := setr false _ st). assert (G1' := getr_setr _ _ _ : getr false s1 = _).
  assert (G2' : getr true s1 = at_ g defBuf 0 g) by (unfold s1; now rewrite getr_other by reflexivity).
  clearbody s1. clear st G1 G2. rename s1 into st, G1' into G1, G2' into G2.
  eapply gives_bind; [eapply ev_read_hdr; [apply defBuf_gob|exact Hh0|exact G2]|].
  set (s1 := setr true _ st). assert (G2' := getr_setr _ _ _ : getr true s1 = _).
  assert (G1' : getr false s1 = getr false st) by (unfold s1; now rewrite getr_other by reflexivity). rewrite G1 in G1'.
  clearbody s1. clear st G1 G2. rename s1 into st, G1' into G1, G2' into G2.
  eapply gives_bind; [apply ev_ret|]. rewrite hdr_eqb_refl. eapply gives_bind; [apply ev_ret|].
  eapply gives_bind; [eapply ev_decode1; [apply defBuf_big|apply is1_c|exact G2]|].
  set (s1 := setr true _ st). assert (G2' := getr_setr _ _ _ : getr true s1 = _).
  assert (G1' : getr false s1 = getr false st) by (unfold s1; now rewrite getr_other by reflexivity). rewrite G1 in G1'.
  clearbody s1. clear st G1 G2. rename s1 into st, G1' into G1, G2' into G2.
  eapply gives_bind; [eapply ev_decode2; [apply defBuf_big|apply is2_c|exact G2]|].
  set (s1 := setr true _ st).
  assert (G1' : getr false s1 = getr false st) by (unfold s1; now rewrite getr_other by reflexivity). rewrite G1 in G1'.
  clearbody s1. clear st G1 G2. rename s1 into st, G1' into G1.
  eapply gives_bind; [eapply ev_decode1; [apply defBuf_big|apply is1_c|exact G1]|].
  set (s1 := setr false _ st). assert (G1' := getr_setr _ _ _ : getr false s1 = _). clearbody s1. clear st G1. rename s1 into st, G1' into G1.
  eapply gives_bind; [eapply ev_decode2; [apply defBuf_big|apply is2_c|exact G1]|].
  set (s1 := setr false _ st). assert (G1' := getr_setr _ _ _ : getr false s1 = _). clearbody s1. clear st G1. rename s1 into st, G1' into G1.
  unfold same_ratio at 1. rewrite (proj2 (feqb_ok _ _ _) (ltac:(ring) : o1 * (d * o2) = d * o1 * o2)).
  eapply gives_bind; [apply ev_ret|]. cbn [set_contribs h_domain h_witness h_contribs].
  rewrite (wrap64_small (h_domain h - 1)) by (unfold two63; lia).
  eapply gives_bind; [eapply c39_swallow, bad_aggregate; [apply defBuf_big|exact Bd|exact B|lia|exact G1]|].
  set (s1 := setr false _ st). assert (G1' := getr_setr _ _ _ : getr false s1 = _). clearbody s1. clear st G1. rename s1 into st, G1' into G1.
  eapply gives_bind; [eapply c39_swallow, bad_aggregate; [apply defBuf_big|exact Bd|exact B|lia|exact G1]|].
  set (s1 := setr false _ st). assert (G1' := getr_setr _ _ _ : getr false s1 = _). clearbody s1. clear st G1. rename s1 into st, G1' into G1.
  rewrite <- (app_nil_r (rec2_bytes _)) in G1. unfold rec2_bytes in G1. rewrite <- app_assoc in G1.
  cbn [Z.to_nat Pos.to_nat Pos.iter_op verify_chain2]. 
  assert (RC : exists s', ev (read_contrib2 false) st (Ok rec) s' none).
  { eexists. eapply ev_read_contrib2; [apply defBuf_big|apply are_vals_enc|apply new_rec2_hash| |exact G1].
    right. rewrite vals2_length, defBuf_val, g1c_len, g2c_len. pose proof (gob_hdr_len (set_contribs h 1)).
    rewrite Nat.mod_small by lia. lia. }
  destruct RC as [s' RC].
  eapply gives_bind; [|].
  - eapply evb; [exact RC|]. cbv beta. unfold rec at 1. rewrite verify_new2. eapply evb; [apply ev_ret|]. cbv beta iota. apply ev_ret.
  - cbv beta iota. change (d_delta rec) with (d * o1). rewrite feqb_refl. eapply gives_bind; [apply ev_ret|]. eexists _, _. apply ev_ret.
Qed.

Lemma c39_stuck bs h (o1 o2 d s d' s' : E) b g : 1 <= bs -> hdr_ok h -> (2 <= h_domain h)%Z -> (1 <= h_witness h)%Z -> @bad1 E b ->
  fst (exec (contribute2 bs d' s') (forged h o1 o2 d s b) g) = Err EDecode.
Proof.
  intros B HO HD HW Bd. apply gives_exec.
  assert (Dm : int64 (h_domain h)). { unfold hdr_ok, hdr_fields in HO. rewrite !Forall_cons_iff in HO. tauto. }
  unfold int64 in Dm. set (f := forged h o1 o2 d s b).
  assert (Hh1 : hdr_ok (set_contribs h 1)) by (apply hdr_ok_set; [exact HO|unfold int64; lia]).
  unfold contribute2.
  assert (RB : forall (k : io bytes) R, (forall s, getr false s = at_ f defBuf 0 f -> gives k s R) ->
     gives (NewRd false defBuf (NewWr 0 defBuf (with_flush 0 k))) (opened f, opened g) R).
  { intros k R Hk. destruct (Hk (setr false (at_ f defBuf 0 f) (opened f, opened g)) (getr_setr _ _ _)) as [st' [dd Q]].
    exists st', dd. eapply ev_newrd0; [reflexivity|]. apply ev_newwr, ev_with_flush. exact Q. }
  apply RB. clear RB. intros st G1.
  eapply gives_bind; [eapply ev_read_hdr; [apply defBuf_gob|exact Hh1|exact G1]|].
  set (s1 := setr false _ st). assert (G1' := getr_setr _ _ _ : getr false s1 = _). clearbody s1. clear st G1. rename s1 into st, G1' into G1.
  cbv zeta. eapply gives_bind; [apply ev_write_hdr|].
  eapply gives_bind; [eapply ev_decode1; [apply defBuf_big|apply is1_c|exact G1]|].
  set (s1 := setr false _ st). assert (G1' := getr_setr _ _ _ : getr false s1 = _). clearbody s1. clear st G1. rename s1 into st, G1' into G1.
  eapply gives_bind; [apply ev_write|].
  eapply gives_bind; [eapply ev_decode2; [apply defBuf_big|apply is2_c|exact G1]|].
  set (s1 := setr false _ st). assert (G1' := getr_setr _ _ _ : getr false s1 = _). clearbody s1. clear st G1. rename s1 into st, G1' into G1.
  eapply gives_bind; [apply ev_write|].
  cbn [set_contribs h_domain h_witness h_contribs].
  rewrite (wrap64_small (h_domain h - 1)) by (unfold two63; lia).
  apply gives_err. eapply bad_scale2; [apply defBuf_big|exact Bd|exact B|lia|exact G1].
Qed.

(* a negative count: no record is needed at all, only [delta]_1 = identity *)
Lemma c39_negative bs (rho : nat -> nat -> nat -> E) h n n0 (o1 o2 : E) b tail junk : 1 <= bs -> hdr_ok h -> int64 n0 -> int64 n -> (n < 0)%Z ->
  (2 <= h_domain h)%Z -> (1 <= h_witness h)%Z -> @bad1 E b ->
  fst (exec (verify2 bs rho) (gob_hdr (set_contribs h n) ++ g1c (0 : E) ++ g2c (0 : E) ++ b ++ b ++ tail)
                             (gob_hdr (set_contribs h n0) ++ g1c o1 ++ g2c o2 ++ junk)) = Ok [].
Proof.
  intros B HO I0 In Nn HD HW Bd. apply gives_exec.
  assert (Dm : int64 (h_domain h)). { unfold hdr_ok, hdr_fields in HO. rewrite !Forall_cons_iff in HO. tauto. }
  unfold int64 in Dm.
  set (f := gob_hdr (set_contribs h n) ++ _). set (g := gob_hdr (set_contribs h n0) ++ _).
  assert (Hh1 : hdr_ok (set_contribs h n)) by (apply hdr_ok_set; assumption).
  assert (Hh0 : hdr_ok (set_contribs h n0)) by (apply hdr_ok_set; assumption).
  unfold verify2.
  assert (RB : forall (k : io (list bytes)) R, (forall s, getr false s = at_ f defBuf 0 f -> getr true s = at_ g defBuf 0 g -> gives k s R) ->
     gives (NewRd false defBuf (NewRd true defBuf k)) (opened f, opened g) R).
  { intros k R Hk. destruct (Hk (setr true (at_ g defBuf 0 g) (setr false (at_ f defBuf 0 f) (opened f, opened g)))) as [s' [dd Q]].
    - rewrite getr_other by reflexivity. apply getr_setr.
    - apply getr_setr.
    - exists s', dd. eapply ev_newrd0; [reflexivity|]. eapply ev_newrd0; [rewrite getr_other by reflexivity; reflexivity|]. exact Q. }
  apply RB. clear RB. intros st G1 G2.
  eapply gives_bind; [eapply ev_read_hdr; [apply defBuf_gob|exact Hh1|exact G1]|].
  set (s1 := setr false _ st). assert (G1' := getr_setr _ _ _ : getr false s1 = _).
  assert (G2' : getr true s1 = at_ g defBuf 0 g) by (unfold s1; now rewrite getr_other by reflexivity).
  clearbody s1. clear st G1 G2. rename s1 into st, G1' into G1, G2' into G2.
  eapply gives_bind; [eapply ev_read_hdr; [apply defBuf_gob|exact Hh0|exact G2]|].
  set (s1 := setr true _ st). assert (G2' := getr_setr _ _ _ : getr true s1 = _).
  assert (G1' : getr false s1 = getr false st) by (unfold s1; now rewrite getr_other by reflexivity). rewrite G1 in G1'.
  clearbody s1. clear st G1 G2. rename s1 into st, G1' into G1, G2' into G2.
  cbn [set_contribs h_domain h_witness h_contribs].
  change (mkHdr _ _ _ _ _ _ n0) with (set_contribs h n0). change (mkHdr _ _ _ _ _ _ n) with (set_contribs h n).
  destruct (Z.eqb_spec n 0); [lia|]. cbn [negb].
  eapply gives_bind; [apply ev_ret|]. rewrite hdr_eqb_refl. eapply gives_bind; [apply ev_ret|].
  eapply gives_bind; [eapply ev_decode1; [apply defBuf_big|apply is1_c|exact G2]|].
  set (s1 := setr true _ st). assert (G2' := getr_setr _ _ _ : getr true s1 = _).
  assert (G1' : getr false s1 = getr false st) by (unfold s1; now rewrite getr_other by reflexivity). rewrite G1 in G1'.
  clearbody s1. clear st G1 G2. rename s1 into st, G1' into G1, G2' into G2.
  eapply gives_bind; [eapply ev_decode2; [apply defBuf_big|apply is2_c|exact G2]|].
  set (s1 := setr true _ st).
  assert (G1' : getr false s1 = getr false st) by (unfold s1; now rewrite getr_other by reflexivity). rewrite G1 in G1'.
  clearbody s1. clear st G1 G2. rename s1 into st, G1' into G1.
  eapply gives_bind; [eapply ev_decode1; [apply defBuf_big|apply is1_c|exact G1]|].
  set (s1 := setr false _ st). assert (G1' := getr_setr _ _ _ : getr false s1 = _). clearbody s1. clear st G1. rename s1 into st, G1' into G1.
  eapply gives_bind; [eapply ev_decode2; [apply defBuf_big|apply is2_c|exact G1]|].
  set (s1 := setr false _ st). assert (G1' := getr_setr _ _ _ : getr false s1 = _). clearbody s1. clear st G1. rename s1 into st, G1' into G1.
  unfold same_ratio at 1. rewrite (proj2 (feqb_ok _ _ _) (ltac:(ring) : o1 * 0 = 0 * o2)).
  eapply gives_bind; [apply ev_ret|].
  rewrite (wrap64_small (h_domain h - 1)) by (unfold two63; lia).
  eapply gives_bind; [eapply c39_swallow, bad_aggregate; [apply defBuf_big|exact Bd|exact B|lia|exact G1]|].
  set (s1 := setr false _ st). assert (G1' := getr_setr _ _ _ : getr false s1 = _). clearbody s1. clear st G1. rename s1 into st, G1' into G1.
  eapply gives_bind; [eapply c39_swallow, bad_aggregate; [apply defBuf_big|exact Bd|exact B|lia|exact G1]|].
  replace (Z.to_nat n) with 0%nat by lia. cbn [verify_chain2].
  eapply gives_bind; [apply ev_ret|]. cbv beta iota. rewrite feqb_refl. eapply gives_bind; [apply ev_ret|]. eexists _, _. apply ev_ret.
Qed.

(* C43 *)
Lemma c43 cap h t g : cap = 0%nat \/ (136 < cap)%nat -> hdr_ok h ->
  exec (write_hdr 0 h) [] [] = (Ok tt, gob_hdr h) /\
  run (NewRd false cap (read_hdr2 (E := E) false)) (opened (gob_hdr h ++ t), opened g) =
    (Ok h, (at_ (gob_hdr h ++ t) cap (length (gob_hdr h)) t, opened g), []).
Proof.
  intros C H. split.
  - pose proof (ev_write_hdr 0 h (opened [], opened [])) as Q. apply ev_exec in Q. rewrite Q. reflexivity.
  - destruct (frame false (gob_hdr h ++ t) cap (read_hdr2 (E := E) false) 0 (gob_hdr h ++ t) (reads_hdr2 false)) as [r [p' [rest' Q]]].
    cbn [run]. unfold opened at 1 2. cbn [getr setr fst snd]. rewrite rd_buf_at.
    pose proof (ev_read_hdr (@gob_alt E) false (gob_hdr h ++ t) cap 0 h t (at_ (gob_hdr h ++ t) cap 0 (gob_hdr h ++ t), opened g) C H eq_refl) as [w [R W]].
    rewrite (Q (at_ (gob_hdr h ++ t) cap 0 (gob_hdr h ++ t), opened g) eq_refl). unfold read_hdr2 in Q.
    rewrite (Q (at_ (gob_hdr h ++ t) cap 0 (gob_hdr h ++ t), opened g) eq_refl) in R. cbn [setr fst snd] in *.
    pose proof (f_equal snd R) as Hw. cbn [snd] in Hw. rewrite R, <- Hw. reflexivity.
Qed.

Lemma c35_bytes bs (d s : E) f g h (q : par2 E) l :
  1 <= bs -> hdr_ok h -> (0 <= h_contribs h < 9223372036854775807)%Z -> is_file2 f h q l ->
  let q' := mkPar2 (d * p_d1 q) (d * p_d2 q) (map (fun x => x / d) (p_Z q)) (map (fun x => x / d) (p_K q)) in
  let r := new_rec2 d s (d * p_d1 q) (last_hash2 l) in
  exec (contribute2 bs d s) f g =
    (Ok (d_hash r), gob_hdr (set_contribs h (h_contribs h + 1)) ++ par2_bytes q' ++ recs2_bytes l ++ rec2_bytes r).
Proof.
  intros B HO C F q' r. rewrite (c35 bs d s f g h q l B HO C F). cbv zeta. fold r. change (upd_par2 d q) with q'. clearbody q'.
  unfold file2, head2, recs2_bytes. rewrite flat_map_app. cbn [flat_map]. rewrite app_nil_r, <- !app_assoc. reflexivity.
Qed.

(* C38, counting form *)
Definition is_ok {X} (r : res X) : bool := match r with Ok _ => true | _ => false end.
Definition put3 (rho : nat -> nat -> nat -> E) (a b c : nat) (x : E) : nat -> nat -> nat -> E :=
  fun a' b' c' => if ((a' =? a) && (b' =? b) && (c' =? c))%nat then x else rho a' b' c'.
Lemma put3_eq rho a b c x : put3 rho a b c x a b c = x.
Proof. unfold put3. now rewrite !Nat.eqb_refl. Qed.
Lemma put3_neq rho a b c x y a' b' c' : (a', b', c') <> (a, b, c) -> put3 rho a b c x a' b' c' = put3 rho a b c y a' b' c'.
Proof.
  unfold put3. intros N. destruct (Nat.eqb_spec a' a); [|reflexivity]. destruct (Nat.eqb_spec b' b); [|reflexivity].
  destruct (Nat.eqb_spec c' c); [subst; contradiction N; reflexivity|reflexivity].
Qed.
Lemma c38_count bs (rho : nat -> nat -> nat -> E) f g h ho (q qo : par2 E) l lo sec k (els : list E) :
  1 <= bs -> hdr_ok h -> hdr_ok ho -> is_file2 f h q l -> is_file2 g ho qo lo -> sec <= 1 -> (k < length (section2 sec q))%nat ->
  nth k (section2 sec q) 0 * p_d2 q <> nth k (section2 sec qo) 0 * p_d2 qo -> NoDup els ->
  (length (filter (fun x => is_ok (fst (exec (verify2 bs
     (put3 rho sec (length (section2 sec q) - bs * (k / bs)) (k mod bs) x)) f g))) els) <= 1)%nat.
Proof.
  intros B Ho1 Ho2 F G S K N ND.
  assert (ND' := NoDup_filter (fun x => is_ok (fst (exec (verify2 bs
     (put3 rho sec (length (section2 sec q) - bs * (k / bs)) (k mod bs) x)) f g))) ND).
  set (L := filter _ _) in *.
  assert (HL : forall x, In x L -> exists hs, fst (exec (verify2 bs
     (put3 rho sec (length (section2 sec q) - bs * (k / bs)) (k mod bs) x)) f g) = Ok hs).
  { intros x Hx. apply filter_In in Hx as [_ Hx]. destruct (fst _) as [hs| |]; [eauto|discriminate|discriminate]. }
  clearbody L. destruct L as [|x [|y L]]; cbn [length]; [lia|lia|]. exfalso.
  destruct (HL x (or_introl eq_refl)) as [hs Hx]. destruct (HL y (or_intror (or_introl eq_refl))) as [hs' Hy].
  apply NoDup_cons_iff in ND' as [NI _]. apply NI. left.
  pose proof (c38 bs _ _ f g h ho q qo l lo sec k hs hs' B Ho1 Ho2 F G S K N (fun a b c => put3_neq rho _ _ _ x y a b c) Hx Hy) as Q.
  rewrite !put3_eq in Q. symmetry. exact Q.
Qed.
End Bad.
