(* Phase2Lemmas.v -- contributing and verifying on readable phase-2 files. *)
From Coq Require Import Ring Field.
From Verif Require Import Base Fld Conc Parallel IO Ext Spec1 Phase1 Phase1Io Phase1Verify Gob GobLemmas Circuit Spec2 Phase2 Phase2Io.
Local Open Scope fld_scope.
Local Open Scope io_scope.

Lemma ev_cast {X} (p : io X) s r s' d r1 s1 d1 : ev p s r s' d -> r = r1 -> s' = s1 -> (forall o, d o = d1 o) -> ev p s r1 s1 d1.
Proof. intros H <- <- Q. eapply ev_ext; eauto. Qed.
Lemma ev_bind_on_none {X Y} (p : io X) (f : X -> io Y) s a s1 r s2 o b :
  ev p s (Ok a) s1 (on o b) -> ev (f a) s1 r s2 none -> ev (bind p f) s r s2 (on o b).
Proof. intros H1 H2. eapply ev_ext; [eapply ev_bind; eauto|]. apply cat_none_r. Qed.

Section L.
Context {E : Ext2}.
Add Field Kfld2b : (f_th E).

Lemma fadd_assoc_ (x y z : E) : x + (y + z) = x + y + z. Proof. ring. Qed.
Lemma par2_is (q : par2 E) : is_par2 (par2_bytes q) q.
Proof.
  exists (g1c (p_d1 q)), (g2c (p_d2 q)), (enc1 (p_Z q)), (enc1 (p_K q)). split; [reflexivity|].
  repeat split; auto using is1_c, is2_c, are1_enc.
Qed.

Definition count_ok (n : Z) : Prop := (0 <= n < 9223372036854775807)%Z.

(* everything but the copied records *)
Lemma contribute2_gen bs (d s : E) f h pb q tail st c st2 rb : 1 <= bs -> hdr_ok h -> count_ok (h_contribs h) ->
  f = gob_hdr h ++ pb ++ tail -> is_par2 pb q -> sized2 h q -> getr false st = opened f ->
  ev (copy_contribs2 false 0 (Z.to_nat (h_contribs h)) (@zero_contrib2 E))
     (setr false (at_ f defBuf (length (gob_hdr h) + length pb) tail) st) (Ok c) st2 (on 0 rb) ->
  let r := new_rec2 d s (d * p_d1 q) (if (h_contribs h =? 0)%Z then [] else d_hash c) in
  ev (contribute2 bs d s) st (Ok (d_hash r)) st2
     (on 0 (head2 (set_contribs h (h_contribs h + 1)) (upd_par2 d q) ++ rb ++ rec2_bytes r)).
Proof.
  intros B H Cn -> P [SZ SK] G CP r.
  assert (Dm : int64 (h_domain h)). { unfold hdr_ok, hdr_fields in H. rewrite !Forall_cons_iff in H. tauto. }
  assert (Wt : int64 (h_witness h)). { unfold hdr_ok, hdr_fields in H. rewrite !Forall_cons_iff in H. tauto. }
  unfold int64 in Dm, Wt. unfold count_ok in Cn.
  destruct P as [b1 [b2 [b3 [b4 [-> [I1 [I2 [A3 A4]]]]]]]].
  rewrite <- !app_assoc in *. set (f := gob_hdr h ++ _) in *.
  unfold contribute2. eapply ev_newrd0; [exact G|]. apply ev_newwr, ev_with_flush.
  eapply evb.
  { eapply ev_set2, ev_read_hdr; [apply defBuf_gob|exact H|apply getr_setr]. }
  cbv zeta. rewrite wrap64_small by (unfold two63; lia). cbn [h_contribs h_domain h_witness set_contribs].
  rewrite (wrap64_small (h_domain h - 1)) by (unfold two63; lia).
  rewrite (wrap64_small (h_contribs h + 1 - 1)) by (unfold two63; lia).
  replace (h_contribs h + 1 - 1)%Z with (h_contribs h) by lia.
  set (h' := set_contribs h (h_contribs h + 1)).
  unfold head2. rewrite <- !app_assoc. unfold par2_bytes. rewrite <- !app_assoc. cbn [upd_par2 p_d1 p_d2 p_Z p_K].
  eapply evw; [apply ev_write_hdr|].
  eapply evb; [eapply ev_set2, ev_decode1; [apply defBuf_big|exact I1|apply getr_setr]|].
  rewrite (ltac:(ring) : p_d1 q * d = d * p_d1 q).
  eapply evw; [apply ev_write|].
  eapply evb; [eapply ev_set2, ev_decode2; [apply defBuf_big|exact I2|apply getr_setr]|].
  rewrite (ltac:(ring) : p_d2 q * d = d * p_d2 q).
  eapply evw; [apply ev_write|].
  rewrite (map_ext (fun x => x / d) (fun x => x * finv d)) with (l := p_Z q) by (intros; now rewrite inv_div).
  rewrite (map_ext (fun x => x / d) (fun x => x * finv d)) with (l := p_K q) by (intros; now rewrite inv_div).
  eapply evw; [eapply ev_set2, ev_scale2; [exact B|apply defBuf_big|exact SZ|exact A3|apply getr_setr]|].
  eapply evw; [eapply ev_set2, ev_scale2; [exact B|apply defBuf_big|exact SK|exact A4|apply getr_setr]|].
  cbn [Nat.add]. rewrite !app_length in CP.
  replace (length (gob_hdr h) + (length b1 + (length b2 + (length b3 + length b4))))%nat
    with (length (gob_hdr h) + length b1 + length b2 + length b3 + length b4)%nat in CP by lia.
  eapply evw; [exact CP|].
  cbn [d_delta d_key].
  rewrite gen_key_spec, compute_hash2_spec.
  change (mkC2 (d * p_d1 q) (mk_key d s (if (h_contribs h =? 0)%Z then [] else d_hash c) 1) _) with r.
  eapply ev_bind_on_none; [eapply ev_try_ok, ev_write_contrib2|]. apply ev_ret.
Qed.

Lemma last_map {X Y} (g : X -> Y) l d : last (map g l) (g d) = g (last l d).
Proof. induction l as [|x l IH]; [reflexivity|]. destruct l; [reflexivity|exact IH]. Qed.
Lemma recs2_bytes_app (l1 l2 : list (contrib2 E)) : recs2_bytes (l1 ++ l2) = recs2_bytes l1 ++ recs2_bytes l2.
Proof. apply flat_map_app. Qed.

Lemma contribute2_ev bs (d s : E) f h q l st : 1 <= bs -> hdr_ok h -> count_ok (h_contribs h) ->
  is_file2 f h q l -> getr false st = opened f ->
  let r := new_rec2 d s (d * p_d1 q) (last_hash2 l) in
  exists st', ev (contribute2 bs d s) st (Ok (d_hash r)) st'
     (on 0 (file2 (set_contribs h (h_contribs h + 1)) (upd_par2 d q) (l ++ [r]))).
Proof.
  intros B H Cn [pb [rb [junk [Ef [P [Sz [Hl A]]]]]]] G r.
  pose proof (ev_copy2 false 0 f l (@zero_contrib2 E) _ rb junk
    (setr false (at_ f defBuf (length (gob_hdr h) + length pb) (rb ++ junk)) st) A (getr_setr _ _ _)) as CP.
  rewrite setr_setr in CP. rewrite <- (Nat2Z.id (length l)), <- Hl in CP.
  pose proof (contribute2_gen bs d s f h pb q _ st _ _ _ B H Cn Ef P Sz G CP) as Q. cbv zeta in Q.
  assert (EH : (if (h_contribs h =? 0)%Z then [] else d_hash (last l (@zero_contrib2 E))) = last_hash2 l).
  { unfold last_hash2. change [] with (d_hash (@zero_contrib2 E)) at 2. rewrite last_map.
    destruct (Z.eqb_spec (h_contribs h) 0) as [Z0|Z0]; [|reflexivity].
    destruct l; [reflexivity|]. cbn [length] in Hl. lia. }
  rewrite EH in Q. eexists. eapply ev_cast; [exact Q|reflexivity|reflexivity|].
  intros o. unfold file2. rewrite recs2_bytes_app. cbn [recs2_bytes flat_map]. now rewrite app_nil_r.
Qed.

(* ---- aggregation ---- *)
Lemma agg_step bs (rho : nat -> nat -> E) l m : 1 <= bs -> m = Nat.min (length l) bs ->
  agg bs rho l = dot (firstn m l) (map (rho (length l)) (seq 0 m)) + agg bs rho (skipn m l).
Proof.
  intros B ->. set (m := Nat.min (length l) bs). unfold agg.
  replace (length l) with (m + (length l - m))%nat at 1 by lia. rewrite sumn_split. f_equal.
  - rewrite dot_sumn with (n := m) by (rewrite ?firstn_length, ?map_length, ?seq_length; lia). apply sumn_ext. intros i Hi.
    f_equal.
    + rewrite !nth_nth_error, nth_error_firstn. destruct (Nat.ltb_spec i m); [reflexivity|lia].
    + rewrite nth_map_seq by lia. unfold scal_of. rewrite Nat.div_small, Nat.mod_small by lia. f_equal. lia.
  - rewrite skipn_length. apply sumn_ext. intros i Hi. f_equal.
    + rewrite !nth_nth_error, nth_error_skipn. reflexivity.
    + assert (m = bs) by lia. unfold scal_of. replace (m + i)%nat with (i + 1 * bs)%nat by lia.
      rewrite Nat.div_add, Nat.mod_add by lia. f_equal. rewrite Nat.mul_add_distr_l. lia.
Qed.
Lemma agg_nil bs (rho : nat -> nat -> E) : agg bs rho [] = 0. Proof. reflexivity. Qed.

Lemma randomize_len (rho : nat -> E) r : randomize rho r = Some (map rho (seq 0 (length r))).
Proof.
  unfold randomize. rewrite par_cells_spec by apply ncpu_pos. f_equal. apply list_ext. intros i.
  rewrite nth_error_mapi, nth_error_map_seq. destruct (Nat.ltb_spec i (length r)) as [I|I].
  - now rewrite (nth_error_nth_lt r 0 I).
  - now rewrite (proj2 (nth_error_None r i) I).
Qed.

Lemma aggregate_loop_ev bs (rho : nat -> nat -> E) fa fb ca cb : 1 <= bs -> bigcap ca -> bigcap cb ->
  forall fuel (l1 l2 : list E) b1 b2 pa pb ta tb s r i o, length l1 <= fuel -> length l2 = length l1 ->
  length l1 <= length r -> are1 b1 l1 -> are1 b2 l2 ->
  getr false s = at_ fa ca pa (b1 ++ ta) -> getr true s = at_ fb cb pb (b2 ++ tb) ->
  ev (aggregate_loop bs rho fuel (length l1) r i o) s (Ok (i + agg bs rho l1, o + agg bs rho l2))
     (setr true (at_ fb cb (pb + length b2) tb) (setr false (at_ fa ca (pa + length b1) ta) s)) none.
Proof.
  intros B Ca Cb. induction fuel as [|fuel IH]; intros l1 l2 b1 b2 pa pb ta tb s r i o Lf Ll Lr A1 A2 G1 G2.
  - destruct l1; [|cbn in Lf; lia]. destruct l2; [|discriminate]. inversion A1; inversion A2; subst.
    cbn [aggregate_loop length app] in *. rewrite !agg_nil, !Nat.add_0_r, <- G1, setr_getr, <- G2, setr_getr.
    rewrite (ltac:(ring) : i + 0 = i), (ltac:(ring) : o + 0 = o). apply ev_ret.
  - destruct l1 as [|x0 l0].
    { destruct l2; [|discriminate]. inversion A1; inversion A2; subst.
      cbn [aggregate_loop length app] in *. rewrite !agg_nil, !Nat.add_0_r, <- G1, setr_getr, <- G2, setr_getr.
      rewrite (ltac:(ring) : i + 0 = i), (ltac:(ring) : o + 0 = o). apply ev_ret. }
    remember (x0 :: l0) as l1 eqn:El.
    assert (Lpos : 1 <= length l1) by (subst l1; cbn; lia).
    assert (UN : aggregate_loop bs rho (S fuel) (length l1) r i o =
      (orBoom (randomize (rho (length l1)) r) (fun r =>
       let n := Nat.min (length l1) bs in
       ins <- decodes1 false n ;;
       match mexp E ins (firstn n r) with
       | None => Throw EDecode
       | Some t =>
         let inG := i + t in
         ors <- decodes1 true n ;;
         match mexp E ors (firstn n r) with
         | None => Throw EDecode
         | Some t => aggregate_loop bs rho fuel (length l1 - n) r inG (o + t)
         end
       end))) by (subst l1; reflexivity).
    rewrite UN. clear UN. rewrite randomize_len. cbn [orBoom]. cbv zeta.
    set (n := Nat.min (length l1) bs). assert (Hn : 1 <= n <= length l1) by lia.
    set (r' := map (rho (length l1)) (seq 0 (length r))).
    assert (Fr : firstn n r' = map (rho (length l1)) (seq 0 n)).
    { unfold r'. rewrite firstn_map. f_equal. replace (length r) with (n + (length r - n))%nat by lia.
      rewrite seq_app. replace n with (length (seq 0 n)) at 1 by apply seq_length. apply firstn_app_exact. }
    assert (Hl1 : l1 = firstn n l1 ++ skipn n l1) by now rewrite firstn_skipn.
    assert (Hl2 : l2 = firstn n l2 ++ skipn n l2) by now rewrite firstn_skipn.
    pose proof (agg_step bs rho l1 n B eq_refl) as S1.
    pose proof (agg_step bs rho l2 n B ltac:(unfold n; now rewrite Ll)) as S2. rewrite Ll in S2.
    assert (La1 : length (firstn n l1) = n) by (rewrite firstn_length; lia).
    assert (La2 : length (firstn n l2) = n) by (rewrite firstn_length; lia).
    assert (Lb1 : length (skipn n l1) = (length l1 - n)%nat) by apply skipn_length.
    assert (Lb2 : length (skipn n l2) = (length l1 - n)%nat) by (rewrite skipn_length; lia).
    set (u1 := firstn n l1) in *. set (v1 := skipn n l1) in *. set (u2 := firstn n l2) in *. set (v2 := skipn n l2) in *.
    rewrite Hl1 in A1. apply parses_app_inv in A1 as [c1 [e1 [-> [Au1 Av1]]]].
    rewrite Hl2 in A2. apply parses_app_inv in A2 as [c2 [e2 [-> [Au2 Av2]]]].
    rewrite <- app_assoc in G1, G2.
    pose proof (ev_decodes1 false fa ca Ca u1 c1 pa (e1 ++ ta) s Au1 G1) as D1. rewrite La1 in D1.
    eapply evb; [exact D1|]. rewrite Fr, mexp_eq by (rewrite map_length, seq_length; auto).
    assert (G2' : getr true (setr false (at_ fa ca (pa + length c1) (e1 ++ ta)) s) = at_ fb cb pb (c2 ++ e2 ++ tb))
      by (rewrite getr_other by reflexivity; auto).
    pose proof (ev_decodes1 true fb cb Cb u2 c2 pb (e2 ++ tb) _ Au2 G2') as D2. rewrite La2 in D2.
    eapply evb; [exact D2|]. rewrite mexp_eq by (rewrite map_length, seq_length; auto).
    rewrite <- Lb1, S1, S2, !fadd_assoc_.
    assert (LL : length v2 = length v1) by lia.
    pose proof (IH v1 v2 e1 e2 (pa + length c1)%nat (pb + length c2)%nat ta tb
      (setr true (at_ fb cb (pb + length c2) (e2 ++ tb)) (setr false (at_ fa ca (pa + length c1) (e1 ++ ta)) s))
      r' (i + dot u1 (map (rho (length l1)) (seq 0 n))) (o + dot u2 (map (rho (length l1)) (seq 0 n)))) as Q.
    eapply ev_cast; [apply Q; [lia|exact LL| |exact Av1|exact Av2| |apply getr_setr]|reflexivity| |auto].
    + unfold r'. rewrite map_length, seq_length. lia.
    + rewrite getr_other by reflexivity. apply getr_setr.
    + destruct s. cbn [setr fst snd]. rewrite !app_length, !Nat.add_assoc. reflexivity.
Qed.

Lemma ev_aggregate bs (rho : nat -> nat -> E) fa fb ca cb (l1 l2 : list E) b1 b2 pa pb ta tb s N :
  1 <= bs -> bigcap ca -> bigcap cb -> N = Z.of_nat (length l1) -> length l2 = length l1 -> are1 b1 l1 -> are1 b2 l2 ->
  getr false s = at_ fa ca pa (b1 ++ ta) -> getr true s = at_ fb cb pb (b2 ++ tb) ->
  ev (aggregate bs rho N) s (Ok (agg bs rho l1, agg bs rho l2))
     (setr true (at_ fb cb (pb + length b2) tb) (setr false (at_ fa ca (pa + length b1) ta) s)) none.
Proof.
  intros B Ca Cb -> Ll A1 A2 G1 G2. unfold aggregate. destruct (Z.ltb_spec (Z.of_nat (length l1)) 0); [lia|]. rewrite Nat2Z.id.
  eapply ev_cast; [eapply (aggregate_loop_ev bs rho fa fb ca cb B Ca Cb (length l1) l1 l2); eauto| |reflexivity|auto].
  - now rewrite repeat_length.
  - f_equal. f_equal; ring.
Qed.

(* ---- the chain ---- *)
Fixpoint chain2_err (pd : E) (ph : bytes) (l : list (contrib2 E)) : option err :=
  match l with
  | [] => None
  | c :: l' => match verify_contrib2 c pd ph with Some e => Some e | None => chain2_err (d_delta c) (d_hash c) l' end
  end.
Lemma ev_chain2 file : forall l p b t s (x pd : E) ph, recs2_at p b l -> getr false s = at_ file defBuf p (b ++ t) ->
  exists s', ev (verify_chain2 (length l) x pd ph) s
    (match chain2_err pd ph l with None => Ok (last (map d_delta l) x, map d_hash l) | Some e => Err e end) s' none.
Proof.
  induction l as [|c l IH]; intros p b t s x pd ph A G.
  - cbn. eexists. apply ev_ret.
  - inversion A as [|off pb c' t1 l' V L M A']; subst. rewrite <- !app_assoc in G.
    assert (RC : ev (read_contrib2 false) s (Ok c) (setr false (at_ file defBuf (p + length pb + 32) (t1 ++ t)) s) none).
    { eapply ev_read_contrib2; [apply defBuf_big|exact V|exact L| |exact G].
      right. rewrite defBuf_val. revert M. generalize ((p + length pb) mod N.to_nat 4096)%nat. intros. lia. }
    cbn [length verify_chain2 chain2_err]. destruct (verify_contrib2 c pd ph) as [e|] eqn:VC.
    + eexists. eapply evb; [exact RC|]. rewrite VC. apply ev_throw.
    + destruct (IH _ t1 t (setr false (at_ file defBuf (p + length pb + 32) (t1 ++ t)) s) (d_delta c) (d_delta c) (d_hash c) A' (getr_setr _ _ _)) as [s' Q].
      exists s'. eapply evb; [exact RC|]. rewrite VC.
      destruct (chain2_err (d_delta c) (d_hash c) l) as [e|].
      * apply ev_bind_err. exact Q.
      * eapply evb; [exact Q|]. cbv beta iota. cbn [map]. rewrite last_cons. apply ev_ret.
Qed.

Definition verdict2 bs (rho : nat -> nat -> nat -> E) (h ho : hdr) (q qo : par2 E) (l : list (contrib2 E)) : res (list bytes) :=
  if (h_contribs h =? 0)%Z then Err ENoContrib else
  if negb (hdr_eqb h ho) then Err EHeader else
  if negb (same_ratio (p_d1 qo) (p_d1 q) (p_d2 q) (p_d2 qo)) then Err EDelta else
  if negb (same_ratio (agg bs (rho 0%nat) (p_Z q)) (agg bs (rho 0%nat) (p_Z qo)) (p_d2 q) (p_d2 qo)) then Err EInconsZ else
  if negb (same_ratio (agg bs (rho 1%nat) (p_K q)) (agg bs (rho 1%nat) (p_K qo)) (p_d2 q) (p_d2 qo)) then Err EInconsPKK else
  match chain2_err (p_d1 qo) [] l with
  | Some e => Err e
  | None => if feqb (last (map d_delta l) 0) (p_d1 q) then Ok (map d_hash l) else Err ELastDelta
  end.

Lemma hdr_eqb_dom h ho : hdr_eqb h ho = true -> h_domain h = h_domain ho /\ h_witness h = h_witness ho.
Proof. unfold hdr_eqb. rewrite !andb_true_iff, !Z.eqb_eq. tauto. Qed.

Lemma evb_ex {X Y} (p : io X) (f : X -> io Y) s a s1 r :
  ev p s (Ok a) s1 none -> (exists s', ev (f a) s1 r s' none) -> exists s', ev (bind p f) s r s' none.
Proof. intros H1 [s' H2]. exists s'. eapply evb; eauto. Qed.
Lemma ev_require_ex {Y} b e (q : io Y) s r : (exists s', ev q s r s' none) ->
  exists s', ev (require b e ;;; q) s (if negb b then Err e else r) s' none.
Proof.
  intros [s' H]. destruct b; cbn [negb require].
  - exists s'. eapply evb; [apply ev_ret|exact H].
  - eexists. apply ev_bind_err, ev_throw.
Qed.

Lemma verify2_gen bs (rho : nat -> nat -> nat -> E) f g h ho q qo pb pbo tail junk s r : 1 <= bs ->
  hdr_ok h -> hdr_ok ho -> f = gob_hdr h ++ pb ++ tail -> g = gob_hdr ho ++ pbo ++ junk ->
  is_par2 pb q -> is_par2 pbo qo -> sized2 h q -> sized2 ho qo ->
  getr false s = opened f -> getr true s = opened g ->
  (forall st, getr false st = at_ f defBuf (length (gob_hdr h) + length pb) tail ->
     exists s', ev ('(delta, hs) <- verify_chain2 (Z.to_nat (h_contribs h)) 0 (p_d1 qo) [] ;;
       require (feqb delta (p_d1 q)) ELastDelta ;;; Ret hs) st r s' none) ->
  exists s', ev (verify2 bs rho) s
    (if (h_contribs h =? 0)%Z then Err ENoContrib else
     if negb (hdr_eqb h ho) then Err EHeader else
     if negb (same_ratio (p_d1 qo) (p_d1 q) (p_d2 q) (p_d2 qo)) then Err EDelta else
     if negb (same_ratio (agg bs (rho 0%nat) (p_Z q)) (agg bs (rho 0%nat) (p_Z qo)) (p_d2 q) (p_d2 qo)) then Err EInconsZ else
     if negb (same_ratio (agg bs (rho 1%nat) (p_K q)) (agg bs (rho 1%nat) (p_K qo)) (p_d2 q) (p_d2 qo)) then Err EInconsPKK else r)
    s' none.
Proof.
  intros B H Ho -> -> P Po [SZ SK] [SZo SKo] G1 G2 CH.
  assert (Dm : int64 (h_domain h)). { unfold hdr_ok, hdr_fields in H. rewrite !Forall_cons_iff in H. tauto. }
  unfold int64 in Dm.
  destruct P as [b1 [b2 [b3 [b4 [-> [I1 [I2 [A3 A4]]]]]]]]. destruct Po as [c1 [c2 [c3 [c4 [-> [J1 [J2 [B3 B4]]]]]]]].
  rewrite <- !app_assoc in *. set (f := gob_hdr h ++ _) in *. set (g := gob_hdr ho ++ _) in *.
  unfold verify2.
  assert (RB : forall (k : io (list bytes)) R, (forall s, getr false s = at_ f defBuf 0 f -> getr true s = at_ g defBuf 0 g -> exists s', ev k s R s' none) ->
     exists s', ev (NewRd false defBuf (NewRd true defBuf k)) s R s' none).
  { intros k R Hk. destruct (Hk (setr true (at_ g defBuf 0 g) (setr false (at_ f defBuf 0 f) s))) as [s' Q].
    - rewrite getr_other by reflexivity. apply getr_setr.
    - apply getr_setr.
    - exists s'. eapply ev_newrd0; [exact G1|]. eapply ev_newrd0; [rewrite getr_other by reflexivity; exact G2|]. exact Q. }
  apply RB. clear s G1 G2 RB. intros s G1 G2.
  eapply evb_ex; [eapply ev_read_hdr; [apply defBuf_gob|exact H|exact G1]|].
  set (s1 := setr false _ s). assert (G1' := getr_setr _ _ _ : getr false s1 = _).
  assert (G2' : getr true s1 = at_ g defBuf 0 g) by (unfold s1; now rewrite getr_other by reflexivity).
  clearbody s1. clear s G1 G2. rename s1 into s, G1' into G1, G2' into G2.
  eapply evb_ex; [eapply ev_read_hdr; [apply defBuf_gob|exact Ho|exact G2]|].
  set (s1 := setr true _ s). assert (G2' := getr_setr _ _ _ : getr true s1 = _).
  assert (G1' : getr false s1 = getr false s) by (unfold s1; now rewrite getr_other by reflexivity). rewrite G1 in G1'.
  clearbody s1. clear s G1 G2. rename s1 into s, G1' into G1, G2' into G2.
  replace (if (h_contribs h =? 0)%Z then _ else _) with
    (if negb (negb (h_contribs h =? 0)%Z) then Err ENoContrib else
     if negb (hdr_eqb h ho) then Err EHeader else
     if negb (same_ratio (p_d1 qo) (p_d1 q) (p_d2 q) (p_d2 qo)) then Err EDelta else
     if negb (same_ratio (agg bs (rho 0%nat) (p_Z q)) (agg bs (rho 0%nat) (p_Z qo)) (p_d2 q) (p_d2 qo)) then Err EInconsZ else
     if negb (same_ratio (agg bs (rho 1%nat) (p_K q)) (agg bs (rho 1%nat) (p_K qo)) (p_d2 q) (p_d2 qo)) then Err EInconsPKK else r)
     by now destruct (h_contribs h =? 0)%Z.
  apply ev_require_ex.
  destruct (hdr_eqb h ho) eqn:HE; cbn [negb].
  2: { eexists. apply ev_bind_err, ev_throw. }
  destruct (hdr_eqb_dom _ _ HE) as [HD HW].
  eapply evb_ex; [apply ev_ret|].
  eapply evb_ex; [eapply ev_decode1; [apply defBuf_big|exact J1|exact G2]|].
  set (s1 := setr true _ s). assert (G2' := getr_setr _ _ _ : getr true s1 = _).
  assert (G1' : getr false s1 = getr false s) by (unfold s1; now rewrite getr_other by reflexivity). rewrite G1 in G1'.
  clearbody s1. clear s G1 G2. rename s1 into s, G1' into G1, G2' into G2.
  eapply evb_ex; [eapply ev_decode2; [apply defBuf_big|exact J2|exact G2]|].
  set (s1 := setr true _ s). assert (G2' := getr_setr _ _ _ : getr true s1 = _).
  assert (G1' : getr false s1 = getr false s) by (unfold s1; now rewrite getr_other by reflexivity). rewrite G1 in G1'.
  clearbody s1. clear s G1 G2. rename s1 into s, G1' into G1, G2' into G2.
  eapply evb_ex; [eapply ev_decode1; [apply defBuf_big|exact I1|exact G1]|].
  set (s1 := setr false _ s). assert (G1' := getr_setr _ _ _ : getr false s1 = _).
  assert (G2' : getr true s1 = getr true s) by (unfold s1; now rewrite getr_other by reflexivity). rewrite G2 in G2'.
  clearbody s1. clear s G1 G2. rename s1 into s, G1' into G1, G2' into G2.
  eapply evb_ex; [eapply ev_decode2; [apply defBuf_big|exact I2|exact G1]|].
  set (s1 := setr false _ s). assert (G1' := getr_setr _ _ _ : getr false s1 = _).
  assert (G2' : getr true s1 = getr true s) by (unfold s1; now rewrite getr_other by reflexivity). rewrite G2 in G2'.
  clearbody s1. clear s G1 G2. rename s1 into s, G1' into G1, G2' into G2.
  apply ev_require_ex.
  rewrite (wrap64_small (h_domain h - 1)) by (unfold two63; lia).
  assert (VP : forall k (l1 l2 : list E) a1 a2 ta tb pa pb N e (kk : unit -> io (list bytes)) R s, N = Z.of_nat (length l1) -> length l2 = length l1 ->
     are1 a1 l1 -> are1 a2 l2 -> getr false s = at_ f defBuf pa (a1 ++ ta) -> getr true s = at_ g defBuf pb (a2 ++ tb) ->
     (forall s, getr false s = at_ f defBuf (pa + length a1) ta -> getr true s = at_ g defBuf (pb + length a2) tb -> exists s', ev (kk tt) s R s' none) ->
     exists s', ev (bind (verify_param bs (rho k) (p_d2 q) (p_d2 qo) N e) kk) s
       (if negb (same_ratio (agg bs (rho k) l1) (agg bs (rho k) l2) (p_d2 q) (p_d2 qo)) then Err e else R) s' none).
  { clear - B. intros k l1 l2 a1 a2 ta tb pa pb N e kk R s HN LL A1 A2 G1 G2 HK. unfold verify_param.
    pose proof (ev_aggregate bs (rho k) f g defBuf defBuf l1 l2 a1 a2 pa pb ta tb s N ltac:(assumption) defBuf_big defBuf_big HN LL A1 A2 G1 G2) as Q.
    apply ev_try_ok in Q. destruct (same_ratio _ _ _ _) eqn:SR; cbn [negb].
    - edestruct HK as [s' Q']; [| |exists s'; eapply evb; [eapply evb; [exact Q|cbv beta iota; rewrite SR; apply ev_ret]|exact Q']].
      + rewrite getr_other by reflexivity. apply getr_setr.
      + apply getr_setr.
    - eexists. apply ev_bind_err. eapply evb; [exact Q|]. cbv beta iota. rewrite SR. apply ev_throw. }
  eapply (VP 0%nat (p_Z q) (p_Z qo)); [exact SZ| |exact A3|exact B3|exact G1|exact G2|].
  { apply Nat2Z.inj. rewrite <- SZ, <- SZo. lia. }
  clear s G1 G2. intros s G1 G2.
  eapply (VP 1%nat (p_K q) (p_K qo)); [exact SK| |exact A4|exact B4|exact G1|exact G2|].
  { apply Nat2Z.inj. rewrite <- SK, <- SKo. lia. }
  clear s G1 G2. intros s G1 G2. apply CH. rewrite G1, !app_length. f_equal. lia.
Qed.

Lemma verify2_ev bs (rho : nat -> nat -> nat -> E) f g h ho q qo pbo junk l s : 1 <= bs ->
  hdr_ok h -> hdr_ok ho -> is_file2 f h q l -> g = gob_hdr ho ++ pbo ++ junk ->
  is_par2 pbo qo -> sized2 ho qo -> getr false s = opened f -> getr true s = opened g ->
  exists s', ev (verify2 bs rho) s (verdict2 bs rho h ho q qo l) s' none.
Proof.
  intros B H Ho [pb [rb [jk [Ef [P [Sz [Hl A]]]]]]] Eg Po Szo G1 G2. unfold verdict2.
  eapply verify2_gen; [exact B|exact H|exact Ho|exact Ef|exact Eg|exact P|exact Po|exact Sz|exact Szo|exact G1|exact G2|].
  intros st G. rewrite Hl, Nat2Z.id.
  destruct (ev_chain2 f l _ rb jk st 0 (p_d1 qo) [] A G) as [s' Q]. exists s'.
  destruct (chain2_err (p_d1 qo) [] l) as [e|]; [apply ev_bind_err; exact Q|].
  eapply evb; [exact Q|]. cbv beta iota.
  destruct (feqb (last (map d_delta l) 0) (p_d1 q)); [eapply evb; [apply ev_ret|apply ev_ret]|apply ev_bind_err, ev_throw].
Qed.
End L.
