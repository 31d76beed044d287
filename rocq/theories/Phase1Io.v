(* Phase1Io.v -- what the phase-1 building blocks do on readable input. *)
From Coq Require Import Ring Field.
From Verif Require Import Base Fld Conc Parallel IO Ext Spec1 Phase1.
Local Open Scope fld_scope.
Local Open Scope io_scope.

Lemma defBuf_big : bigcap defBuf. Proof. right. unfold defBuf. lia. Qed.
Lemma bigBuf_big : bigcap bigBuf. Proof. right. unfold bigBuf. lia. Qed.

Lemma to_nat_mod a b : b <> 0%N -> N.to_nat a mod N.to_nat b = N.to_nat (a mod b).
Proof. intros H. now rewrite N2Nat.inj_mod. Qed.
Lemma defBuf_32 : defBuf mod 32 = 0%nat.
Proof. unfold defBuf. change 32%nat with (N.to_nat 32). now rewrite to_nat_mod. Qed.
Lemma bigBuf_32 : bigBuf mod 32 = 0%nat.
Proof. unfold bigBuf. change 32%nat with (N.to_nat 32). now rewrite to_nat_mod. Qed.
Lemma batchSize_ge2 : 2 <= batchSize. Proof. unfold batchSize. lia. Qed.
Global Opaque defBuf bigBuf batchSize.

(* ---- integers ---- *)
Lemma bN_small n : n < 256 -> bN (b8 (N.of_nat n)) = N.of_nat n.
Proof. intros H. rewrite bN_b8. apply N.mod_small. lia. Qed.
Lemma pow2_small p : p <= 62 -> pow2 (b8 (N.of_nat p)) = Z.of_nat (2 ^ p).
Proof.
  intros H. unfold pow2. rewrite bN_small by lia.
  destruct (N.ltb_spec (N.of_nat p) 63); [|lia].
  rewrite Nat2Z.inj_pow. f_equal. lia.
Qed.
Lemma pow2_le p q : p <= q -> (Z.of_nat (2 ^ p) <= 2 ^ Z.of_nat q)%Z.
Proof. intros H. rewrite Nat2Z.inj_pow. apply Z.pow_le_mono_r; lia. Qed.
Lemma pow2_pos p : 1 <= 2 ^ p.
Proof. pose proof (Nat.pow_nonzero 2 p). lia. Qed.
Lemma wrap64_small z : (- two63 <= z < two63)%Z -> wrap64 z = z.
Proof. intros H. unfold wrap64. rewrite Z.mod_small; lia. Qed.
Lemma count_tau p : p <= 62 -> wrap64 (2 * pow2 (b8 (N.of_nat p)) - 1) = Z.of_nat (2 * 2 ^ p - 1).
Proof.
  intros H. rewrite pow2_small by auto. pose proof (pow2_le p 62 H). pose proof (pow2_pos p).
  change (2 ^ Z.of_nat 62)%Z with 4611686018427387904%Z in *.
  rewrite wrap64_small; unfold two63; lia.
Qed.

(* ---- readers ---- *)
Lemma rd_buf_at file p rest cap : rd_buf cap (at_ file 0 p rest) = at_ file cap 0 rest.
Proof.
  unfold rd_buf, at_, avail_at. cbn [r_file r_rest r_avail Nat.eqb skipn].
  destruct (cap =? 0) eqn:C; auto. rewrite Nat.mod_0_l; auto. intros ->. discriminate.
Qed.
Lemma at0 file p q rest : at_ file 0 p rest = at_ file 0 q rest.
Proof. reflexivity. Qed.
Lemma ev_newrd0 {X} h cap (q : io X) s file p rest r s' d : getr h s = at_ file 0 p rest ->
  ev q (setr h (at_ file cap 0 rest) s) r s' d -> ev (NewRd h cap q) s r s' d.
Proof. intros G H. apply ev_newrd. now rewrite G, rd_buf_at. Qed.
Lemma ev_seek h pos (n : nat) s file cap p rest : getr h s = at_ file cap p rest -> pos = Z.of_nat n ->
  ev (seek h pos) s (Ok tt) (setr h (at_ file 0 0 (skipn n file)) s) none.
Proof.
  intros G ->. exists []. split; [|auto]. unfold seek. cbn [run].
  destruct (Z.ltb_spec (Z.of_nat n) 0); [lia|]. rewrite G, Nat2Z.id. reflexivity.
Qed.

Definition opened (f : bytes) : rd := at_ f 0 0 f.

Lemma ev_read_header h file p pw c0 c1 t s : getr h s = at_ file 0 p (pw :: c0 :: c1 :: t) ->
  ev (read_header h) s (Ok (pw, (bN c0 * 256 + bN c1)%N)) (setr h (at_ file 0 0 t) s) none.
Proof.
  intros G. exists []. split; [|auto]. unfold read_header. cbn [run]. rewrite G.
  unfold at_ at 1, rd_read. cbn. rewrite getr_setr. cbn. now rewrite setr_setr.
Qed.
Lemma be16_val n : (n < 65536)%N -> (bN (b8 (n / 256)) * 256 + bN (b8 n))%N = n.
Proof.
  intros H. rewrite !bN_b8. rewrite (N.mod_small (n / 256)) by (apply N.div_lt_upper_bound; lia).
  pose proof (N.div_mod n 256). lia.
Qed.
Lemma ev_write_header o pw n s : ev (write_header o pw n) s (Ok tt) s (on o (pw :: be16 n)).
Proof.
  eapply ev_ext; [eapply ev_bind; [apply ev_write|apply ev_write]|]. intros x. apply on_cat.
Qed.
Lemma cat_none_l d : forall o, cat none d o = d o. Proof. reflexivity. Qed.
Lemma cat_none_r d : forall o, cat d none o = d o. Proof. intros. unfold cat, none. apply app_nil_r. Qed.

(* evaluation steps that keep the outputs in the form "bytes b on output o" *)
Lemma evb {X Y} (p : io X) (f : X -> io Y) s a s1 r s2 d :
  ev p s (Ok a) s1 none -> ev (f a) s1 r s2 d -> ev (bind p f) s r s2 d.
Proof. intros H1 H2. eapply ev_ext; [eapply ev_bind; eauto|]. apply cat_none_l. Qed.
Lemma evw {X Y} (p : io X) (f : X -> io Y) s a s1 r s2 o b1 b2 :
  ev p s (Ok a) s1 (on o b1) -> ev (f a) s1 r s2 (on o b2) -> ev (bind p f) s r s2 (on o (b1 ++ b2)).
Proof. intros H1 H2. eapply ev_ext; [eapply ev_bind; eauto|]. intros x. apply on_cat. Qed.
Lemma ev_on_nil {X} (p : io X) s r s' o : ev p s r s' none -> ev p s r s' (on o []).
Proof. intros H. eapply ev_ext; [eauto|]. intros x. unfold on, none. now destruct (o =? x). Qed.

Lemma ev_set2 {X} (p : io X) h a b s r d : ev p (setr h a s) r (setr h b (setr h a s)) d -> ev p (setr h a s) r (setr h b s) d.
Proof. now rewrite setr_setr. Qed.

Section Scale.
Context {E : Ext}.
Add Field Kfld : (f_th E).

Lemma powers_from_spec (a b : E) n : powers_from a b n = map (fun i => a * b ^ i) (seq 0 n).
Proof.
  revert a. induction n as [|n IH]; intros a; cbn [powers_from]; [reflexivity|].
  rewrite IH, <- cons_seq, <- seq_shift, map_cons, map_map. f_equal; [rewrite fpow_0; ring|].
  apply map_ext. intros i. rewrite fpow_S. ring.
Qed.

Definition scaled (m tau a : E) (l : list E) : list E := mapi (fun i x => x * (m * (a * tau ^ i))) l.
Lemma scaled_length m tau a l : length (scaled m tau a l) = length l.
Proof. apply mapi_length. Qed.

Lemma mapi_app {X Y} (f : nat -> X -> Y) l1 l2 :
  mapi f (l1 ++ l2) = mapi f l1 ++ mapi (fun i x => f (length l1 + i)%nat x) l2.
Proof.
  apply list_ext. intros i. rewrite nth_error_mapi.
  destruct (Nat.lt_ge_cases i (length l1)).
  - rewrite !nth_error_app1 by (rewrite ?mapi_length; auto). now rewrite nth_error_mapi.
  - rewrite !nth_error_app2 by (rewrite ?mapi_length; auto). rewrite nth_error_mapi, mapi_length.
    now replace (length l1 + (i - length l1))%nat with i by lia.
Qed.
Lemma scaled_app m tau a l1 l2 :
  scaled m tau a (l1 ++ l2) = scaled m tau a l1 ++ scaled m tau (a * tau ^ length l1) l2.
Proof.
  unfold scaled. rewrite mapi_app. f_equal. apply mapi_ext. intros i x _. rewrite fpow_add. ring.
Qed.

(* first non-zero among the entries off, bs+off, 2bs+off, ... (0 if there is none) *)
Fixpoint firstnz (off bs fuel : nat) (L : list E) : E :=
  match fuel, L with
  | O, _ => 0
  | _, [] => 0
  | S f, _ => let x := nth off (firstn bs L) 0 in
     if feqb x 0 then firstnz off bs f (skipn bs L) else x
  end.

Context (bs : nat) (bs2 : 2 <= bs) (dec : nat -> io (list E)) (P : bytes -> E -> Prop)
        (enc : E -> bytes) (h : bool) (o : nat) (file : bytes) (cap : nat).
Hypothesis dec_ok : forall l b p t s, parses P b l -> getr h s = at_ file cap p (b ++ t) ->
  ev (dec (length l)) s (Ok l) (setr h (at_ file cap (p + length b) t) s) none.

Definition mulv (mul : option E) : E := match mul with Some m => m | None => 1 end.
Definition offv (mul : option E) : nat := match mul with None => 1 | Some _ => 0 end.

Lemma scalars_ok (mul : option E) (a tau : E) n :
  exists sc, (match mul with Some m => batch_mul (powers_from a tau n) m | None => Some (powers_from a tau n) end) = Some sc
   /\ sc = map (fun i => mulv mul * (a * tau ^ i)) (seq 0 n).
Proof.
  destruct mul as [m|]; cbn [mulv].
  - unfold batch_mul. rewrite par_cells_spec by apply ncpu_pos. eexists. split; [reflexivity|].
    rewrite powers_from_spec. apply list_ext. intros i. rewrite nth_error_mapi, !map_length, seq_length, !nth_error_map_seq.
    destruct (Nat.ltb_spec i n); cbn [option_map]; auto.
    destruct (Nat.ltb_spec i n); [|lia]. f_equal. ring.
  - eexists. split; [reflexivity|]. rewrite powers_from_spec. apply map_ext. intros. ring.
Qed.

Lemma cells_scale (sc buff : list E) n (mul : option E) (a tau : E) (pts : list E) : sc = map (fun i => mulv mul * (a * tau ^ i)) (seq 0 n) ->
  length pts = n ->
  par_cells n (ncpu E) (fun i x => x * nth i sc 0) (pts ++ skipn n buff) =
  Some (scaled (mulv mul) tau a pts ++ skipn n buff).
Proof.
  intros -> L. rewrite par_cells_spec by apply ncpu_pos. f_equal. rewrite mapi_app. f_equal.
  - unfold scaled. apply mapi_ext. intros i x Hi. destruct (Nat.ltb_spec i n); [|lia].
    now rewrite nth_map_seq by lia.
  - apply list_ext. intros i. rewrite nth_error_mapi, L.
    destruct (Nat.ltb_spec (n + i) n); [lia|]. now destruct (nth_error (skipn n buff) i).
Qed.

Lemma scale_loop_ev (tau : E) (mul : option E) : forall fuel (l : list E) b p t s (buff : list E) (first start : E),
  length l <= fuel -> parses P b l -> getr h s = at_ file cap p (b ++ t) ->
  offv mul < length buff -> (first = 0 -> nth (offv mul) buff 0 = 0) ->
  let L := scaled (mulv mul) tau start l in
  ev (scale_loop bs dec enc o tau mul fuel (length l) buff first start) s
     (Ok (if feqb first 0 then firstnz (offv mul) bs fuel L else first))
     (setr h (at_ file cap (p + length b) t) s) (on o (flat_map enc L)).
Proof.
  induction fuel as [|fuel IH]; intros l b p t s buff first start Lf A G Hb Hz L.
  - destruct l; [|cbn in Lf; lia]. inversion A; subst. cbn [scale_loop length firstnz]. subst L. cbn.
    rewrite Nat.add_0_r. cbn [app] in G. rewrite <- G, setr_getr. apply ev_on_nil.
    destruct (feqb first 0) eqn:F; [apply feqb_ok in F; subst|]; apply ev_ret.
  - destruct l as [|x0 l0].
    { inversion A; subst. cbn [scale_loop length firstnz]. subst L. cbn.
      rewrite Nat.add_0_r. cbn [app] in G. rewrite <- G, setr_getr. apply ev_on_nil.
      destruct (feqb first 0) eqn:F; [apply feqb_ok in F; subst|]; apply ev_ret. }
    remember (x0 :: l0) as l eqn:El.
    assert (Lpos : 1 <= length l) by (subst l; cbn; lia).
    assert (UN : scale_loop bs dec enc o tau mul (S fuel) (length l) buff first start =
      (let n := Nat.min (length l) bs in
       pts <- dec n ;;
       let buff := pts ++ skipn n buff in
       orBoom (powers start tau n) (fun scalars =>
       orBoom (nth_error scalars (n - 1)) (fun lst =>
       let start := lst * tau in
       orBoom (match mul with Some m => batch_mul scalars m | None => Some scalars end) (fun scalars =>
       orBoom (par_cells n (ncpu E) (fun i x => x * nth i scalars 0) buff) (fun buff =>
       encodes o (map enc (firstn n buff)) ;;;
       if feqb first 0 then
         orBoom (nth_error buff (offv mul)) (fun first =>
         scale_loop bs dec enc o tau mul fuel (length l - n) buff first start)
       else scale_loop bs dec enc o tau mul fuel (length l - n) buff first start)))))).
    { subst l. reflexivity. }
    rewrite UN. clear UN. cbv zeta.
    set (n := Nat.min (length l) bs). assert (Hn : 1 <= n <= length l) by lia.
    assert (Hl : l = firstn n l ++ skipn n l) by now rewrite firstn_skipn.
    set (l1 := firstn n l) in *. set (l2 := skipn n l) in *.
    assert (L1 : length l1 = n) by (unfold l1; rewrite firstn_length; lia).
    assert (L2 : length l2 = (length l - n)%nat) by (unfold l2; apply skipn_length).
    rewrite Hl in A. apply parses_app_inv in A. destruct A as [b1 [b2 [-> [A1 A2]]]].
    rewrite <- app_assoc in G.
    pose proof (dec_ok l1 b1 p (b2 ++ t) s A1 G) as D. rewrite L1 in D.
    eapply evb; [exact D|]. clear D.
    assert (PW : powers start tau n = Some (powers_from start tau n)).
    { unfold powers. clearbody n. destruct n; [lia|auto]. }
    rewrite PW. cbn [orBoom].
    rewrite powers_from_spec at 1.
    rewrite nth_error_map_seq_lt by lia. cbn [orBoom Nat.add].
    destruct (scalars_ok mul start tau n) as [sc [Esc Hsc]]. rewrite Esc. cbn [orBoom].
    rewrite (cells_scale sc buff n mul start tau l1 Hsc L1). cbn [orBoom].
    set (L1' := scaled (mulv mul) tau start l1).
    assert (LL1 : length L1' = n) by (unfold L1'; now rewrite scaled_length).
    assert (FB : firstn n (L1' ++ skipn n buff) = L1') by (rewrite <- LL1; apply firstn_app_exact).
    assert (Est : start * tau ^ (n - 1) * tau = start * tau ^ n).
    { replace n with (S (n - 1))%nat at 2 by lia. rewrite fpow_S. ring. }
    assert (EL : L = L1' ++ scaled (mulv mul) tau (start * tau ^ (n - 1) * tau) l2).
    { unfold L. rewrite Hl, scaled_app, L1, Est. reflexivity. }
    set (start' := start * tau ^ (n - 1) * tau) in *.
    assert (Hout : flat_map enc L = flat_map enc L1' ++ flat_map enc (scaled (mulv mul) tau start' l2)).
    { rewrite EL. apply flat_map_app. }
    rewrite Hout. eapply evw.
    { rewrite FB. rewrite flat_map_concat_map. apply ev_encodes. }
    rewrite <- L2.
    set (buff' := L1' ++ skipn n buff).
    assert (LB' : length buff' = Nat.max n (length buff)).
    { unfold buff'. rewrite app_length, LL1, skipn_length. lia. }
    assert (G2 : getr h (setr h (at_ file cap (p + length b1) (b2 ++ t)) s) = at_ file cap (p + length b1) (b2 ++ t))
      by apply getr_setr.
    assert (Lf2 : length l2 <= fuel) by lia.
    rewrite app_length, Nat.add_assoc.
    rewrite <- (setr_setr h (at_ file cap (p + length b1 + length b2) t) (at_ file cap (p + length b1) (b2 ++ t)) s).
    assert (FN : nth (offv mul) (firstn bs L) 0 = if feqb first 0 then nth (offv mul) buff' 0 else nth (offv mul) (firstn bs L) 0).
    { destruct (feqb first 0) eqn:F; auto. apply feqb_ok in F.
      assert (FL : firstn bs L = L1').
      { assert (LLen : length L = length l) by (unfold L; apply scaled_length).
        rewrite EL. destruct (Nat.le_gt_cases (length l) bs).
        - assert (X : l2 = []) by (unfold l2; apply skipn_all2; lia). rewrite X. cbn. rewrite app_nil_r.
          apply firstn_all2. lia.
        - replace bs with (length L1') by lia. apply firstn_app_exact. }
      rewrite FL. unfold buff'. destruct (Nat.lt_ge_cases (offv mul) n).
      - now rewrite (app_nth1 L1') by lia.
      - rewrite (nth_overflow L1') by lia. rewrite app_nth2 by lia.
        rewrite LL1. symmetry. etransitivity; [|exact (Hz F)]. rewrite !nth_nth_error, nth_error_skipn.
        now replace (n + (offv mul - n))%nat with (offv mul) by lia. }
    assert (SL : skipn bs L = scaled (mulv mul) tau start' l2).
    { assert (LLen : length L = length l) by (unfold L; apply scaled_length).
      rewrite EL. destruct (Nat.le_gt_cases (length l) bs).
      - assert (X : l2 = []) by (unfold l2; apply skipn_all2; lia). rewrite X. cbn. rewrite app_nil_r.
        apply skipn_all2. lia.
      - replace bs with (length L1') by lia. apply skipn_app_exact. }
    assert (FNZ : firstnz (offv mul) bs (S fuel) L =
       if feqb (nth (offv mul) (firstn bs L) 0) 0 then firstnz (offv mul) bs fuel (skipn bs L) else nth (offv mul) (firstn bs L) 0).
    { destruct L eqn:EqL; [|reflexivity]. exfalso. assert (length L = length l) by (unfold L; apply scaled_length).
      fold L in EqL. rewrite EqL in H. cbn in H. lia. }
    destruct (feqb first 0) eqn:F.
    + rewrite nth_error_nth_lt with (d := 0) by lia. cbn [orBoom].
      rewrite FNZ, FN, SL.
      eapply (IH l2 b2 (p + length b1)%nat t _ buff' (nth (offv mul) buff' 0) start'); auto.
      * lia.
    + pose proof (IH l2 b2 (p + length b1)%nat t _ buff' first start' Lf2 A2 G2 ltac:(lia)) as Q.
      cbv zeta in Q. rewrite F in Q. apply Q. intros X. rewrite X, feqb_refl in F. discriminate.
Qed.
End Scale.

Section Blocks.
Context {E : Ext}.
Add Field Kfld2 : (f_th E).

Lemma scaled_tau (tau : E) l : scaled 1 tau 1 l = mapi (fun i x => tau ^ i * x) l.
Proof. apply mapi_ext. intros. ring. Qed.
Lemma scaled_mul (m tau : E) l : scaled m tau 1 l = mapi (fun i x => m * tau ^ i * x) l.
Proof. apply mapi_ext. intros. ring. Qed.

Lemma firstnz_head (off bs fuel : nat) (L : list E) : L <> [] -> fuel <> 0%nat -> off < bs -> nth off L 0 <> 0 ->
  firstnz off bs fuel L = nth off L 0.
Proof.
  intros H1 H2 H3 H4. destruct fuel; [congruence|]. destruct L as [|x L]; [congruence|].
  cbn [firstnz]. assert (X : nth off (firstn bs (x :: L)) 0 = nth off (x :: L) 0).
  { rewrite !nth_nth_error, nth_error_firstn. destruct (Nat.ltb_spec off bs); [auto|lia]. }
  rewrite X. now rewrite (proj2 (feqb_neq E _ _) H4).
Qed.
Lemma firstnz_zero (off bs : nat) : forall fuel (L : list E), (forall i, off <= i -> nth i L 0 = 0) ->
  off < bs -> firstnz off bs fuel L = 0.
Proof.
  induction fuel as [|fuel IH]; intros L H Hb; [reflexivity|]. destruct L as [|x L]; [reflexivity|].
  cbn [firstnz]. assert (X : nth off (firstn bs (x :: L)) 0 = 0).
  { rewrite nth_nth_error, nth_error_firstn. destruct (Nat.ltb_spec off bs); [|lia].
    rewrite <- nth_nth_error. apply H. lia. }
  rewrite X, feqb_refl. apply IH; auto. intros i Hi. rewrite nth_nth_error, nth_error_skipn, <- nth_nth_error. apply H. lia.
Qed.
Lemma firstnz_one (off bs fuel : nat) (L : list E) : length L <= bs -> fuel <> 0%nat -> firstnz off bs fuel L = nth off L 0.
Proof.
  intros H Hf. destruct fuel as [|fuel]; [congruence|]. destruct L as [|x L]; [now destruct off|].
  cbn [firstnz]. rewrite firstn_all2, skipn_all2 by auto. destruct (feqb _ 0) eqn:F; auto.
  apply feqb_ok in F. rewrite F. now destruct fuel.
Qed.

(* the first point is the entry [off] of the section, except when that entry is the identity, the
   section spans several batches and a later batch has a non-identity point at that position *)
Lemma firstnz_ok (off bs : nat) (L : list E) : first_ok off bs L -> off < bs -> L <> [] ->
  firstnz off bs (length L) L = nth off L 0.
Proof.
  intros H Hb Hn. assert (length L <> 0)%nat by (destruct L; cbn; congruence).
  destruct H as [H|[H|H]].
  - now apply firstnz_head.
  - now apply firstnz_one.
  - rewrite firstnz_zero by auto. now rewrite H.
Qed.

Lemma scale_ev bs dec P enc h o file cap (tau : E) mul l b p t s (N : Z) :
  2 <= bs ->
  (forall l b p t s, parses P b l -> getr h s = at_ file cap p (b ++ t) ->
     ev (dec (length l)) s (Ok l) (setr h (at_ file cap (p + length b) t) s) none) ->
  N = Z.of_nat (length l) -> offv mul < length l ->
  parses P b l -> getr h s = at_ file cap p (b ++ t) ->
  let L := scaled (mulv mul) tau 1 l in
  ev (scale bs dec enc o N tau mul) s (Ok (firstnz (offv mul) bs (length L) L))
     (setr h (at_ file cap (p + length b) t) s) (on o (flat_map enc L)).
Proof.
  intros B2 D -> Hl A G L. unfold scale. destruct (Z.ltb_spec (Z.of_nat (length l)) 0); [lia|].
  rewrite Nat2Z.id.
  pose proof (scale_loop_ev bs B2 dec P enc h o file cap D tau mul (length l) l b p t s
    (repeat 0 (Nat.min (length l) bs)) 0 1 (le_n _) A G) as Q. cbv zeta in Q.
  rewrite feqb_refl in Q. unfold L. rewrite scaled_length. apply Q.
  - rewrite repeat_length. destruct mul; cbn [offv] in *; lia.
  - intros _. rewrite nth_nth_error. destruct (nth_error _ _) eqn:X; auto.
    apply nth_error_In, repeat_spec in X. auto.
Qed.

Lemma scaleG1_ev bs h o file cap (tau : E) mul l b p t s (N : Z) : 2 <= bs -> bigcap cap ->
  N = Z.of_nat (length l) -> offv mul < length l -> are1 b l -> getr h s = at_ file cap p (b ++ t) ->
  let L := scaled (mulv mul) tau 1 l in
  ev (scaleG1 bs h o N tau mul) s (Ok (firstnz (offv mul) bs (length L) L))
     (setr h (at_ file cap (p + length b) t) s) (on o (enc1 L)).
Proof.
  intros B2 C HN Hl A G. eapply scale_ev; eauto. intros. eapply ev_decodes1; eauto.
Qed.
Lemma scaleG2_ev bs h o file cap (tau : E) l b p t s (N : Z) : 2 <= bs -> bigcap cap ->
  N = Z.of_nat (length l) -> 1 < length l -> are2 b l -> getr h s = at_ file cap p (b ++ t) ->
  let L := scaled 1 tau 1 l in
  ev (scaleG2 bs h o N tau) s (Ok (firstnz 1 bs (length L) L))
     (setr h (at_ file cap (p + length b) t) s) (on o (enc2 L)).
Proof.
  intros B2 C HN Hl A G.
  eapply (scale_ev bs (decodes2 h) is2 g2c h o file cap tau None); eauto. intros. eapply ev_decodes2; eauto.
Qed.

(* ---- records ---- *)
Lemma readfull_try_ok h file cap p b t s k : length b = k -> cap = 0%nat \/ k < cap ->
  getr h s = at_ file cap p (b ++ t) ->
  ev (try (readfull h k)) s (Ok (Some b)) (setr h (at_ file cap (p + k) t) s) none.
Proof. intros. apply ev_try_ok. eapply readfull_ok; eauto. Qed.

Lemma ev_decode1_into h file cap p b (x old : E) t s : bigcap cap -> is1 b x ->
  getr h s = at_ file cap p (b ++ t) ->
  ev (decode1_into h old) s (Ok (x, true)) (setr h (at_ file cap (p + length b) t) s) none.
Proof.
  intros Hc Hb G. unfold decode1_into. destruct Hb as [[L [C D]]|[L [C D]]].
  - eapply evb; [eapply readfull_try_ok; [exact L| |exact G]; apply bigcap_le; [auto|lia]|].
    cbv beta iota. rewrite C, D, L. apply ev_ret.
  - rewrite <- (firstn_skipn 32 b) in G. rewrite <- app_assoc in G.
    assert (L1 : length (firstn 32 b) = 32) by (rewrite firstn_length; lia).
    assert (L2 : length (skipn 32 b) = 32) by (rewrite skipn_length; lia).
    assert (C1 : compressed (firstn 32 b) = false).
    { rewrite <- C. rewrite <- (firstn_skipn 32 b) at 2. rewrite compressed_app; auto.
      intros X. rewrite X in L1. discriminate. }
    eapply evb; [eapply readfull_try_ok; [exact L1| |exact G]; apply bigcap_le; [auto|lia]|].
    cbv beta iota. rewrite C1.
    eapply evb; [eapply readfull_try_ok; [exact L2| |apply getr_setr]; apply bigcap_le; [auto|lia]|].
    cbv beta iota. rewrite firstn_skipn, D, setr_setr. replace (p + 32 + 32)%nat with (p + length b)%nat by lia. apply ev_ret.
Qed.
Lemma ev_decode2_into h file cap p b (x old : E) t s : bigcap cap -> is2 b x ->
  getr h s = at_ file cap p (b ++ t) ->
  ev (decode2_into h old) s (Ok (x, true)) (setr h (at_ file cap (p + length b) t) s) none.
Proof.
  intros Hc Hb G. unfold decode2_into. destruct Hb as [[L [C D]]|[L [C D]]].
  - eapply evb; [eapply readfull_try_ok; [exact L| |exact G]; apply bigcap_le; [auto|lia]|].
    cbv beta iota. rewrite C, D, L. apply ev_ret.
  - rewrite <- (firstn_skipn 64 b) in G. rewrite <- app_assoc in G.
    assert (L1 : length (firstn 64 b) = 64) by (rewrite firstn_length; lia).
    assert (L2 : length (skipn 64 b) = 64) by (rewrite skipn_length; lia).
    assert (C1 : compressed (firstn 64 b) = false).
    { rewrite <- C. rewrite <- (firstn_skipn 64 b) at 2. rewrite compressed_app; auto.
      intros X. rewrite X in L1. discriminate. }
    eapply evb; [eapply readfull_try_ok; [exact L1| |exact G]; apply bigcap_le; [auto|lia]|].
    cbv beta iota. rewrite C1.
    eapply evb; [eapply readfull_try_ok; [exact L2| |apply getr_setr]; apply bigcap_le; [auto|lia]|].
    cbv beta iota. rewrite firstn_skipn, D, setr_setr. replace (p + 64 + 64)%nat with (p + length b)%nat by lia. apply ev_ret.
Qed.

Fixpoint set_fields (fs : list field) (vs : list (E + E)) (c : contrib E) : option (contrib E) :=
  match fs, vs with
  | [], [] => Some c
  | G1F g s :: fs', inl x :: vs' => set_fields fs' vs' (s c x)
  | G2F g s :: fs', inr x :: vs' => set_fields fs' vs' (s c x)
  | _, _ => None
  end.
Lemma ev_read_fields h file cap : bigcap cap -> forall fs vs c c' b p t s,
  set_fields fs vs c = Some c' -> are_vals b vs -> getr h s = at_ file cap p (b ++ t) ->
  ev (read_fields h fs c) s (Ok (c', true)) (setr h (at_ file cap (p + length b) t) s) none.
Proof.
  intros Hc fs. induction fs as [|f fs IH]; intros vs c c' b p t s F A G.
  - destruct vs; [|discriminate]. injection F as <-. inversion A; subst. cbn [read_fields].
    cbn [app length] in *. rewrite Nat.add_0_r, <- G, setr_getr. apply ev_ret.
  - inversion A as [|b1 v t1 vs' V A']; subst.
    { destruct f; discriminate. }
    rewrite <- app_assoc in G. rewrite app_length, Nat.add_assoc.
    destruct f as [g st|g st], v as [x|x]; try discriminate; cbn [set_fields] in F; cbn [is_val] in V; cbn [read_fields].
    + eapply evb; [eapply ev_decode1_into; eauto|]. cbv beta iota.
      apply ev_set2.
      eapply IH; eauto using getr_setr.
    + eapply evb; [eapply ev_decode2_into; eauto|]. cbv beta iota.
      apply ev_set2.
      eapply IH; eauto using getr_setr.
Qed.
Lemma set_fields_decode (r c : contrib E) : set_fields toDecode (rec_vals r) c = Some (s_hash r (c_hash c)).
Proof. destruct r as [? ? ? ? ? [] [] [] ?], c as [? ? ? ? ? [] [] [] ?]. reflexivity. Qed.

Lemma is1_mod b (x : E) : is1 b x -> length b mod 32 = 0%nat.
Proof. now intros [[-> _]|[-> _]]. Qed.
Lemma is2_mod b (x : E) : is2 b x -> length b mod 32 = 0%nat.
Proof. now intros [[-> _]|[-> _]]. Qed.
Lemma are1_mod b (l : list E) : are1 b l -> length b mod 32 = 0%nat.
Proof. apply parses_mod; [lia|apply is1_mod]. Qed.
Lemma are2_mod b (l : list E) : are2 b l -> length b mod 32 = 0%nat.
Proof. apply parses_mod; [lia|apply is2_mod]. Qed.
Lemma are_vals_mod b (l : list (E + E)) : are_vals b l -> length b mod 32 = 0%nat.
Proof. apply parses_mod; [lia|]. intros c [x|x]; [apply is1_mod|apply is2_mod]. Qed.
Lemma mod32_add a b : a mod 32 = 0%nat -> b mod 32 = 0%nat -> (a + b) mod 32 = 0%nat.
Proof. intros A B. rewrite Nat.add_mod, A, B; auto. Qed.
Lemma is_rec_mod b (c : contrib E) : is_rec b c -> length b mod 32 = 0%nat.
Proof. intros [pb [-> [A L]]]. rewrite app_length. apply mod32_add; [eapply are_vals_mod; eauto|]. now rewrite L. Qed.
Lemma are_recs_mod b (l : list (contrib E)) : are_recs b l -> length b mod 32 = 0%nat.
Proof. apply parses_mod; [lia|apply is_rec_mod]. Qed.

(* positions that are multiples of 32 never straddle a buffer whose size is a multiple of 32 *)
Lemma aligned_fits cap p : 0 < cap -> cap mod 32 = 0%nat -> p mod 32 = 0%nat -> p mod cap + 32 <= cap.
Proof.
  intros C C32 P. pose proof (Nat.mod_upper_bound p cap ltac:(lia)) as U.
  apply Nat.mod_divides in C32; [|lia]. destruct C32 as [c Hc].
  apply Nat.mod_divides in P; [|lia]. destruct P as [q Hq].
  assert (X : p mod cap = (32 * (q mod c))%nat).
  { rewrite Hc, Hq. apply Nat.mul_mod_distr_l; lia. }
  rewrite X in *. assert (q mod c < c) by (apply Nat.mod_upper_bound; lia). lia.
Qed.

Lemma ev_read_contrib h file cap p b (r c : contrib E) t s : bigcap cap -> cap mod 32 = 0%nat -> p mod 32 = 0%nat ->
  is_rec b r -> getr h s = at_ file cap p (b ++ t) ->
  ev (read_contrib h c) s (Ok (r, true)) (setr h (at_ file cap (p + length b) t) s) none.
Proof.
  intros Hc C32 P [pb [-> [A Lh]]] G. rewrite <- app_assoc in G. unfold read_contrib.
  eapply evb; [eapply ev_read_fields; eauto using set_fields_decode|]. cbv beta iota.
  set (q := (p + length pb)%nat).
  assert (Q : q mod 32 = 0%nat) by (apply mod32_add; eauto using are_vals_mod).
  exists []. split; [|auto]. cbn [run]. rewrite getr_setr, rd_read_at.
  - replace (firstn 32 (c_hash r ++ t)) with (c_hash r) by (now rewrite <- Lh, firstn_app_exact).
    replace (skipn 32 (c_hash r ++ t)) with t by (now rewrite <- Lh, skipn_app_exact).
    cbn [run]. rewrite setr_setr. f_equal. f_equal.
    + f_equal. f_equal. rewrite Lh. unfold zeros32. cbn [skipn repeat]. rewrite app_nil_r. now destruct r.
    + f_equal. rewrite app_length, Lh. unfold q. f_equal. lia.
  - lia.
  - rewrite app_length. lia.
  - destruct (Nat.eq_dec cap 0); [auto|]. right. split; [apply aligned_fits; auto; lia|]. unfold bigcap in Hc. lia.
Qed.

Lemma put_vals (c : contrib E) : concat (map (put c) toEncode) = enc_vals (rec_vals c).
Proof. destruct c as [? ? ? ? ? [] [] [] ?]. reflexivity. Qed.
Lemma hash_vals (c : contrib E) : compute_hash c = sha E (enc_vals (rec_vals c)).
Proof. destruct c as [? ? ? ? ? [] [] [] ?]. reflexivity. Qed.
Lemma ev_write_contrib o (c : contrib E) s : ev (write_contrib o c) s (Ok tt) s (on o (rec_bytes c)).
Proof. unfold write_contrib, rec_bytes. eapply evw; [|apply ev_write]. rewrite <- put_vals. apply ev_encodes. Qed.

Lemma gen_key_spec (x s : E) ch tag : gen_key x s ch tag = mk_key x s ch tag.
Proof.
  unfold gen_key, mk_key, gen_sp, chal. cbv zeta.
  replace (1 * s) with s by ring. replace (s * x) with (x * s) by ring. f_equal. ring.
Qed.

Lemma ev_copy_contribs h o file cap : bigcap cap -> cap mod 32 = 0%nat -> forall (l : list (contrib E)) b p t c s, p mod 32 = 0%nat ->
  are_recs b l -> getr h s = at_ file cap p (b ++ t) ->
  ev (copy_contribs h o (length l) c) s (Ok (last l c)) (setr h (at_ file cap (p + length b) t) s) (on o (recs_bytes l)).
Proof.
  intros Hc C32 l. induction l as [|r l IH]; intros b p t c s P A G.
  - inversion A; subst. cbn [copy_contribs length last recs_bytes flat_map app] in *.
    rewrite Nat.add_0_r, <- G, setr_getr. apply ev_on_nil, ev_ret.
  - inversion A as [|b1 r' t1 l' R A']; subst. rewrite <- app_assoc in G. cbn [copy_contribs length].
    eapply evb; [eapply ev_read_contrib; eauto|]. cbv beta iota.
    change (recs_bytes (r :: l)) with (rec_bytes r ++ recs_bytes l).
    eapply evw; [apply ev_write_contrib|].
    rewrite app_length, Nat.add_assoc.
    apply ev_set2.
    assert (Q : ((p + length b1) mod 32 = 0)%nat) by (apply mod32_add; eauto using is_rec_mod).
    replace (last (r :: l) c) with (last l r).
    + eapply IH; eauto using getr_setr.
    + clear. destruct l as [|x l]; [reflexivity|]. cbn [last].
      revert x. induction l as [|y l IHl]; intros x; [reflexivity|]. exact (IHl y).
Qed.

Lemma last_map {X Y} (f : X -> Y) l d : last (map f l) (f d) = f (last l d).
Proof. induction l as [|x l IH]; [reflexivity|]. destruct l; [reflexivity|]. exact IH. Qed.

(* Contribute on a readable file, first points still in the form the loop computes them *)
Definition first_rec (bs : nat) (w : rnd1) (s : srs E) (prev : bytes) : contrib E :=
  signed_rec (firstnz 1 bs (length (tau1 s)) (tau1 s)) (firstnz 0 bs (length (alpha1 s)) (alpha1 s))
    (firstnz 0 bs (length (beta1 s)) (beta1 s)) (firstnz 1 bs (length (tau2 s)) (tau2 s)) (beta2 s)
    (r_tau w) (r_alpha w) (r_beta w) (r_st w) (r_sa w) (r_sb w) prev.

Lemma count_back n : (n < 65536)%N -> (((n + 1) mod 65536 + 65535) mod 65536 = n)%N.
Proof.
  intros H. rewrite N.add_mod_idemp_l by lia. replace (n + 1 + 65535)%N with (n + 1 * 65536)%N by lia.
  rewrite N.mod_add by lia. now apply N.mod_small.
Qed.

Lemma contribute_ev bs (w : rnd1) f p (S : srs E) l s :
  2 <= bs -> 1 <= p <= 62 -> length l < N.to_nat 65536 ->
  is_file1 f p S l -> getr false s = opened f ->
  let S' := upd_srs (r_tau w) (r_alpha w) (r_beta w) S in
  let c := first_rec bs w S' (last_hash l) in
  exists s', getr true s' = getr true s /\
  ev (contribute bs w) s (Ok (c_hash c)) s'
    (on 0 (hdr1 p (N.to_nat ((N.of_nat (length l) + 1) mod 65536)) ++ srs_bytes S' ++ recs_bytes l ++ rec_bytes c)).
Proof.
  intros B2 [P1 P62] Ll [sb [rb [junk [Ef [SZ [IS AR]]]]]] G S' c.
  destruct IS as [b1 [b2 [b3 [b4 [b5 [-> [I1 [I2 [I3 [I4 I5]]]]]]]]]].
  destruct SZ as [Z1 [Z2 [Z3 Z4]]].
  assert (N2 : 2 <= 2 ^ p) by (pose proof (Nat.pow_le_mono_r 2 1 p); cbn in *; lia).
  assert (LN : (N.of_nat (length l) < 65536)%N) by lia.
  set (n := N.of_nat (length l)) in *.
  unfold opened in G. rewrite Ef in G at 2. unfold hdr1, be16 in G. cbn [app] in G.
  fold n in G. repeat rewrite <- app_assoc in G.
  eexists. split.
  2:{
  unfold contribute. eapply evb; [eapply ev_read_header; exact G|]. cbv beta iota. rewrite be16_val by auto.
  cbv zeta. rewrite count_tau, pow2_small by lia. rewrite count_back by auto.
  assert (HH : hdr1 p (N.to_nat ((n + 1) mod 65536)) = b8 (N.of_nat p) :: be16 ((n + 1) mod 65536)).
  { unfold hdr1. now rewrite N2Nat.id. }
  rewrite HH. eapply evw; [apply ev_write_header|].
  eapply ev_newrd0; [apply getr_setr|]. rewrite setr_setr. apply ev_newwr, ev_with_flush.
  destruct w as [tau alpha beta st sa sb]. cbn [r_tau r_alpha r_beta r_st r_sa r_sb] in *.
  unfold srs_bytes. repeat rewrite <- app_assoc.
  pose proof defBuf_big as DB.
  assert (D0 : 0 mod 32 = 0%nat) by reflexivity.
  eapply evw.
  { replace (enc1 (tau1 S')) with (enc1 (scaled (mulv None) tau 1 (tau1 S))) by (unfold S'; cbn [upd_srs tau1 mulv]; now rewrite scaled_tau).
    eapply scaleG1_ev; [exact B2|exact DB|now rewrite Z1|cbn [offv]; lia|exact I1|apply getr_setr]. }
  cbv beta. rewrite setr_setr.
  eapply evw.
  { replace (enc1 (alpha1 S')) with (enc1 (scaled (mulv (Some alpha)) tau 1 (alpha1 S))) by (unfold S'; cbn [upd_srs alpha1 mulv]; now rewrite scaled_mul).
    eapply scaleG1_ev; [exact B2|exact DB|now rewrite Z2|cbn [offv]; lia|exact I2|apply getr_setr]. }
  cbv beta. rewrite setr_setr.
  eapply evw.
  { replace (enc1 (beta1 S')) with (enc1 (scaled (mulv (Some beta)) tau 1 (beta1 S))) by (unfold S'; cbn [upd_srs beta1 mulv]; now rewrite scaled_mul).
    eapply scaleG1_ev; [exact B2|exact DB|now rewrite Z3|cbn [offv]; lia|exact I3|apply getr_setr]. }
  cbv beta. rewrite setr_setr.
  eapply evw.
  { replace (enc2 (tau2 S')) with (enc2 (scaled 1 tau 1 (tau2 S))) by (unfold S'; cbn [upd_srs tau2]; now rewrite scaled_tau).
    eapply scaleG2_ev; [exact B2|exact DB|now rewrite Z4|lia|exact I4|apply getr_setr]. }
  cbv beta. rewrite setr_setr.
  eapply evb; [eapply ev_decode2; [exact DB|exact I5|apply getr_setr]|]. cbv beta. rewrite setr_setr.
  eapply evw.
  { replace (beta2 S') with (beta2 S * beta) by (unfold S'; cbn [upd_srs beta2]; ring). apply ev_write. }
  cbv beta.
  eapply evw.
  { replace (N.to_nat n) with (length l) by (unfold n; lia).
    eapply ev_copy_contribs; [exact DB|exact defBuf_32| |exact AR|apply getr_setr].
    repeat apply mod32_add; eauto using are1_mod, are2_mod, is2_mod. }
  cbv beta. rewrite setr_setr.
  assert (PH : (if (n =? 0)%N then [] else c_hash (last l zero_contrib)) = last_hash l).
  { unfold last_hash. destruct (N.eqb_spec n 0) as [X|X].
    - destruct l; [reflexivity|]. unfold n in X. cbn in X. lia.
    - symmetry. exact (last_map (@c_hash E) l zero_contrib). }
  rewrite PH, !gen_key_spec.
  match goal with |- context [try (write_contrib 0 ?c1)] => assert (EC : c1 = c) end.
  { unfold c, first_rec, signed_rec. cbn [r_tau r_alpha r_beta r_st r_sa r_sb]. rewrite hash_vals.
    unfold S'. cbn [upd_srs tau1 alpha1 beta1 tau2 beta2 mulv offv]. rewrite <- !scaled_tau, <- !scaled_mul.
    replace (beta2 S * beta) with (beta * beta2 S) by ring.
    reflexivity. }
  rewrite EC.
  rewrite <- (app_nil_r (rec_bytes c)).
  eapply evw; [apply ev_try_ok, ev_write_contrib|]. apply ev_on_nil, ev_ret. }
  destruct s; reflexivity.
Qed.
End Blocks.
