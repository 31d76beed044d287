(* Phase2Io.v -- what the phase-2 building blocks do on readable input. *)
From Coq Require Import Ring Field.
From Verif Require Import Base Fld Conc Parallel IO Ext Spec1 Phase1 Phase1Io Phase1Verify Gob GobLemmas Circuit Spec2 Phase2.
Local Open Scope fld_scope.
Local Open Scope io_scope.

Local Transparent defBuf.
Lemma defBuf_val : defBuf = N.to_nat 4096. Proof. reflexivity. Qed.
Local Opaque defBuf.
Lemma defBuf_gob : defBuf = 0%nat \/ 136 < defBuf.
Proof. right. rewrite defBuf_val. lia. Qed.

Lemma ev_newwr {X} o cap (q : io X) s r s' d : ev q s r s' d -> ev (NewWr o cap q) s r s' d.
Proof. intros [w H]. exists w. exact H. Qed.
Lemma ev_require_ok e s : ev (require true e) s (Ok tt) s none.
Proof. apply ev_ret. Qed.
Lemma getr_other h h' r s : h' = negb h -> getr h' (setr h r s) = getr h' s.
Proof. intros ->. apply getr_setr_other. Qed.

Section P2.
Context {E : Ext2}.
Add Field Kfld2a : (f_th E).

Lemma inv_div (x d : E) : x * finv d = x / d.
Proof. symmetry. apply (Fdiv_def (f_th E)). Qed.
Lemma div_0 (x : E) : x / 0 = 0.
Proof. rewrite <- inv_div, finv0. ring. Qed.

(* ---- scale ---- *)
Lemma scale2_loop_ev bs h o file cap (d : E) : 1 <= bs -> bigcap cap -> forall fuel (l : list E) b p t s (buff : list E),
  length l <= fuel -> are1 b l -> getr h s = at_ file cap p (b ++ t) ->
  ev (scale2_loop bs h o d fuel (length l) buff) s (Ok tt) (setr h (at_ file cap (p + length b) t) s)
     (on o (enc1 (map (fun x => x * d) l))).
Proof.
  intros B C. induction fuel as [|fuel IH]; intros l b p t s buff Lf A G.
  - destruct l; [|cbn in Lf; lia]. inversion A; subst. cbn [scale2_loop length map enc1 flat_map]. cbn [app] in G.
    rewrite Nat.add_0_r, <- G, setr_getr. apply ev_on_nil, ev_ret.
  - destruct l as [|x0 l0].
    { inversion A; subst. cbn [scale2_loop length map enc1 flat_map]. cbn [app] in G.
      rewrite Nat.add_0_r, <- G, setr_getr. apply ev_on_nil, ev_ret. }
    remember (x0 :: l0) as l eqn:El.
    assert (Lpos : 1 <= length l) by (subst l; cbn; lia).
    assert (UN : scale2_loop bs h o d (S fuel) (length l) buff =
      (let n := Nat.min (length l) bs in
       pts <- decodes1 h n ;;
       let buff := pts ++ skipn n buff in
       orBoom (par_cells n (ncpu E) (fun _ x => x * d) buff) (fun buff =>
       encodes o (map g1c (firstn n buff)) ;;;
       scale2_loop bs h o d fuel (length l - n) buff))) by (subst l; reflexivity).
    rewrite UN. clear UN. cbv zeta.
    set (n := Nat.min (length l) bs). assert (Hn : 1 <= n <= length l) by lia.
    assert (Hl : l = firstn n l ++ skipn n l) by now rewrite firstn_skipn.
    set (l1 := firstn n l) in *. set (l2 := skipn n l) in *.
    assert (L1 : length l1 = n) by (unfold l1; rewrite firstn_length; lia).
    assert (L2 : length l2 = (length l - n)%nat) by (unfold l2; apply skipn_length).
    rewrite Hl in A. apply parses_app_inv in A. destruct A as [b1 [b2 [-> [A1 A2]]]].
    rewrite <- app_assoc in G.
    pose proof (ev_decodes1 h file cap C l1 b1 p (b2 ++ t) s A1 G) as D. rewrite L1 in D.
    eapply evb; [exact D|]. clear D.
    rewrite par_cells_spec by apply ncpu_pos. cbn [orBoom].
    set (buff' := mapi _ _).
    assert (FB : firstn n buff' = map (fun x => x * d) l1).
    { apply list_ext. intros i. rewrite nth_error_firstn. unfold buff'. rewrite nth_error_mapi.
      destruct (Nat.ltb_spec i n) as [I|I].
      - rewrite nth_error_app1 by lia. symmetry. apply nth_error_map.
      - symmetry. apply nth_error_None. rewrite map_length. lia. }
    replace (map (fun x => x * d) l) with (map (fun x => x * d) l1 ++ map (fun x => x * d) l2)
      by (now rewrite <- map_app, <- Hl).
    rewrite enc1_app. eapply evw.
    { rewrite FB. unfold enc1. rewrite flat_map_concat_map. apply ev_encodes. }
    rewrite <- L2, app_length, Nat.add_assoc. apply ev_set2. apply IH; [lia|auto|apply getr_setr].
Qed.
Lemma ev_scale2 bs h o file cap (d : E) (l : list E) b p t s N : 1 <= bs -> bigcap cap -> N = Z.of_nat (length l) ->
  are1 b l -> getr h s = at_ file cap p (b ++ t) ->
  ev (scale2 bs h o N d) s (Ok tt) (setr h (at_ file cap (p + length b) t) s)
     (on o (enc1 (map (fun x => x * d) l))).
Proof.
  intros B C -> A G. unfold scale2. destruct (Z.ltb_spec (Z.of_nat (length l)) 0); [lia|]. rewrite Nat2Z.id.
  now apply scale2_loop_ev.
Qed.

(* ---- records ---- *)
Lemma ev_points2 {X} h file cap p (c : contrib2 E) pb t s (k : E -> E -> E -> E -> io X) r s' d : bigcap cap ->
  are_vals pb (rec2_vals c) -> getr h s = at_ file cap p (pb ++ t) ->
  ev (k (d_delta c) (kS (d_key c)) (kSX (d_key c)) (kSPX (d_key c))) (setr h (at_ file cap (p + length pb) t) s) r s' d ->
  ev (x1 <- decode1 h ;; x2 <- decode1 h ;; x3 <- decode1 h ;; x4 <- decode2 h ;; k x1 x2 x3 x4) s r s' d.
Proof.
  intros C A G K. unfold rec2_vals, key_vals in A.
  inversion A as [|b1 v1 t1 l1 I1 A1]; subst. inversion A1 as [|b2 v2 t2 l2 I2 A2]; subst.
  inversion A2 as [|b3 v3 t3 l3 I3 A3]; subst. inversion A3 as [|b4 v4 t4 l4 I4 A4]; subst. inversion A4; subst.
  cbn [is_val] in *. rewrite <- !app_assoc in G. cbn [app] in G. rewrite !app_length in K. cbn [length] in K.
  rewrite Nat.add_0_r, !Nat.add_assoc in K.
  eapply evb; [eapply ev_decode1; [exact C|exact I1|exact G]|].
  eapply evb; [eapply ev_set2, ev_decode1; [exact C|exact I2|apply getr_setr]|].
  eapply evb; [eapply ev_set2, ev_decode1; [exact C|exact I3|apply getr_setr]|].
  eapply evb; [eapply ev_set2, ev_decode2; [exact C|exact I4|apply getr_setr]|].
  exact K.
Qed.

Lemma zeros_tail b : length b = 32%nat -> b ++ skipn (length b) zeros32 = b.
Proof. intros ->. rewrite skipn_all2; [apply app_nil_r|]. unfold zeros32. now rewrite repeat_length. Qed.

Lemma ev_read_contrib2 h file cap p (c : contrib2 E) pb t s : bigcap cap ->
  are_vals pb (rec2_vals c) -> length (d_hash c) = 32%nat ->
  cap = 0%nat \/ ((p + length pb) mod cap + 32 <= cap)%nat ->
  getr h s = at_ file cap p (pb ++ d_hash c ++ t) ->
  ev (read_contrib2 h) s (Ok c) (setr h (at_ file cap (p + length pb + 32) t) s) none.
Proof.
  intros C A L P G. unfold read_contrib2. eapply ev_points2; [exact C|exact A|exact G|].
  exists []. split; [|auto]. cbn [run]. rewrite getr_setr, rd_read_at.
  - rewrite <- L, firstn_app_exact, skipn_app_exact, zeros_tail by auto. cbn [run]. rewrite setr_setr.
    destruct c as [cd [cs csx cspx] ch]. reflexivity.
  - lia.
  - rewrite app_length. lia.
  - destruct P as [P|P]; [auto|]. destruct C as [C|C]; [auto|]. right. lia.
Qed.
(* the hash straddles the end of the buffer: the rest of it stays in the input *)
Lemma ev_read_contrib2_short h file cap p (c : contrib2 E) pb t s : 64 < cap ->
  are_vals pb (rec2_vals c) -> length (d_hash c) = 32%nat ->
  (cap < (p + length pb) mod cap + 32)%nat ->
  getr h s = at_ file cap p (pb ++ d_hash c ++ t) ->
  let j := (cap - (p + length pb) mod cap)%nat in
  ev (read_contrib2 h) s (Ok (mkC2 (d_delta c) (d_key c) (firstn j (d_hash c) ++ repeat (b8 0) (32 - j))))
     (setr h (at_ file cap (p + length pb + j) (skipn j (d_hash c) ++ t)) s) none.
Proof.
  intros C A L P G j. assert (M : ((p + length pb) mod cap < cap)%nat) by (apply Nat.mod_upper_bound; lia).
  unfold read_contrib2. eapply ev_points2; [right; exact C|exact A|exact G|].
  exists []. split; [|auto]. cbn [run]. rewrite getr_setr, rd_read_short by (try rewrite app_length; lia). fold j.
  rewrite firstn_app, skipn_app. replace (j - length (d_hash c))%nat with 0%nat by lia. cbn [firstn skipn]. rewrite app_nil_r.
  cbn [run]. rewrite setr_setr. f_equal. f_equal. f_equal.
  destruct c as [cd [cs csx cspx] ch]. cbn [d_delta d_key d_hash kS kSX kSPX] in *. f_equal. f_equal.
  rewrite firstn_length. replace (Nat.min j (length ch)) with j by lia.
  unfold zeros32. replace 32%nat with (j + (32 - j))%nat at 1 by lia. rewrite repeat_app, skipn_app, repeat_length, Nat.sub_diag.
  rewrite skipn_all2 by (rewrite repeat_length; lia). reflexivity.
Qed.

Lemma ev_write_contrib2 o (c : contrib2 E) s : ev (write_contrib2 o c) s (Ok tt) s (on o (rec2_bytes c)).
Proof.
  unfold write_contrib2, rec2_bytes. eapply evw; [|apply ev_write].
  replace (enc_vals (rec2_vals c)) with (concat (put2 c)) by reflexivity. apply ev_encodes.
Qed.
Lemma compute_hash2_spec (c : contrib2 E) : compute_hash2 c = sha E (enc_vals (rec2_vals c)).
Proof. reflexivity. Qed.
Lemma gen_key_spec (x s : E) ch dst : gen_key x s ch dst = mk_key x s ch dst.
Proof.
  unfold gen_key, mk_key, gen_sp, chal. rewrite (ltac:(ring) : 1 * s = s), (ltac:(ring) : s * x = x * s).
  f_equal. ring.
Qed.

Lemma last_cons {X} (x d : X) l : last (x :: l) d = last l x.
Proof.
  revert x d. induction l as [|y l IH]; intros x d; [reflexivity|].
  change (last (x :: y :: l) d) with (last (y :: l) d). now rewrite (IH y d), (IH y x).
Qed.

(* copying the old records *)
Lemma ev_copy2 h o file : forall (l : list (contrib2 E)) c0 p b t s, recs2_at p b l ->
  getr h s = at_ file defBuf p (b ++ t) ->
  ev (copy_contribs2 h o (length l) c0) s (Ok (last l c0)) (setr h (at_ file defBuf (p + length b) t) s)
     (on o (recs2_bytes l)).
Proof.
  induction l as [|c l IH]; intros c0 p b t s A G.
  - inversion A; subst. cbn [length copy_contribs2 last recs2_bytes flat_map]. cbn [app] in G.
    rewrite Nat.add_0_r, <- G, setr_getr. apply ev_on_nil, ev_ret.
  - inversion A as [|off pb c' t1 l' V L M A']; subst. rewrite <- !app_assoc in G.
    cbn [length copy_contribs2 recs2_bytes flat_map].
    eapply evb; [eapply ev_read_contrib2; [apply defBuf_big|exact V|exact L| |exact G]|].
    { right. rewrite defBuf_val. revert M. generalize ((p + length pb) mod N.to_nat 4096)%nat. intros. lia. }
    eapply evw; [apply ev_write_contrib2|].
    rewrite !app_length, L. replace (p + (length pb + (32 + length t1)))%nat with (p + length pb + 32 + length t1)%nat by lia.
    rewrite last_cons. apply ev_set2. apply IH; [exact A'|apply getr_setr].
Qed.
End P2.
