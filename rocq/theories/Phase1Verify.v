(* Phase1Verify.v -- phase1.Verify, Initialize and Transform as functions of the input bytes. *)
From Coq Require Import Ring Field.
From Verif Require Import Base Fld Conc Parallel IO Ext Spec1 Phase1 Phase1Io.
Local Open Scope fld_scope.
Local Open Scope io_scope.

(* run a program on input a, second input b; result and bytes written to output 0 *)
Definition exec {X} (p : io X) (a b : bytes) : res X * bytes :=
  let '(r, _, w) := run p (opened a, opened b) in (r, out 0 w).
Lemma ev_exec {X} (p : io X) a b r s' d : ev p (opened a, opened b) r s' d -> exec p a b = (r, d 0%nat).
Proof. intros [w [H1 H2]]. unfold exec. rewrite H1. now rewrite H2. Qed.
Lemma exec_ev {X} (p : io X) a b r d : exec p a b = (r, d) -> exists s' D, ev p (opened a, opened b) r s' D /\ D 0%nat = d.
Proof.
  unfold exec. destruct (run p (opened a, opened b)) as [[r' s'] w] eqn:R. intros H. injection H as <- <-.
  exists s', (fun o => out o w). split; [now exists w|auto].
Qed.

(* ---- Initialize ---- *)
Section Init.
Context {E : Ext}.
Add Field Kfld3 : (f_th E).

Lemma concat_repeat {X} (b : list X) n : concat (repeat b n) = flat_map (fun _ => b) (seq 0 n).
Proof.
  induction n as [|n IH]; [reflexivity|]. cbn [repeat concat]. rewrite IH, <- cons_seq, <- seq_shift.
  cbn [flat_map]. f_equal. now rewrite !flat_map_concat_map, map_map.
Qed.
Lemma enc1_ones n (f : nat -> E) : (forall i, f i = 1) -> enc1 (map f (seq 0 n)) = concat (repeat (g1c (1 : E)) n).
Proof.
  intros H. rewrite concat_repeat. unfold enc1. rewrite flat_map_concat_map, map_map, flat_map_concat_map.
  f_equal. apply map_ext. intros. now rewrite H.
Qed.
Lemma enc2_ones n (f : nat -> E) : (forall i, f i = 1) -> enc2 (map f (seq 0 n)) = concat (repeat (g2c (1 : E)) n).
Proof.
  intros H. rewrite concat_repeat. unfold enc2. rewrite flat_map_concat_map, map_map, flat_map_concat_map.
  f_equal. apply map_ext. intros. now rewrite H.
Qed.

Lemma initialize_ev p s : p <= 62 ->
  ev (initialize (E := E) (b8 (N.of_nat p))) s (Ok tt) s (on 0 (file1 p (srs_of p (1 : E) 1 1) [])).
Proof.
  intros H. unfold initialize, file1, recs_bytes, srs_bytes. cbn [flat_map srs_of tau1 alpha1 beta1 tau2 beta2].
  rewrite !app_nil_r. cbv zeta. rewrite count_tau, pow2_small by auto.
  eapply evw; [apply ev_try_ok, ev_write_header|]. apply ev_newwr, ev_with_flush. unfold repeat_write.
  rewrite !Nat2Z.id.
  rewrite enc1_ones by (intros; apply fpow_1_l).
  rewrite enc1_ones by (intros; rewrite fpow_1_l; ring).
  rewrite enc2_ones by (intros; apply fpow_1_l).
  eapply evw; [apply ev_encodes|]. eapply evw; [apply ev_encodes|]. eapply evw; [apply ev_encodes|].
  eapply evw; [apply ev_encodes|]. apply ev_write_.
Qed.

Lemma srs_of_sized p (T A B : E) : sized p (srs_of p T A B).
Proof. repeat split; cbn; now rewrite map_length, seq_length. Qed.
Lemma srs_bytes_length p (s : srs E) : sized p s -> length (srs_bytes s) = (192 * 2 ^ p + 32)%nat.
Proof.
  intros [A [B [C D]]]. unfold srs_bytes. rewrite !app_length, !enc1_length, enc2_length, g2c_len, A, B, C, D.
  pose proof (pow2_pos p). lia.
Qed.
Lemma hdr1_length p n : length (hdr1 p n) = 3%nat. Proof. reflexivity. Qed.

Lemma is_srs_bytes (s : srs E) : is_srs (srs_bytes s) s.
Proof.
  exists (enc1 (tau1 s)), (enc1 (alpha1 s)), (enc1 (beta1 s)), (enc2 (tau2 s)), (g2c (beta2 s)).
  split; [reflexivity|]. repeat split; auto using are1_enc, are2_enc, is2_c.
Qed.
Lemma are_vals_enc (l : list (E + E)) : are_vals (enc_vals l) l.
Proof. apply parses_flat. intros [x|x] _; [apply is1_c|apply is2_c]. Qed.
Lemma is_rec_bytes (c : contrib E) : length (c_hash c) = 32%nat -> is_rec (rec_bytes c) c.
Proof. intros H. exists (enc_vals (rec_vals c)). split; [reflexivity|]. split; [apply are_vals_enc|auto]. Qed.
Definition hashed32 (l : list (contrib E)) : Prop := forall c, In c l -> length (c_hash c) = 32%nat.
Lemma are_recs_bytes (l : list (contrib E)) : hashed32 l -> are_recs (recs_bytes l) l.
Proof. intros H. apply parses_flat. intros c Hc. apply is_rec_bytes. auto. Qed.
Lemma file1_is p (s : srs E) l junk : sized p s -> hashed32 l -> is_file1 (file1 p s l ++ junk) p s l.
Proof.
  intros H1 H2. exists (srs_bytes s), (recs_bytes l), junk. split; [unfold file1; now rewrite <- !app_assoc|].
  split; [auto|]. split; [apply is_srs_bytes|now apply are_recs_bytes].
Qed.
Lemma rec_bytes_length (c : contrib E) : length (c_hash c) = 32%nat -> length (rec_bytes c) = 640%nat.
Proof.
  intros H. unfold rec_bytes, enc_vals, rec_vals, key_vals. rewrite app_length, H. cbn [flat_map app enc_val].
  rewrite !app_length, !g1c_len, !g2c_len. reflexivity.
Qed.
Lemma signed_rec_hash (t1 a1 b1 t2 b2 t a b st sa sb : E) prev :
  length (c_hash (signed_rec t1 a1 b1 t2 b2 t a b st sa sb prev)) = 32%nat.
Proof. apply sha_len. Qed.
End Init.

(* ---- reading arbitrary bytes ---- *)
Section Take.
Context {E : Ext}.
Add Field Kfld4 : (f_th E).

(* the decoders on the remaining bytes: value left in the receiver, success, bytes left *)
Definition take1 (old : E) (rest : bytes) : E * bool * bytes :=
  if length rest <? 32 then (old, false, []) else
  let b := firstn 32 rest in let t := skipn 32 rest in
  if compressed b then
    match g1dc b with Some x => (x, true, t) | None => (g1bad b old, false, t) end
  else if length t <? 32 then (old, false, []) else
    let b2 := firstn 32 t in let t2 := skipn 32 t in
    match g1dr (b ++ b2) with Some x => (x, true, t2) | None => (g1bad (b ++ b2) old, false, t2) end.
Definition take2 (old : E) (rest : bytes) : E * bool * bytes :=
  if length rest <? 64 then (old, false, []) else
  let b := firstn 64 rest in let t := skipn 64 rest in
  if compressed b then
    match g2dc b with Some x => (x, true, t) | None => (g2bad b old, false, t) end
  else if length t <? 64 then (old, false, []) else
    let b2 := firstn 64 t in let t2 := skipn 64 t in
    match g2dr (b ++ b2) with Some x => (x, true, t2) | None => (g2bad (b ++ b2) old, false, t2) end.

(* at a multiple of 32, or at the end of the file *)
Definition al (p : nat) (rest : bytes) : Prop := p mod 32 = 0%nat \/ rest = [].
Lemma al_add p k t : p mod 32 = 0%nat -> k mod 32 = 0%nat -> al (p + k) t.
Proof. intros. left. now apply mod32_add. Qed.

Lemma firstn_skipn' {X} n (l : list X) : l = firstn n l ++ skipn n l.
Proof. now rewrite firstn_skipn. Qed.

(* one io.ReadFull on arbitrary bytes *)
Lemma readfull_take h file cap p rest s k : cap = 0%nat \/ k < cap -> getr h s = at_ file cap p rest ->
  if length rest <? k then
    ev (readfull h k) s (Err EEof) (setr h (at_ file cap (p + length rest) []) s) none
  else ev (readfull h k) s (Ok (firstn k rest)) (setr h (at_ file cap (p + k) (skipn k rest)) s) none.
Proof.
  intros Hc G. destruct (Nat.ltb_spec (length rest) k).
  - eapply readfull_eof; eauto.
  - eapply readfull_ok; eauto; [rewrite firstn_length; lia|]. now rewrite <- firstn_skipn'.
Qed.
Lemma readfull_try_take h file cap p rest s k : cap = 0%nat \/ k < cap -> getr h s = at_ file cap p rest ->
  if length rest <? k then
    ev (try (readfull h k)) s (Ok None) (setr h (at_ file cap (p + length rest) []) s) none
  else ev (try (readfull h k)) s (Ok (Some (firstn k rest))) (setr h (at_ file cap (p + k) (skipn k rest)) s) none.
Proof.
  intros Hc G. pose proof (readfull_take h file cap p rest s k Hc G) as H.
  destruct (length rest <? k); [eapply ev_try_err|apply ev_try_ok]; eauto.
Qed.

Lemma al_imp p rest : al p rest -> length rest <> 0%nat -> p mod 32 = 0%nat.
Proof. intros [H|H] L; auto. subst. cbn in L. lia. Qed.

Lemma ev_take1 h file cap p rest s (old : E) : bigcap cap -> al p rest -> getr h s = at_ file cap p rest ->
  let '(x, ok, rest') := take1 old rest in
  exists p', al p' rest' /\ ev (decode1_into h old) s (Ok (x, ok)) (setr h (at_ file cap p' rest') s) none.
Proof.
  intros Hc AL G. unfold take1, decode1_into.
  pose proof (readfull_try_take h file cap p rest s 32 (bigcap_le _ 32 Hc ltac:(lia)) G) as R1.
  destruct (Nat.ltb_spec (length rest) 32) as [L|L].
  { eexists. split; [right; reflexivity|]. eapply evb; [exact R1|]. apply ev_ret. }
  assert (P : p mod 32 = 0%nat) by (eapply al_imp; eauto; lia).
  set (b := firstn 32 rest) in *. set (t := skipn 32 rest) in *. cbv zeta.
  destruct (compressed b) eqn:C.
  { destruct (@g1dc E b) as [x|] eqn:D; (eexists; split; [apply (al_add p 32); auto|]; eapply evb; [exact R1|]);
    cbv beta iota; rewrite C, D; apply ev_ret. }
  assert (G1 : getr h (setr h (at_ file cap (p + 32) t) s) = at_ file cap (p + 32) t) by apply getr_setr.
  pose proof (readfull_try_take h file cap _ t _ 32 (bigcap_le _ 32 Hc ltac:(lia)) G1) as R2.
  rewrite !setr_setr in R2.
  destruct (Nat.ltb_spec (length t) 32) as [L2|L2].
  { eexists. split; [right; reflexivity|]. eapply evb; [exact R1|]. cbv beta iota. rewrite C.
    eapply evb; [exact R2|]. apply ev_ret. }
  set (b2 := firstn 32 t) in *. set (t2 := skipn 32 t) in *.
  destruct (@g1dr E (b ++ b2)) as [x|] eqn:D; (eexists; split; [apply (al_add (p + 32) 32); auto using mod32_add|]; eapply evb; [exact R1|]);
    cbv beta iota; rewrite C; (eapply evb; [exact R2|]); cbv beta iota; rewrite D; apply ev_ret.
Qed.
Lemma ev_take2 h file cap p rest s (old : E) : bigcap cap -> al p rest -> getr h s = at_ file cap p rest ->
  let '(x, ok, rest') := take2 old rest in
  exists p', al p' rest' /\ ev (decode2_into h old) s (Ok (x, ok)) (setr h (at_ file cap p' rest') s) none.
Proof.
  intros Hc AL G. unfold take2, decode2_into.
  pose proof (readfull_try_take h file cap p rest s 64 (bigcap_le _ 64 Hc ltac:(lia)) G) as R1.
  destruct (Nat.ltb_spec (length rest) 64) as [L|L].
  { eexists. split; [right; reflexivity|]. eapply evb; [exact R1|]. apply ev_ret. }
  assert (P : p mod 32 = 0%nat) by (eapply al_imp; eauto; lia).
  set (b := firstn 64 rest) in *. set (t := skipn 64 rest) in *. cbv zeta.
  destruct (compressed b) eqn:C.
  { destruct (@g2dc E b) as [x|] eqn:D; (eexists; split; [apply (al_add p 64); auto|]; eapply evb; [exact R1|]);
    cbv beta iota; rewrite C, D; apply ev_ret. }
  assert (G1 : getr h (setr h (at_ file cap (p + 64) t) s) = at_ file cap (p + 64) t) by apply getr_setr.
  pose proof (readfull_try_take h file cap _ t _ 64 (bigcap_le _ 64 Hc ltac:(lia)) G1) as R2.
  rewrite !setr_setr in R2.
  destruct (Nat.ltb_spec (length t) 64) as [L2|L2].
  { eexists. split; [right; reflexivity|]. eapply evb; [exact R1|]. cbv beta iota. rewrite C.
    eapply evb; [exact R2|]. apply ev_ret. }
  set (b2 := firstn 64 t) in *. set (t2 := skipn 64 t) in *.
  destruct (@g2dr E (b ++ b2)) as [x|] eqn:D; (eexists; split; [apply (al_add (p + 64) 64); auto using mod32_add|]; eapply evb; [exact R1|]);
    cbv beta iota; rewrite C; (eapply evb; [exact R2|]); cbv beta iota; rewrite D; apply ev_ret.
Qed.

Fixpoint take_fields (fs : list field) (c : contrib E) (rest : bytes) : contrib E * bool * bytes :=
  match fs with
  | [] => (c, true, rest)
  | G1F g st :: fs' => let '(x, ok, rest') := take1 (g c) rest in
      if ok then take_fields fs' (st c x) rest' else (st c x, false, rest')
  | G2F g st :: fs' => let '(x, ok, rest') := take2 (g c) rest in
      if ok then take_fields fs' (st c x) rest' else (st c x, false, rest')
  end.
Definition take_rec (c : contrib E) (rest : bytes) : contrib E * bool * bytes :=
  let '(c, ok, rest) := take_fields toDecode c rest in
  if ok then
    match rest with
    | [] => (s_hash c zeros32, false, [])
    | _ => (s_hash c (firstn 32 rest ++ skipn (length (firstn 32 rest)) zeros32), true, skipn 32 rest)
    end
  else (c, false, rest).

Lemma ev_take_fields h file cap : bigcap cap -> forall fs c p rest s, al p rest -> getr h s = at_ file cap p rest ->
  let '(c', ok, rest') := take_fields fs c rest in
  exists p', al p' rest' /\ ev (read_fields h fs c) s (Ok (c', ok)) (setr h (at_ file cap p' rest') s) none.
Proof.
  intros Hc. induction fs as [|f fs IH]; intros c p rest s AL G; cbn [take_fields read_fields].
  - exists p. split; [auto|]. rewrite <- G, setr_getr. apply ev_ret.
  - destruct f as [g st|g st].
    + pose proof (ev_take1 h file cap p rest s (g c) Hc AL G) as D.
      destruct (take1 (g c) rest) as [[x ok] rest1]. destruct D as [p1 [A1 D]]. destruct ok.
      * specialize (IH (st c x) p1 rest1 (setr h (at_ file cap p1 rest1) s) A1 (getr_setr _ _ _)).
        destruct (take_fields fs (st c x) rest1) as [[c' ok] rest']. destruct IH as [p' [A' D']].
        exists p'. split; [auto|]. eapply evb; [exact D|]. cbv beta iota. now apply ev_set2.
      * exists p1. split; [auto|]. eapply evb; [exact D|]. apply ev_ret.
    + pose proof (ev_take2 h file cap p rest s (g c) Hc AL G) as D.
      destruct (take2 (g c) rest) as [[x ok] rest1]. destruct D as [p1 [A1 D]]. destruct ok.
      * specialize (IH (st c x) p1 rest1 (setr h (at_ file cap p1 rest1) s) A1 (getr_setr _ _ _)).
        destruct (take_fields fs (st c x) rest1) as [[c' ok] rest']. destruct IH as [p' [A' D']].
        exists p'. split; [auto|]. eapply evb; [exact D|]. cbv beta iota. now apply ev_set2.
      * exists p1. split; [auto|]. eapply evb; [exact D|]. apply ev_ret.
Qed.

Lemma ev_take_rec h file cap c p rest s : bigcap cap -> cap mod 32 = 0%nat -> al p rest -> getr h s = at_ file cap p rest ->
  let '(c', ok, rest') := take_rec c rest in
  exists p', al p' rest' /\ ev (read_contrib h c) s (Ok (c', ok)) (setr h (at_ file cap p' rest') s) none.
Proof.
  intros Hc C32 AL G. unfold take_rec, read_contrib.
  pose proof (ev_take_fields h file cap Hc toDecode c p rest s AL G) as D.
  destruct (take_fields toDecode c rest) as [[c1 ok] r1]. destruct D as [p1 [A1 D]]. destruct ok.
  2:{ exists p1. split; [auto|]. eapply evb; [exact D|]. apply ev_ret. }
  assert (G1 : getr h (setr h (at_ file cap p1 r1) s) = at_ file cap p1 r1) by apply getr_setr.
  destruct r1 as [|x0 r0].
  { exists p1. split; [right; auto|]. eapply evb; [exact D|]. cbv beta iota. exists []. split; [|auto].
    cbn [run]. rewrite G1, rd_read_eof. cbn [run]. now rewrite setr_setr. }
  remember (x0 :: r0) as r1 eqn:Er. assert (L0 : length r1 <> 0%nat) by (subst r1; cbn; lia).
  assert (NE : r1 <> []) by (subst r1; discriminate). clear Er x0 r0.
  assert (P1 : p1 mod 32 = 0%nat) by (eapply al_imp; eauto).
  assert (FIT : cap = 0%nat \/ p1 mod cap + 32 <= cap /\ 32 < cap).
  { destruct (Nat.eq_dec cap 0); [auto|]. right. split; [apply aligned_fits; auto; lia|]. clear D. unfold bigcap in Hc. lia. }
  destruct (Nat.le_gt_cases 32 (length r1)) as [L|L].
  - exists (p1 + 32)%nat. split; [apply al_add; auto|]. eapply evb; [exact D|]. cbv beta iota.
    exists []. split; [|auto]. cbn [run]. rewrite G1, rd_read_at by (auto; lia). cbn [run]. now rewrite setr_setr.
  - exists (p1 + length r1)%nat. split; [right; apply skipn_all2; lia|]. eapply evb; [exact D|]. cbv beta iota.
    exists []. split; [|auto]. cbn [run]. rewrite G1, rd_read_tail by (auto; try lia; revert FIT; generalize (p1 mod cap); lia). cbn [run].
    rewrite firstn_all2, (skipn_all2 (n:=32) r1) by lia. now rewrite setr_setr.
Qed.

(* the successive values of [current] *)
Fixpoint take_chain (n : nat) (cur : contrib E) (rest : bytes) : list (contrib E) :=
  match n with
  | O => []
  | S n' => let '(c, _, rest') := take_rec cur rest in c :: take_chain n' c rest'
  end.
Fixpoint chain_err (prev : contrib E) (cs : list (contrib E)) : option err :=
  match cs with
  | [] => None
  | c :: cs' => match verify_contrib c prev with Some e => Some e | None => chain_err c cs' end
  end.

Lemma ev_verify_chain file cap : bigcap cap -> cap mod 32 = 0%nat -> forall n cur prev p rest s,
  al p rest -> getr false s = at_ file cap p rest ->
  let cs := take_chain n cur rest in
  exists s', ev (verify_chain n cur prev) s
    (match chain_err prev cs with None => Ok (last cs cur, map c_hash cs) | Some e => Err e end) s' none.
Proof.
  intros Hc C32. induction n as [|n IH]; intros cur prev p rest s AL G cs; unfold cs; cbn [take_chain verify_chain].
  - cbn. eexists. apply ev_ret.
  - pose proof (ev_take_rec false file cap cur p rest s Hc C32 AL G) as D.
    destruct (take_rec cur rest) as [[c ok] r1]. destruct D as [p1 [A1 D]]. cbn [chain_err].
    destruct (verify_contrib c prev) as [e|] eqn:V.
    + eexists. eapply evb; [exact D|]. cbv beta iota. rewrite V. apply ev_throw.
    + destruct (IH c c p1 r1 (setr false (at_ file cap p1 r1) s) A1 (getr_setr _ _ _)) as [s' D'].
      destruct (chain_err c (take_chain n c r1)) as [e|].
      * exists s'. eapply evb; [exact D|]. cbv beta iota. rewrite V. eapply ev_bind_err. exact D'.
      * exists s'. eapply evb; [exact D|]. cbv beta iota. rewrite V. eapply evb; [exact D'|]. cbv beta iota.
        cbn [map]. replace (last (c :: take_chain n c r1) cur) with (last (take_chain n c r1) c); [apply ev_ret|].
        clear. generalize (take_chain n c r1). intros l. destruct l as [|x l]; [reflexivity|]. cbn [last].
        revert x. induction l as [|y l IHl]; intros x; [reflexivity|]. exact (IHl y).
Qed.

(* ---- the random linear combinations, when MultiExp rejects different lengths ---- *)
Lemma lincomb_strict bs dec P h file cap (rho : nat -> nat -> E) : mexp_strict E -> 1 <= bs ->
  (forall l b p t s, parses P b l -> getr h s = at_ file cap p (b ++ t) ->
     ev (dec (length l)) s (Ok l) (setr h (at_ file cap (p + length b) t) s) none) ->
  forall fuel (l : list E) b p t s r, length l <= fuel -> Nat.min (length l) bs <= length r ->
  parses P b l -> getr h s = at_ file cap p (b ++ t) ->
  ev (lincomb_loop bs dec rho fuel (length l) r 0 0 0 0) s (Ok (0, 0)) (setr h (at_ file cap (p + length b) t) s) none.
Proof.
  intros MS B1 D. induction fuel as [|fuel IH]; intros l b p t s r Lf Lr A G.
  - destruct l; [|cbn in Lf; lia]. inversion A; subst. cbn [lincomb_loop length app] in *.
    rewrite Nat.add_0_r, <- G, setr_getr. apply ev_ret.
  - destruct (length l) as [|m] eqn:El.
    { destruct l; [|discriminate]. inversion A; subst. cbn [lincomb_loop length app] in *.
      rewrite Nat.add_0_r, <- G, setr_getr. apply ev_ret. }
    cbn [lincomb_loop]. rewrite <- El in *.
    set (n := Nat.min (length l) bs) in *. assert (Hn : 1 <= n <= length l) by lia.
    assert (Hl : l = firstn n l ++ skipn n l) by now rewrite firstn_skipn.
    set (l1 := firstn n l) in *. set (l2 := skipn n l) in *.
    assert (L1 : length l1 = n) by (unfold l1; rewrite firstn_length; lia).
    assert (L2 : length l2 = (length l - n)%nat) by (unfold l2; apply skipn_length).
    rewrite Hl in A. apply parses_app_inv in A. destruct A as [b1 [b2 [-> [A1 A2]]]].
    rewrite <- app_assoc in G.
    pose proof (D l1 b1 p (b2 ++ t) s A1 G) as D1. rewrite L1 in D1.
    eapply evb; [exact D1|]. clear D1. cbv beta.
    unfold randomize. rewrite par_cells_spec by apply ncpu_pos. cbn [orBoom].
    set (r' := mapi _ r). assert (Lr' : length r' = length r) by apply mapi_length.
    rewrite (MS (firstn (n - 1) l1) r'), (MS (skipn 1 l1) r').
    2:{ rewrite skipn_length. lia. }
    2:{ rewrite firstn_length. lia. }
    replace (0 + 0 : E) with (0 : E) by ring. rewrite app_length, Nat.add_assoc, <- L2. apply ev_set2.
    apply IH; auto using getr_setr; lia.
Qed.
Lemma lincombG1_strict bs h file cap (rho : nat -> nat -> E) (l : list E) b p t s N : mexp_strict E -> 1 <= bs -> bigcap cap ->
  N = Z.of_nat (length l) -> are1 b l -> getr h s = at_ file cap p (b ++ t) ->
  ev (linearCombinationG1 bs h rho N) s (Ok (0, 0)) (setr h (at_ file cap (p + length b) t) s) none.
Proof.
  intros MS B1 Hc -> A G. unfold linearCombinationG1, lincomb.
  destruct (Z.ltb_spec (Z.of_nat (length l)) 0); [lia|]. rewrite Nat2Z.id.
  eapply lincomb_strict; eauto.
  - intros. eapply ev_decodes1; eauto.
  - rewrite repeat_length. lia.
Qed.
Lemma lincombG2_strict bs h file cap (rho : nat -> nat -> E) (l : list E) b p t s N : mexp_strict E -> 1 <= bs -> bigcap cap ->
  N = Z.of_nat (length l) -> are2 b l -> getr h s = at_ file cap p (b ++ t) ->
  ev (linearCombinationG2 bs h rho N) s (Ok (0, 0)) (setr h (at_ file cap (p + length b) t) s) none.
Proof.
  intros MS B1 Hc -> A G. unfold linearCombinationG2, lincomb.
  destruct (Z.ltb_spec (Z.of_nat (length l)) 0); [lia|]. rewrite Nat2Z.id.
  eapply lincomb_strict; eauto.
  - intros. eapply ev_decodes2; eauto.
  - rewrite repeat_length. lia.
Qed.

(* what Verify returns once the parameter sections decoded and the origin is known *)
Definition verdict (n : nat) (origin : contrib E) (beta2 : E) (tail : bytes) : res (list bytes) :=
  let cs := take_chain n zero_contrib tail in
  match chain_err origin cs with
  | Some e => Err e
  | None => if feqb beta2 (c_beta2 (last cs zero_contrib)) then Ok (map c_hash cs) else Err EBetaG2
  end.

Lemma verify_ev bs (rho : nat -> nat -> nat -> E) trans f p n (S : srs E) sb tail origin s s0 :
  mexp_strict E -> 1 <= bs -> p <= 62 -> (n < 65536)%N -> sized p S -> is_srs sb S ->
  f = b8 (N.of_nat p) :: be16 n ++ sb ++ tail -> getr false s = opened f ->
  (forall s, getr true s = s0 -> exists s', ev (default_contrib trans) s (Ok origin) s' none /\ getr false s' = getr false s) ->
  getr true s = s0 ->
  exists s', ev (verify bs rho trans) s (verdict (N.to_nat n) origin (beta2 S) tail) s' none.
Proof.
  intros MS B1 P62 Hn [Z1 [Z2 [Z3 Z4]]] IS Ef G DC T0.
  destruct IS as [b1 [b2 [b3 [b4 [b5 [-> [I1 [I2 [I3 [I4 I5]]]]]]]]]].
  unfold opened in G. rewrite Ef in G at 2. unfold be16 in G. cbn [app] in G. repeat rewrite <- app_assoc in G.
  pose proof bigBuf_big as BB.
  set (fin := setr false (at_ f bigBuf (0 + length b1 + length b2 + length b3 + length b4 + length b5) tail) s).
  destruct (DC fin) as [s1 [D1 F1]]. { unfold fin. destruct s; exact T0. }
  assert (FG : getr false s1 = at_ f bigBuf (0 + length b1 + length b2 + length b3 + length b4 + length b5) tail).
  { rewrite F1. apply getr_setr. }
  assert (AL : al (0 + length b1 + length b2 + length b3 + length b4 + length b5) tail).
  { left. repeat apply mod32_add; eauto using are1_mod, are2_mod, is2_mod. }
  destruct (ev_verify_chain f bigBuf BB bigBuf_32 (N.to_nat n) zero_contrib origin _ tail s1 AL FG) as [s2 V].
  exists s2. unfold verify. eapply evb; [eapply ev_read_header; exact G|]. cbv beta iota. rewrite be16_val by auto.
  cbv zeta. rewrite count_tau, pow2_small by auto.
  eapply ev_newrd0; [apply getr_setr|]. rewrite setr_setr.
  eapply evb; [eapply lincombG1_strict; [exact MS|exact B1|exact BB|now rewrite Z1|exact I1|apply getr_setr]|]. cbv beta iota. rewrite setr_setr.
  eapply evb; [eapply lincombG1_strict; [exact MS|exact B1|exact BB|now rewrite Z2|exact I2|apply getr_setr]|]. cbv beta iota. rewrite setr_setr.
  eapply evb; [eapply lincombG1_strict; [exact MS|exact B1|exact BB|now rewrite Z3|exact I3|apply getr_setr]|]. cbv beta iota. rewrite setr_setr.
  eapply evb; [eapply lincombG2_strict; [exact MS|exact B1|exact BB|now rewrite Z4|exact I4|apply getr_setr]|]. cbv beta iota. rewrite setr_setr.
  eapply evb; [eapply ev_decode2; [exact BB|exact I5|apply getr_setr]|]. cbv beta iota. rewrite setr_setr.
  fold fin. eapply evb; [exact D1|]. cbv beta.
  unfold verdict. cbv zeta in V. destruct (chain_err origin (take_chain (N.to_nat n) zero_contrib tail)) as [e|].
  - eapply ev_bind_err. exact V.
  - eapply evb; [exact V|]. cbv beta iota.
    set (cur := last _ _).
    assert (R1 : same_ratio 0 0 (c_tau2 cur) 1 = true) by (apply feqb_ok; ring).
    assert (R2 : same_ratio 1 (c_tau1 cur) 0 0 = true) by (apply feqb_ok; ring).
    rewrite R1, R2. unfold require. cbn [bind]. destruct (feqb (beta2 S) (c_beta2 cur)); cbn [bind]; [apply ev_ret|apply ev_throw].
Qed.

(* records that decode are taken as they are *)
Lemma take1_is b (x old : E) t : is1 b x -> take1 old (b ++ t) = (x, true, t).
Proof.
  intros Hb. unfold take1. rewrite app_length. destruct Hb as [[L [C D]]|[L [C D]]].
  - destruct (Nat.ltb_spec (length b + length t) 32); [lia|].
    replace (firstn 32 (b ++ t)) with b by (now rewrite <- L, firstn_app_exact).
    replace (skipn 32 (b ++ t)) with t by (now rewrite <- L, skipn_app_exact).
    cbv zeta. now rewrite C, D.
  - destruct (Nat.ltb_spec (length b + length t) 32); [lia|].
    assert (F : firstn 32 (b ++ t) = firstn 32 b).
    { rewrite firstn_app. replace (32 - length b)%nat with 0%nat by lia. cbn. apply app_nil_r. }
    assert (K : skipn 32 (b ++ t) = skipn 32 b ++ t).
    { rewrite skipn_app. now replace (32 - length b)%nat with 0%nat by lia. }
    rewrite F, K. cbv zeta.
    assert (C1 : compressed (firstn 32 b) = false).
    { rewrite <- C. rewrite <- (firstn_skipn 32 b) at 2. rewrite compressed_app; auto.
      intros X. apply (f_equal (@length _)) in X. rewrite firstn_length, L in X. discriminate X. }
    assert (L2 : length (skipn 32 b) = 32) by (rewrite skipn_length; lia).
    rewrite C1, app_length, L2. destruct (Nat.ltb_spec (32 + length t) 32); [lia|].
    replace (firstn 32 (skipn 32 b ++ t)) with (skipn 32 b) by (rewrite <- L2 at 2; now rewrite firstn_app_exact).
    replace (skipn 32 (skipn 32 b ++ t)) with t by (rewrite <- L2 at 1; now rewrite skipn_app_exact).
    now rewrite firstn_skipn, D.
Qed.
Lemma take2_is b (x old : E) t : is2 b x -> take2 old (b ++ t) = (x, true, t).
Proof.
  intros Hb. unfold take2. rewrite app_length. destruct Hb as [[L [C D]]|[L [C D]]].
  - destruct (Nat.ltb_spec (length b + length t) 64); [lia|].
    replace (firstn 64 (b ++ t)) with b by (now rewrite <- L, firstn_app_exact).
    replace (skipn 64 (b ++ t)) with t by (now rewrite <- L, skipn_app_exact).
    cbv zeta. now rewrite C, D.
  - destruct (Nat.ltb_spec (length b + length t) 64); [lia|].
    assert (F : firstn 64 (b ++ t) = firstn 64 b).
    { rewrite firstn_app. replace (64 - length b)%nat with 0%nat by lia. cbn. apply app_nil_r. }
    assert (K : skipn 64 (b ++ t) = skipn 64 b ++ t).
    { rewrite skipn_app. now replace (64 - length b)%nat with 0%nat by lia. }
    rewrite F, K. cbv zeta.
    assert (C1 : compressed (firstn 64 b) = false).
    { rewrite <- C. rewrite <- (firstn_skipn 64 b) at 2. rewrite compressed_app; auto.
      intros X. apply (f_equal (@length _)) in X. rewrite firstn_length, L in X. discriminate X. }
    assert (L2 : length (skipn 64 b) = 64) by (rewrite skipn_length; lia).
    rewrite C1, app_length, L2. destruct (Nat.ltb_spec (64 + length t) 64); [lia|].
    replace (firstn 64 (skipn 64 b ++ t)) with (skipn 64 b) by (rewrite <- L2 at 2; now rewrite firstn_app_exact).
    replace (skipn 64 (skipn 64 b ++ t)) with t by (rewrite <- L2 at 1; now rewrite skipn_app_exact).
    now rewrite firstn_skipn, D.
Qed.
Lemma take_fields_is : forall fs vs c c' b t, set_fields fs vs c = Some c' -> are_vals b vs ->
  take_fields fs c (b ++ t) = (c', true, t).
Proof.
  induction fs as [|f fs IH]; intros vs c c' b t F A.
  - destruct vs; [|discriminate]. injection F as <-. now inversion A; subst.
  - inversion A as [|b1 v t1 vs' V A']; subst; [destruct f; discriminate|]. rewrite <- app_assoc.
    destruct f as [g st|g st], v as [x|x]; try discriminate; cbn [set_fields] in F; cbn [is_val] in V; cbn [take_fields].
    + rewrite (take1_is b1 x) by auto. now apply (IH vs').
    + rewrite (take2_is b1 x) by auto. now apply (IH vs').
Qed.
Lemma take_rec_is b (r c : contrib E) t : is_rec b r -> take_rec c (b ++ t) = (r, true, t).
Proof.
  intros [pb [-> [A L]]]. unfold take_rec. rewrite <- app_assoc.
  rewrite (take_fields_is toDecode (rec_vals r) c (s_hash r (c_hash c))) by auto using set_fields_decode.
  destruct (c_hash r ++ t) as [|x y] eqn:X.
  { apply (f_equal (@length _)) in X. rewrite app_length, L in X. cbn in X. lia. }
  rewrite <- X. clear X x y.
  replace (firstn 32 (c_hash r ++ t)) with (c_hash r) by (now rewrite <- L, firstn_app_exact).
  replace (skipn 32 (c_hash r ++ t)) with t by (now rewrite <- L, skipn_app_exact).
  rewrite L. unfold zeros32. cbn [skipn repeat]. rewrite app_nil_r. now destruct r.
Qed.
Lemma take_chain_is : forall l b c t, are_recs b l -> take_chain (length l) c (b ++ t) = l.
Proof.
  induction l as [|r l IH]; intros b c t A; [reflexivity|].
  inversion A as [|b1 r' t1 l' R A']; subst. cbn [length take_chain]. rewrite <- app_assoc.
  rewrite (take_rec_is b1 r) by auto. f_equal. now apply IH.
Qed.
End Take.
