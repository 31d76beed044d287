(* KeysLemmas.v -- evaluation of key extraction. *)
From Coq Require Import ZifyNat ZifyN.
From Verif Require Import Base Fld Conc Parallel BitRev FFT Poly IO Ext Spec1 Phase1 Phase1Io Phase1Trans Gob GobLemmas Circuit Spec2 Phase2
  Spec3 Fs Init2 Init2Pure Init2Io Init2Claims Init2More Spec4 Keys.
Local Open Scope fld_scope.

(* ---- programs that write nothing ---- *)
Definition quiet {X} (p : io X) : Prop := forall s, snd (run p s) = [].
Lemma quiet_bind {X Y} (p : io X) (f : X -> io Y) : quiet p -> (forall a, quiet (f a)) -> quiet (bind p f).
Proof.
  intros P F s. specialize (P s). rewrite run_bind. destruct (run p s) as [[[a|e|] s1] w1]; cbn [snd] in *; subst; auto.
  specialize (F a s1). destruct (run (f a) s1) as [[r2 s2] w2]. exact F.
Qed.
Lemma rd_read_le k r b r' : rd_read k r = (Some b, r') -> length b <= k.
Proof.
  unfold rd_read, rd_take. intros H.
  repeat match type of H with
  | (if ?c then _ else _) = _ => destruct c
  | match ?c with [] => _ | _ :: _ => _ end = _ => destruct c
  end; try discriminate; injection H as <- _; rewrite firstn_length; lia.
Qed.
Lemma quiet_only_reads {X} h (p : io X) : only_reads h p -> quiet p.
Proof.
  induction p as [a|e| |h' k c IH|h' z c IH|h' n c IH|h' n c IH|o n c IH|o c IH|o d c IH]; cbn [only_reads]; intros O s; try reflexivity; try contradiction.
  cbn [run]. destruct (rd_read k (getr h' s)) as [x r] eqn:R. destruct O as [-> [K O]]. apply IH, O.
  intros b ->. eapply rd_read_le; eauto.
Qed.
Lemma quiet_ret {X} (x : X) : quiet (Ret x). Proof. intros s. reflexivity. Qed.
Lemma quiet_throw {X} e : quiet (@Throw X e). Proof. intros s. reflexivity. Qed.
Lemma quiet_boom {X} : quiet (@Boom X). Proof. intros s. reflexivity. Qed.
Lemma quiet_full h k : quiet (readfull h k). Proof. eapply quiet_only_reads, only_reads_full. Qed.
Lemma quiet_seek h z : quiet (seek h z).
Proof. intros s. unfold seek. cbn [run]. destruct (z <? 0)%Z; reflexivity. Qed.

Lemma qbind_inv {X Y} (p : io X) (f : X -> io Y) s b s2 d : quiet p -> ev (bind p f) s (Ok b) s2 d ->
  exists a s1, ev p s (Ok a) s1 none /\ ev (f a) s1 (Ok b) s2 d.
Proof.
  intros Q H. apply bind_ok_inv in H. destruct H as [a [s1 [d1 [d2 [H1 [H2 D]]]]]].
  assert (D1 : forall o, d1 o = []).
  { destruct H1 as [w [R W]]. specialize (Q s). rewrite R in Q. cbn in Q. subst w. intros o. now rewrite <- W. }
  exists a, s1. split; [eapply ev_ext; [exact H1|auto]|]. eapply ev_ext; [exact H2|]. intros o. now rewrite D, D1.
Qed.
(* programs that only write and succeed *)
Definition puts {X} (p : io X) (x : X) (dp : nat -> bytes) : Prop := forall s, ev p s (Ok x) s dp.
Lemma pbind_inv {X Y} (p : io X) x dp (f : X -> io Y) s b s2 d : puts p x dp -> ev (bind p f) s (Ok b) s2 d ->
  exists d', ev (f x) s (Ok b) s2 d'.
Proof.
  intros P H. apply bind_ok_inv in H. destruct H as [a [s1 [d1 [d2 [H1 [H2 D]]]]]].
  destruct (ev_det _ _ _ _ _ _ _ _ (P s) H1) as [A1 [A2 _]]. injection A1 as <-. subst s1. eauto.
Qed.
Lemma with_flush_inv {X} o (p : io X) s r s' d : ev (with_flush o p) s r s' d -> ev p s r s' d.
Proof. intros [w [R W]]. rewrite run_with_flush in R. now exists w. Qed.
Lemma newwr_inv {X} o n (p : io X) s r s' d : ev (NewWr o n p) s r s' d -> ev p s r s' d.
Proof. intros [w H]. now exists w. Qed.
Lemma newrd_inv {X} h n (p : io X) s r s' d : ev (NewRd h n p) s r s' d -> ev p (setr h (rd_buf n (getr h s)) s) r s' d.
Proof. intros [w H]. now exists w. Qed.

Lemma puts_write o b : puts (write o b) tt (on o b). Proof. intros s. apply ev_write. Qed.
Lemma puts_write_ o b : puts (write_ o b) tt (on o b). Proof. intros s. apply ev_write_. Qed.
Lemma puts_slice o l : puts (write_slice o l) tt (on o (be32 (N.of_nat (length l)) ++ concat l)).
Proof. intros s. unfold write_slice. eapply evw; [apply ev_write|apply ev_encodes]. Qed.

Section Keys.
Context {E : Ext2}.
Add Field Ekl : (f_th E).

Lemma quiet_decode1 h : quiet (decode1 (E := E) h).
Proof.
  unfold decode1. apply quiet_bind; [apply quiet_full|]. intros b. destruct (compressed b).
  - destruct (g1dc b); [apply quiet_ret|apply quiet_throw].
  - apply quiet_bind; [apply quiet_full|]. intros b2. destruct (g1dr _); [apply quiet_ret|apply quiet_throw].
Qed.
Lemma quiet_decode2 h : quiet (decode2 (E := E) h).
Proof.
  unfold decode2. apply quiet_bind; [apply quiet_full|]. intros b. destruct (compressed b).
  - destruct (g2dc b); [apply quiet_ret|apply quiet_throw].
  - apply quiet_bind; [apply quiet_full|]. intros b2. destruct (g2dr _); [apply quiet_ret|apply quiet_throw].
Qed.
Lemma quiet_decodes1 h n : quiet (decodes1 (E := E) h n).
Proof.
  induction n as [|n IH]; cbn [decodes1]; [apply quiet_ret|]. apply quiet_bind; [apply quiet_decode1|].
  intros x. apply quiet_bind; [exact IH|]. intros; apply quiet_ret.
Qed.
Lemma quiet_decodes2 h n : quiet (decodes2 (E := E) h n).
Proof.
  induction n as [|n IH]; cbn [decodes2]; [apply quiet_ret|]. apply quiet_bind; [apply quiet_decode2|].
  intros x. apply quiet_bind; [exact IH|]. intros; apply quiet_ret.
Qed.
Lemma quiet_slice1 h : quiet (read_slice1 (E := E) h).
Proof. apply quiet_bind; [apply quiet_full|intros; apply quiet_decodes1]. Qed.
Lemma quiet_slice2 h : quiet (read_slice2 (E := E) h).
Proof. apply quiet_bind; [apply quiet_full|intros; apply quiet_decodes2]. Qed.
Lemma quiet_hdr h : quiet (read_hdr2 (E := E) h).
Proof. eapply quiet_only_reads, only_reads_hdr. intros bs. apply gob_alt_reads. Qed.
Lemma quiet_read_n n : quiet (read_n (E := E) n).
Proof. unfold read_n. destruct (n <? 0)%Z; [apply quiet_boom|apply quiet_decodes1]. Qed.

Lemma concat_g1r (l : list E) : concat (map g1r l) = raw1 l.
Proof. unfold raw1. now rewrite flat_map_concat_map. Qed.
Lemma concat_g2r (l : list E) : concat (map g2r l) = raw2 l.
Proof. unfold raw2. now rewrite flat_map_concat_map. Qed.
Lemma puts_slice1 o (l : list E) : puts (write_slice1 o l) tt (on o (slice1 l)).
Proof. intros s. apply ev_write_slice1. Qed.
Lemma puts_slice2 o (l : list E) : puts (write_slice2 o l) tt (on o (slice2 l)).
Proof. intros s. apply ev_write_slice2. Qed.
Lemma puts_raw1 o (l : list E) : puts (write_raw1 o l) tt (on o (rslice1 l)).
Proof. unfold rslice1. rewrite <- concat_g1r, <- (map_length g1r l). apply puts_slice. Qed.
Lemma puts_raw2 o (l : list E) : puts (write_raw2 o l) tt (on o (rslice2 l)).
Proof. unfold rslice2. rewrite <- concat_g2r, <- (map_length g2r l). apply puts_slice. Qed.

(* ---- infinity filtering ---- *)
Lemma skipn_cons_S {X} (l : list X) i x t : skipn i l = x :: t -> skipn (S i) l = t /\ firstn (S i) l = firstn i l ++ [x].
Proof.
  revert l. induction i as [|i IH]; intros l H.
  - cbn in H. subst l. auto.
  - destruct l as [|y l]; [discriminate|]. destruct (IH l H) as [A B]. split; [exact A|].
    cbn [firstn app]. f_equal. exact B.
Qed.
Lemma upd_split {X} (l : list X) i x : i < length l -> skipn i (upd l i x) = x :: skipn (S i) l /\ firstn i (upd l i x) = firstn i l.
Proof.
  revert l. induction i as [|i IH]; intros [|y l] H; cbn [length] in H; try lia; [split; reflexivity|].
  destruct (IH l ltac:(lia)) as [A B]. change (upd (y :: l) (S i) x) with (y :: upd l i x). split; [exact A|].
  cbn [firstn]. f_equal. exact B.
Qed.
Lemma filter_inf_loop_spec : forall (l : list E) i j F I, j <= i -> length F = (i + length l)%nat ->
  length I = (i + length l)%nat -> skipn i I = repeat false (length l) ->
  exists G, filter_inf_loop i j l F I = (firstn j F ++ present l ++ G, firstn i I ++ absent l, (j + length (present l))%nat).
Proof.
  induction l as [|e l IH]; intros i j F I Hj LF LI HI; cbn [filter_inf_loop present absent filter map length].
  - exists (skipn j F). rewrite !app_nil_r, Nat.add_0_r. cbn [app]. rewrite firstn_skipn.
    cbn [length] in LI. rewrite Nat.add_0_r in LI. rewrite firstn_all2 by lia. reflexivity.
  - cbn [length] in LF, LI. cbn [length repeat] in HI. destruct (skipn_cons_S _ _ _ _ HI) as [I1 I2].
    destruct (feqb e 0) eqn:E0; cbn [negb].
    + destruct (upd_split I i true ltac:(lia)) as [U1 U2]. destruct (skipn_cons_S _ _ _ _ U1) as [U3 U4].
      destruct (IH (S i) j F (upd I i true)) as [G HG]; [lia|lia|rewrite upd_length; lia|congruence|].
      exists G. rewrite HG, U4, U2, <- app_assoc. reflexivity.
    + destruct (upd_split F j e ltac:(lia)) as [U1 U2]. destruct (skipn_cons_S _ _ _ _ U1) as [U3 U4].
      destruct (IH (S i) (S j) (upd F j e) I) as [G HG]; [lia|rewrite upd_length; lia|lia|auto|].
      exists G. rewrite HG, I2, U4, U2, <- !app_assoc. cbn [app length]. now rewrite Nat.add_succ_r.
Qed.
Lemma filter_inf_spec (l : list E) : filterInfinity l = (present l, absent l, N.of_nat (count_absent l)).
Proof.
  unfold filterInfinity, count_absent.
  destruct (filter_inf_loop_spec l 0 0 (repeat 0 (length l)) (repeat false (length l))) as [G ->];
    rewrite ?repeat_length; auto.
  cbn [firstn app Nat.add]. now rewrite firstn_app_exact.
Qed.
Lemma restore_present (l : list E) : restore (absent l) (present l) = l.
Proof.
  induction l as [|x l IH]; cbn [absent present map filter restore]; [reflexivity|].
  destruct (feqb x 0) eqn:X0; cbn [negb restore]; [apply feqb_ok in X0; subst|]; f_equal; exact IH.
Qed.

(* ---- what extraction reads ---- *)
Definition read_pk : io (hdr * pkey E) :=
  (NewRd false defBuf (NewRd true defBuf (
  header <- read_hdr2 (E := E) false ;;
  a <- decode1 (E := E) true ;;
  b <- decode1 (E := E) true ;;
  d <- decode1 (E := E) false ;;
  b2 <- decode2 (E := E) true ;;
  d2 <- decode2 (E := E) false ;;
  lA <- read_slice1 true ;;
  lB <- read_slice1 true ;;
  z <- read_n (wrap64 (h_domain header - 1)) ;;
  k <- read_n (h_witness header) ;;
  lB2 <- read_slice2 true ;;
  Ret (header, mkPk a b d lA lB z k b2 d2 lB2))))%io.
Ltac qt := first [apply quiet_hdr | apply quiet_decode1 | apply quiet_decode2 | apply quiet_slice1 | apply quiet_slice2
                 | apply quiet_read_n | apply quiet_seek | apply quiet_ret].
Ltac pt := first [apply puts_write | apply puts_write_ | apply puts_slice1 | apply puts_slice2 | apply puts_raw1 | apply puts_raw2].
Ltac qinv H := apply qbind_inv in H; [|qt]; let a := fresh "a" in let s := fresh "s" in let R := fresh "R" in
  destruct H as [a [s [R H]]]; cbn beta in H.
Ltac pinv H :=
  match type of H with ev (bind ?p ?f) ?s (Ok ?b) ?s2 ?d =>
    let P := fresh in eassert (P : puts p tt _) by pt; let d' := fresh "d" in
    apply (pbind_inv p tt _ f s b s2 d P) in H; clear P; destruct H as [d' H]; cbn beta in H end.
Ltac winv H := match type of H with
  | ev (NewRd ?h ?n ?p) _ _ _ _ => apply (newrd_inv h n p) in H
  | ev (NewWr ?o ?n ?p) _ _ _ _ => apply (newwr_inv o n p) in H
  | ev (with_flush ?o ?p) _ _ _ _ => apply (with_flush_inv o p) in H end.
Ltac st := match goal with R : ev ?p ?s (Ok ?a) ?s1 none |- ev (bind ?p ?f) ?s ?r ?s2 ?d =>
  apply (evb p f s a s1 r s2 d R); cbn beta end.

Lemma pk_bwd s s' d : ev (extract_pk (E := E)) s (Ok tt) s' d ->
  exists h q k, ev read_pk s (Ok (h, q)) s' none /\ new_domain (E := E) (h_domain h) = Some k.
Proof.
  unfold extract_pk. intros H. do 2 winv H. qinv H. do 2 winv H.
  destruct (new_domain (h_domain a)) as [k|] eqn:ND; cbn [orBoom] in H; [|destruct H as [w [H _]]; discriminate].
  pinv H. qinv H. pinv H. qinv H. pinv H. qinv H. pinv H. qinv H. qinv H. qinv H. rewrite filter_inf_spec in H.
  pinv H. qinv H. rewrite filter_inf_spec in H. pinv H. qinv H. pinv H. qinv H. pinv H. pinv H. pinv H. qinv H.
  rewrite filter_inf_spec in H. do 5 pinv H.
  destruct (ev_det _ _ _ _ _ _ _ _ (puts_write 0 _ _) H) as [_ [<- _]].
  eexists _, _, k. split; [|exact ND]. unfold read_pk. apply ev_newrd, ev_newrd.
  repeat st. apply ev_ret.
Qed.

Lemma on_cat2 o a b x (d : nat -> bytes) : (forall y, d y = on o b y) -> cat (on o a) d x = on o (a ++ b) x.
Proof. intros H. rewrite <- on_cat. unfold cat. now rewrite H. Qed.

(* forward: the same reads and the bytes written *)
Lemma pk_fwd s s' h q k : ev read_pk s (Ok (h, q)) s' none -> new_domain (E := E) (h_domain h) = Some k ->
  ev (extract_pk (E := E)) s (Ok tt) s' (on 0 (pk_bytes k (u64 (h_wires h)) q)).
Proof.
  unfold read_pk. intros H ND. do 2 winv H. do 11 qinv H.
  destruct H as [w [H _]]. cbn in H. injection H as <- <- <- _.
  unfold extract_pk. apply ev_newrd, ev_newrd. st. apply ev_newwr, ev_with_flush. rewrite ND. cbn [orBoom].
  unfold pk_bytes. cbn [q_alpha q_beta q_delta q_A q_B q_Z q_K q_beta2 q_delta2 q_B2]. unfold n64.
  repeat first [ st; rewrite ?filter_inf_spec | eapply evw; [pt|] | pt].
Qed.

Lemma split_bwd s s' d : ev (extract_split_pk (E := E)) s (Ok tt) s' d ->
  exists h q, ev read_pk s (Ok (h, q)) s' none.
Proof.
  unfold extract_split_pk. intros H. do 2 winv H. qinv H. do 12 winv H.
  pinv H. qinv H. pinv H. qinv H. pinv H. qinv H. pinv H. qinv H. qinv H. qinv H. rewrite filter_inf_spec in H.
  pinv H. qinv H. rewrite filter_inf_spec in H. pinv H. qinv H. pinv H. qinv H. pinv H. pinv H. pinv H. qinv H.
  rewrite filter_inf_spec in H. do 5 pinv H.
  destruct (ev_det _ _ _ _ _ _ _ _ (puts_write 0 _ _) H) as [_ [<- _]].
  eexists _, _. unfold read_pk. apply ev_newrd, ev_newrd.
  repeat st. apply ev_ret.
Qed.
Ltac stw := match goal with |- ev (bind ?p ?f) ?s ?r ?s2 ?d => eapply (ev_bind p f s); [pt|cbn beta] end.
Lemma split_fwd s s' h q : ev read_pk s (Ok (h, q)) s' none ->
  ev (extract_split_pk (E := E)) s (Ok tt) s' (fun o => nth o (split_bytes (u64 (h_domain h)) (u64 (h_wires h)) q) []).
Proof.
  unfold read_pk. intros H. do 2 winv H. do 11 qinv H.
  destruct H as [w [H _]]. cbn in H. injection H as <- <- <- _.
  unfold extract_split_pk. apply ev_newrd, ev_newrd. st. do 6 apply ev_newwr, ev_with_flush.
  unfold split_bytes, pkE_bytes. cbn [q_alpha q_beta q_delta q_A q_B q_Z q_K q_beta2 q_delta2 q_B2]. unfold n64.
  eapply ev_ext; [repeat first [ st; rewrite ?filter_inf_spec | stw | pt]|].
  intros [|[|[|[|[|[|o]]]]]]; unfold cat, on; cbn [Nat.eqb nth app]; rewrite ?app_nil_r; try reflexivity.
  destruct o; reflexivity.
Qed.

(* ---- verifying key ---- *)
Definition read_vk (wr : Z -> Z) : io (vkey E) :=
  (NewRd false defBuf (NewRd true defBuf (
  header <- read_hdr2 (E := E) false ;;
  a <- decode1 (E := E) true ;;
  b <- decode1 (E := E) true ;;
  b2 <- decode2 (E := E) true ;;
  d <- decode1 (E := E) false ;;
  d2 <- decode2 (E := E) false ;;
  seek true (wr (wr (128 * wr (h_wires header + 1)) + 12)%Z) ;;;
  NewRd true defBuf (
  k <- read_slice1 true ;;
  ck <- read_slice1 true ;;
  Ret (mkVk a b b2 d d2 k ck)))))%io.
Lemma puts_ret {X} (x : X) : puts (Ret x) x none. Proof. intros s. apply ev_ret. Qed.
Lemma puts_bind {X Y} (p : io X) (f : X -> io Y) x y d1 d2 : puts p x d1 -> puts (f x) y d2 -> puts (bind p f) y (cat d1 d2).
Proof. intros H1 H2 s. eapply ev_bind; [apply H1|apply H2]. Qed.
Lemma puts_vk o ck (v : vkey E) : puts (write_vk o ck (w_alpha v) (w_beta v) (w_beta2 v) 1 (w_delta v) (w_delta2 v) (w_K v) (mkCmt [] 0 0))
  tt (on o (vk_bytes ck (empty_info (E := E)) v)).
Proof.
  intros s. unfold write_vk, vk_bytes, empty_info.
  repeat first [eapply evw; [pt|] | pt].
Qed.
Lemma vk_fwd wr (g sg : E) s s' v : ev (read_vk wr) s (Ok v) s' none ->
  ev (extract_vk wr g sg) s (Ok (ped (e := E) g sg (w_ck v))) s' (on 0 (vk_bytes (ped (e := E) g sg (w_ck v)) (empty_info (E := E)) v)).
Proof.
  unfold read_vk. intros H. do 2 winv H. do 7 qinv H. winv H. do 2 qinv H.
  destruct H as [w [H _]]. cbn in H. injection H as <- <- _.
  unfold extract_vk. apply ev_newrd, ev_newrd. st. apply ev_newwr, ev_with_flush. do 6 st. apply ev_newrd. do 2 st.
  eapply ev_ext; [eapply ev_bind; [apply (puts_vk 0 _ (mkVk a0 a1 a2 a3 a4 a6 a7))|apply ev_ret]|].
  intros o. apply cat_none_r.
Qed.
Lemma vk_bwd wr (g sg : E) s s' ck d : ev (extract_vk wr g sg) s (Ok ck) s' d -> exists v, ev (read_vk wr) s (Ok v) s' none.
Proof.
  unfold extract_vk. intros H. do 2 winv H. qinv H. do 2 winv H. do 6 qinv H. winv H. do 2 qinv H.
  match type of H with ev (bind ?p ?f) ?s (Ok ?b) ?s2 ?d =>
    apply (pbind_inv p tt _ f s b s2 d (puts_vk 0 _ (mkVk a0 a1 a2 a3 a4 a6 []))) in H end.
  destruct H as [d' H]. destruct H as [w [H _]]. cbn in H. injection H as _ <- _.
  eexists. unfold read_vk. apply ev_newrd, ev_newrd. do 7 st. apply ev_newrd. do 2 st. apply ev_ret.
Qed.
End Keys.
