(* Phase1More.v -- remaining facts about phase 1: the other reading of MultiExp, header and hash
   reads, power 0, command line. *)
From Coq Require Import Ring Field.
From Verif Require Import Base Fld Conc Parallel IO Ext Spec1 Phase1 Phase1Io Phase1Verify Phase1Trans Phase1Facts.
Local Open Scope fld_scope.
Local Open Scope io_scope.

(* ---- reading records through a buffer ---- *)
(* the io.ReadFull calls of the point decoders *)
Fixpoint reads (h : bool) (ks : list nat) : io unit :=
  match ks with [] => Ret tt | k :: ks' => readfull h k ;;; reads h ks' end.
Definition total (ks : list nat) : nat := fold_right Nat.add 0%nat ks.
Lemma reads_ev h file cap : bigcap cap -> forall ks p b t s, Forall (fun k => k = 32 \/ k = 64) ks -> length b = total ks ->
  getr h s = at_ file cap p (b ++ t) ->
  ev (reads h ks) s (Ok tt) (setr h (at_ file cap (p + length b) t) s) none.
Proof.
  intros C. induction ks as [|k ks IH]; intros p b t s F L G.
  - destruct b; [|discriminate]. cbn [reads app length] in *. rewrite Nat.add_0_r, <- G, setr_getr. apply ev_ret.
  - inversion F as [|? ? Hk F']; subst. cbn [total fold_right] in L. fold (total ks) in L. cbn [reads].
    rewrite (firstn_skipn' k b) in G. rewrite <- app_assoc in G.
    assert (L1 : length (firstn k b) = k) by (rewrite firstn_length; lia).
    assert (L2 : length (skipn k b) = total ks) by (rewrite skipn_length; lia).
    eapply evb; [eapply readfull_ok; [exact L1| |exact G]|].
    + apply bigcap_le; [exact C|lia].
    + cbv beta. replace (p + length b)%nat with (p + k + length (skipn k b))%nat by lia. apply ev_set2. apply IH; auto using getr_setr.
Qed.
Lemma hash_read_full cap f g pw c0 c1 b h t ks : 64 < cap -> cap mod 32 = 0%nat -> Forall (fun k => k = 32 \/ k = 64) ks ->
  f = pw :: c0 :: c1 :: b ++ h ++ t -> length b = total ks -> length h = 32%nat ->
  fst (exec (read_header false ;;; NewRd false cap (reads false ks ;;; Rd false 32 (fun x => Ret x))) f g) = Ok (Some h).
Proof.
  intros C C32 F Ef L Lh.
  assert (M : total ks mod 32 = 0%nat).
  { clear - F. induction F as [|k ks Hk F IH]; [reflexivity|]. cbn [total fold_right]. apply mod32_add; auto. destruct Hk as [->| ->]; reflexivity. }
  assert (D : ev (read_header false ;;; NewRd false cap (reads false ks ;;; Rd false 32 (fun x => Ret x))) (opened f, opened g)
    (Ok (Some h)) (setr false (at_ f cap (0 + length b + 32) t) (opened f, opened g)) none).
  { eapply evb; [eapply ev_read_header; cbn [getr fst]; rewrite <- Ef; reflexivity|]. cbv beta.
    eapply ev_newrd0; [apply getr_setr|]. rewrite setr_setr.
    eapply evb; [eapply reads_ev; [right; exact C|exact F|exact L|apply getr_setr]|]. cbv beta. rewrite setr_setr.
    exists []. split; [|auto]. cbn [run]. rewrite getr_setr.
    rewrite rd_read_at; [|lia|rewrite app_length; lia|].
    - cbn [run]. rewrite setr_setr. rewrite <- Lh, firstn_app_exact, skipn_app_exact. reflexivity.
    - right. split; [|lia]. apply aligned_fits; auto; [lia|]. rewrite Nat.add_0_l, L. exact M. }
  apply ev_exec in D. now rewrite D.
Qed.

(* ---- command line: actions.go:12-52.  None = strconv.Atoi failed.  (A negative number has to be
   passed after "--".) ---- *)
Section Cli.
Context {E : Ext}.
Add Field Kfld8 : (f_th E).
Definition p1n (arg : option Z) : io unit :=
  match arg with
  | None => Throw EAtoi
  | Some power => if (power >? 26)%Z then Throw EPower26 else initialize (E := E) (b8 (Z.to_N (power mod 256)))
  end.
Definition p1t (inArg outArg : option Z) : io unit :=
  match inArg, outArg with
  | Some i, Some o => if (i <? o)%Z then Throw EHigherPower
                      else transform (E := E) (b8 (Z.to_N (i mod 256))) (b8 (Z.to_N (o mod 256)))
  | _, _ => Throw EAtoi
  end.

Lemma p1n_big z f g : (26 < z)%Z -> exec (p1n (Some z)) f g = (Err EPower26, []).
Proof. intros H. unfold p1n. destruct (Z.gtb_spec z 26); [reflexivity|lia]. Qed.
Lemma p1n_good z f g : (0 <= z <= 26)%Z -> exec (p1n (Some z)) f g = (Ok tt, file1 (Z.to_nat z) (srs_of (Z.to_nat z) (1 : E) 1 1) []).
Proof.
  intros H. unfold p1n. destruct (Z.gtb_spec z 26); [lia|]. rewrite Z.mod_small by lia.
  replace (Z.to_N z) with (N.of_nat (Z.to_nat z)) by lia.
  pose proof (initialize_ev (E := E) (Z.to_nat z) (opened f, opened g) ltac:(lia)) as D. now apply ev_exec in D.
Qed.
(* negative powers whose low byte is at least 63: only the header and one G2 point are written *)
Lemma p1n_negative z f g : (z < 0)%Z -> (63 <= z mod 256)%Z ->
  exec (p1n (Some z)) f g = (Ok tt, b8 (Z.to_N (z mod 256)) :: be16 0 ++ g2c (1 : E)).
Proof.
  intros H M. unfold p1n. destruct (Z.gtb_spec z 26); [lia|]. set (pw := b8 (Z.to_N (z mod 256))).
  assert (P : pow2 pw = (- two63)%Z).
  { unfold pow2, pw. rewrite bN_b8, N.mod_small by (pose proof (Z.mod_pos_bound z 256); lia).
    destruct (N.ltb_spec (Z.to_N (z mod 256)) 63); [lia|auto]. }
  assert (D : ev (initialize (E := E) pw) (opened f, opened g) (Ok tt) (opened f, opened g)
     (on 0 (([pw] ++ be16 0) ++ [] ++ [] ++ [] ++ [] ++ g2c (1 : E)))).
  { unfold initialize. cbv zeta. rewrite P. unfold repeat_write.
    change (Z.to_nat (wrap64 (2 * - two63 - 1))) with 0%nat. change (Z.to_nat (- two63)) with 0%nat.
    cbn [repeat encodes].
    eapply evw; [apply ev_try_ok, ev_write_header|]. apply ev_newwr, ev_with_flush.
    do 4 (eapply evw; [apply ev_on_nil, ev_ret|]). apply ev_write_. }
  apply ev_exec in D. rewrite D. reflexivity.
Qed.

(* ---- power 0 ---- *)
Lemma contribute_power0 bs (w : @rnd1 E) f g c0 c1 b (x : E) t : 1 <= bs -> is1 b x ->
  f = b8 0 :: c0 :: c1 :: b ++ t ->
  exec (contribute bs w) f g =
    (Panic, b8 0 :: be16 ((bN c0 * 256 + bN c1 + 1) mod 65536) ++ g1c x).
Proof.
  intros B1 I0 Ef.
  assert (D : exists s', ev (contribute bs w) (opened f, opened g) Panic s'
     (on 0 (([b8 0] ++ be16 ((bN c0 * 256 + bN c1 + 1) mod 65536)) ++ g1c x))).
  { eexists. unfold contribute. eapply evb; [eapply ev_read_header; cbn [getr fst]; rewrite <- Ef; reflexivity|].
    cbv beta iota zeta. eapply evw; [apply ev_write_header|]. cbv beta.
    eapply ev_newrd0; [apply getr_setr|]. rewrite setr_setr. apply ev_newwr, ev_with_flush.
    destruct w as [tau alpha beta st sa sb].
    replace (wrap64 (2 * pow2 (b8 0) - 1)) with 1%Z by reflexivity.
    apply ev_bind_panic. unfold scaleG1, scale. change (1 <? 0)%Z with false. cbv iota.
    change (Z.to_nat 1) with 1%nat. cbn [scale_loop].
    replace (Nat.min 1 bs) with 1%nat by lia.
    assert (A1 : are1 b [x]).
    { rewrite <- (app_nil_r b). constructor; [exact I0|constructor]. }
    eapply evb; [eapply (ev_decodes1 false f defBuf defBuf_big [x] b); [exact A1|apply getr_setr]|]. cbv beta.
    cbn [repeat skipn powers powers_from orBoom nth_error Nat.sub]. rewrite par_cells_spec by apply ncpu_pos.
    cbn [orBoom]. unfold mapi. cbn [length seq combine fst snd app firstn map encodes Nat.ltb Nat.leb nth].
    replace (x * 1) with x by ring.
    replace (on 0 (g1c x)) with (on 0 ((g1c x ++ []) ++ [])) by now rewrite !app_nil_r.
    eapply evw; [eapply evw; [apply ev_write|apply ev_on_nil, ev_ret]|]. cbv beta.
    rewrite feqb_refl. cbn [nth_error orBoom]. apply ev_on_nil, ev_boom. }
  destruct D as [s' D]. apply ev_exec in D. rewrite D. reflexivity.
Qed.

(* ---- one honest contributor ---- *)
Lemma prodl_neq0 (l : list E) : (forall x, In x l -> x <> 0) -> prodl l <> 0.
Proof.
  induction l as [|x l IH]; intros H; cbn [prodl fold_right]; [apply f1_neq_0|].
  apply fmul_neq0; [apply H; now left|]. apply IH. intros y Hy. apply H. now right.
Qed.
Lemma prodl_bij (l1 l2 : list E) : (forall x, In x (l1 ++ l2) -> x <> 0) ->
  forall y, y <> 0 -> exists! x, x <> 0 /\ prodl (l1 ++ [x] ++ l2) = y.
Proof.
  intros H y Hy. assert (Z : prodl (l1 ++ l2) <> 0) by now apply prodl_neq0.
  assert (Q : forall x, prodl (l1 ++ [x] ++ l2) = x * prodl (l1 ++ l2)).
  { intros x. rewrite !prodl_app. cbn [prodl fold_right]. ring. }
  exists (y / prodl (l1 ++ l2)). split.
  - split.
    + intros X. apply Hy. replace y with (y / prodl (l1 ++ l2) * prodl (l1 ++ l2)) by (field; auto). rewrite X. ring.
    + rewrite Q. field. auto.
  - intros x [_ Hx]. rewrite Q in Hx. rewrite <- Hx. field. auto.
Qed.
End Cli.
