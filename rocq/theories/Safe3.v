(* Safe3.v -- phase-2 initialisation does not panic, whatever the phase-1 file holds. *)
From Coq Require String.
From Coq Require Import ZifyBool ZifyNat ZifyN.
From Verif Require Import Base Fld Conc Parallel BitRev FFT IO Ext Spec1 Phase1 Phase1Io Phase1Verify Gob GobLemmas Circuit Spec2 Spec3 Phase2
  Fs Init2 Init2Pure Init2Io Init2Claims Init2More Safe Safe2.
Local Open Scope fld_scope.
Local Open Scope io_scope.

(* [post o Q p acc]: whatever p reads it does not panic, and if it returns a with the writes acc having
   gone to output o before and acc' after, then Q a acc' *)
Fixpoint post {X} (o : nat) (Q : X -> bytes -> Prop) (p : io X) (acc : bytes) : Prop :=
  match p with
  | Ret a => Q a acc
  | Throw _ => True
  | Boom => False
  | Rd _ _ c => forall x, post o Q (c x) acc
  | Seek _ _ c => forall b, post o Q (c b) acc
  | Fwd _ _ c | NewRd _ _ c | NewWr _ _ c => post o Q c acc
  | Flush _ c => post o Q (c true) acc
  | Wr o' d c => post o Q (c true) (acc ++ if (o' =? o)%nat then d else [])
  end.
Lemma post_run {X} oo (Q : X -> bytes -> Prop) (p : io X) : forall acc s, post oo Q p acc ->
  let '(r, _, w) := run p s in match r with Ok a => Q a (acc ++ out oo w) | Err _ => True | Panic => False end.
Proof.
  io_ind p; intros acc s; cbn [post run]; intros H; auto.
  - unfold out. cbn. now rewrite app_nil_r.
  - destruct (rd_read k (getr h s)) as [x r]. now apply IH.
  - destruct (z <? 0)%Z; now apply IH.
  - now apply IH.
  - now apply IH.
  - now apply IH.
  - now apply IH.
  - specialize (IH true _ s H). destruct (run (c true) s) as [[r s'] w]. destruct r as [a|e|]; auto.
    change ((o, d) :: w) with ([(o, d)] ++ w). rewrite out_app, app_assoc. replace (out oo [(o, d)]) with (if (o =? oo)%nat then d else []); [exact IH|].
    unfold out. cbn. destruct (o =? oo)%nat; [now rewrite app_nil_r|reflexivity].
Qed.
Lemma post_bind {X Y} o (P : X -> bytes -> Prop) (Q : Y -> bytes -> Prop) (p : io X) (f : X -> io Y) : forall acc,
  post o P p acc -> (forall a acc', P a acc' -> post o Q (f a) acc') -> post o Q (bind p f) acc.
Proof.
  induction p as [a|e| |h k c IH|h z c IH|h n c IH|h n c IH|o' n c IH|o' c IH|o' d c IH]; intros acc H F; cbn [post bind] in *; auto.
Qed.
Lemma post_imp {X} o (P Q : X -> bytes -> Prop) (p : io X) : forall acc, post o P p acc -> (forall a b, P a b -> Q a b) -> post o Q p acc.
Proof.
  induction p as [a|e| |h k c IH|h z c IH|h n c IH|h n c IH|o' n c IH|o' c IH|o' d c IH]; intros acc H F; cbn [post] in *; auto.
Qed.
Lemma post_flush {X} o oo (Q : X -> bytes -> Prop) (p : io X) : forall acc, post o Q p acc -> post o Q (with_flush oo p) acc.
Proof.
  induction p as [a|e| |h k c IH|h z c IH|h n c IH|h n c IH|o' n c IH|o' c IH|o' d c IH]; intros acc H; cbn [post with_flush] in *; auto.
Qed.
Lemma post_orBoom {X Y} o (Q : Y -> bytes -> Prop) (x : option X) (k : X -> io Y) a acc : x = Some a -> post o Q (k a) acc -> post o Q (orBoom x k) acc.
Proof. intros -> H. exact H. Qed.
(* nothing goes to o *)
Definition same {X} (acc : bytes) (_ : X) (acc' : bytes) : Prop := acc' = acc.
Lemma post_same {X Y} o (Q : Y -> bytes -> Prop) (p : io X) (f : X -> io Y) acc :
  post o (same acc) p acc -> (forall a, post o Q (f a) acc) -> post o Q (bind p f) acc.
Proof. intros H F. eapply post_bind; [exact H|]. intros a acc' ->. apply F. Qed.
Lemma post_rf o h : forall fuel k b acc, post o (same acc) (rf_loop fuel k h b) acc.
Proof.
  induction fuel as [|fuel IH]; intros k b acc; cbn [rf_loop post]; [exact I|]. intros [c|]; [|exact I].
  destruct (length c =? k)%nat; [reflexivity|apply IH].
Qed.
Lemma post_readfull o h k acc : post o (same acc) (readfull h k) acc.
Proof. unfold readfull. destruct (k =? 0)%nat; [reflexivity|apply post_rf]. Qed.
Lemma post_seek o h z acc : post o (same acc) (seek h z) acc.
Proof. intros [|]; [reflexivity|exact I]. Qed.
Lemma post_write o o' d acc : post o (fun _ x => x = acc ++ if (o' =? o)%nat then d else []) (write o' d) acc.
Proof. reflexivity. Qed.
Lemma post_write_other o o' d acc : o' <> o -> post o (same acc) (write o' d) acc.
Proof. intros N. cbn. destruct (Nat.eqb_spec o' o); [congruence|]. unfold same. now rewrite app_nil_r. Qed.
Lemma post_encodes_other o o' l : o' <> o -> forall acc, post o (same acc) (encodes o' l) acc.
Proof.
  intros N. induction l as [|b l IH]; intros acc; [reflexivity|]. cbn [encodes]. eapply post_same; [now apply post_write_other|]. intros _. apply IH.
Qed.
Lemma post_encodes o l : forall acc, post o (fun _ x => x = acc ++ concat l) (encodes o l) acc.
Proof.
  induction l as [|b l IH]; intros acc; cbn [encodes concat]; [cbn; now rewrite app_nil_r|].
  eapply post_bind; [apply post_write|]. rewrite Nat.eqb_refl. intros [] a' ->. rewrite app_assoc. apply IH.
Qed.

Section S3.
Context {E : Ext2}.
Lemma post_decode1 o h acc : post o (same acc) (decode1 (E := E) h) acc.
Proof.
  eapply post_same; [apply post_readfull|]. intros b. destruct (compressed b).
  - destruct (g1dc b); [reflexivity|exact I].
  - eapply post_same; [apply post_readfull|]. intros b2. destruct (g1dr (b ++ b2)); [reflexivity|exact I].
Qed.
Lemma post_decode2 o h acc : post o (same acc) (decode2 (E := E) h) acc.
Proof.
  eapply post_same; [apply post_readfull|]. intros b. destruct (compressed b).
  - destruct (g2dc b); [reflexivity|exact I].
  - eapply post_same; [apply post_readfull|]. intros b2. destruct (g2dr (b ++ b2)); [reflexivity|exact I].
Qed.
Lemma post_decodes1 o h n acc : post o (fun (l : list E) x => length l = n /\ x = acc) (decodes1 h n) acc.
Proof.
  induction n as [|n IH]; [split; reflexivity|]. cbn [decodes1]. eapply post_same; [apply post_decode1|]. intros x.
  eapply post_bind; [exact IH|]. intros l a' [L ->]. cbn. auto.
Qed.
Lemma post_decodes2 o h n acc : post o (fun (l : list E) x => length l = n /\ x = acc) (decodes2 h n) acc.
Proof.
  induction n as [|n IH]; [split; reflexivity|]. cbn [decodes2]. eapply post_same; [apply post_decode2|]. intros x.
  eapply post_bind; [exact IH|]. intros l a' [L ->]. cbn. auto.
Qed.
Lemma post_lagrange (dec : nat -> io (list E)) (wr : list E -> io unit) (sl : list E -> bytes) pos k acc : 1 <= k <= kmax E ->
  (forall n acc, post 1 (fun (l : list E) x => length l = n /\ x = acc) (dec n) acc) ->
  (forall l acc, post 1 (fun _ x => x = acc ++ sl l) (wr l) acc) ->
  post 1 (fun _ x => exists l, length l = (2 ^ k)%nat /\ x = acc ++ sl l) (lagrange_section dec wr pos k) acc.
Proof.
  intros K D W. unfold lagrange_section. eapply post_same; [apply post_seek|]. intros _. cbn [post]. apply post_flush.
  eapply post_bind; [apply D|]. intros l a' [L ->]. destruct (convert_ok k l K L) as [b [C [LB _]]].
  eapply post_orBoom; [exact C|]. eapply post_imp; [apply W|]. intros [] a' ->. eauto.
Qed.
Lemma post_slice1 (l : list E) acc : post 1 (fun _ x => x = acc ++ slice1 l) (write_slice1 1 l) acc.
Proof.
  unfold write_slice1, write_slice. eapply post_bind; [apply post_write|]. cbn [Nat.eqb]. intros [] a' ->.
  eapply post_imp; [apply post_encodes|]. intros [] a' ->. unfold slice1. rewrite map_length, concat_map_g1c, app_assoc. reflexivity.
Qed.
Lemma post_slice2 (l : list E) acc : post 1 (fun _ x => x = acc ++ slice2 l) (write_slice2 1 l) acc.
Proof.
  unfold write_slice2, write_slice. eapply post_bind; [apply post_write|]. cbn [Nat.eqb]. intros [] a' ->.
  eapply post_imp; [apply post_encodes|]. intros [] a' ->. unfold slice2. rewrite map_length, concat_map_g2c, app_assoc. reflexivity.
Qed.
Lemma post_process_lagrange pw k : 1 <= k <= kmax E ->
  post 1 (fun _ x => exists t a b t2 : list E, length t = (2 ^ k)%nat /\ length a = (2 ^ k)%nat /\ length b = (2 ^ k)%nat /\
    length t2 = (2 ^ k)%nat /\ x = lag_bytes t a b t2) (process_lagrange (E := E) pw k) [].
Proof.
  intros K. unfold process_lagrange, lagrangeG1, lagrangeG2. cbv zeta.
  eapply post_bind; [apply (post_lagrange _ _ slice1 _ _ _ K); [apply post_decodes1|apply post_slice1]|]. intros [] x1 [t [Lt ->]].
  eapply post_bind; [apply (post_lagrange _ _ slice1 _ _ _ K); [apply post_decodes1|apply post_slice1]|]. intros [] x1 [a [La ->]].
  eapply post_bind; [apply (post_lagrange _ _ slice1 _ _ _ K); [apply post_decodes1|apply post_slice1]|]. intros [] x1 [b [Lb ->]].
  eapply post_imp; [apply (post_lagrange _ _ slice2 _ _ _ K); [apply post_decodes2|apply post_slice2]|]. intros [] x1 [t2 [Lt2 ->]].
  exists t, a, b, t2. do 4 (split; [assumption|]). unfold lag_bytes. now rewrite <- !app_assoc.
Qed.
Lemma post_eval_head pw acc : post 1 (same acc) (process_eval_head (E := E) pw) acc.
Proof.
  unfold process_eval_head. eapply post_same.
  - unfold read_phase1. cbv zeta. eapply post_same; [apply post_seek|]. intros _. eapply post_same; [apply post_decode1|]. intros x1.
    eapply post_same; [apply post_seek|]. intros _. eapply post_same; [apply post_decode1|]. intros x2.
    eapply post_same; [apply post_seek|]. intros _. eapply post_same; [apply post_decode2|]. intros x3. reflexivity.
  - intros [[x1 x2] x3]. apply post_encodes_other. discriminate.
Qed.
Lemma post_delta_z h k acc : k < 64 -> h_domain h = Z.of_nat (2 ^ k) -> post 1 (same acc) (process_delta_z (E := E) h) acc.
Proof.
  intros K D. unfold process_delta_z. cbn [post]. apply post_flush. eapply post_same; [now apply post_write_other|]. intros _.
  eapply post_same; [now apply post_write_other|]. intros _. eapply post_same; [apply post_seek|]. intros _. cbn [post]. cbv zeta.
  rewrite D, Nat2Z.id. set (n := (2 ^ k)%nat). eapply post_bind; [apply post_decodes1|]. intros T a' [L ->].
  pose proof (pow2_pos k). fold n in H.
  set (z0 := map (fun i => nth (i + n)%nat T 0 - nth i T 0) (seq 0 (n - 1)) ++ repeat (0 : E) (n - (n - 1))).
  assert (Lz : length z0 = n) by (unfold z0; rewrite app_length, map_length, seq_length, repeat_length; lia).
  destruct (bit_reverse_full k z0 K Lz) as [z1 [B1 _]]. eapply post_orBoom; [exact B1|]. now apply post_encodes_other.
Qed.
Lemma safe_process_header (cs : r1cs E) nb dom : next_pow2 nb = Some dom ->
  safe (fun x => snd x = header2_of cs nb dom) (process_header cs nb).
Proof.
  intros H. unfold process_header. eapply safe_orBoom; [exact H|]. apply safe_get; [apply safe_read_header|]. intros [pw n].
  destruct (pow2 pw <? nb)%Z; [exact I|]. cbv zeta. apply safe_then; [apply safe_write_hdr|reflexivity].
Qed.

(* ---- commands ---- *)
Lemma cbind_panics {X Y} (c : cmd X) (k : X -> cmd Y) f f' : cbind c k f = (Panic, f') ->
  c f = (Panic, f') \/ exists x f1, c f = (Ok x, f1) /\ k x f1 = (Panic, f').
Proof. unfold cbind. destruct (c f) as [[x|e|] f1]; intros H; [eauto|discriminate|left; congruence]. Qed.
Lemma stage_post {X} o (Q : X -> bytes -> Prop) (p : io X) a b outs f r f' : post o Q p [] -> stage p a b outs f = (r, f') ->
  exists w, f' = wapply outs w f /\ match r with Ok x => Q x (out o w) | Err _ => True | Panic => False end.
Proof.
  intros H S. unfold stage in S. pose proof (post_run o Q p [] (opened (contents f a), opened (contents f b)) H) as P.
  destruct (run p _) as [[r0 s'] w]. injection S as <- <-. exists w. split; [reflexivity|]. exact P.
Qed.
Lemma stage_safe {X} (Q : X -> Prop) (p : io X) a b outs f r f' : safe Q p -> stage p a b outs f = (r, f') ->
  exists w, f' = wapply outs w f /\ match r with Ok x => Q x | Err _ => True | Panic => False end.
Proof.
  intros H S. unfold stage in S. pose proof (safe_run Q p H (opened (contents f a), opened (contents f b))) as P.
  destruct (run p _) as [[r0 s'] w]. injection S as <- <-. exists w. split; [reflexivity|]. exact P.
Qed.

(* the split of the wires goes through *)
Definition splits (cs : r1cs E) : Prop := forall k (L : list E), length L = wires cs ->
  exists x, filterL L (header2_of cs (Z.of_nat (length (r_cons cs))) (Z.of_nat (2 ^ k))) (r_cmt cs) = Some x.

Lemma p2n_no_panic (cs : r1cs E) f p1 r1 p2 rb F : names_ok p1 r1 p2 -> f p1 = Some F -> f r1 = Some rb -> parse_r1cs rb = Some cs ->
  circuit_ok cs -> (Z.of_nat (length (r_cons cs)) <= 2 ^ 27)%Z -> 1 <= kmax E -> length (r_cons cs) <= 2 ^ kmax E -> splits cs ->
  fst (p2n (E := E) p1 r1 p2 f) <> Panic.
Proof.
  intros HN F1 R1 P1 Hok H27 Km Hm SP X. destruct (p2n p1 r1 p2 f) as [r f'] eqn:Y. cbn in X. subst r.
  rewrite (p2n_start _ _ _ _ _ F1) in Y. unfold init_steps in Y.
  destruct HN as [N1 [N2 [N3 [N4 [N5 [N6 [N7 N8]]]]]]].
  set (f0 := fset f p2 []) in *. assert (A0 : f0 r1 = Some rb) by (unfold f0; rewrite fset_other; auto).
  destruct (dom_ex (length (r_cons cs)) H27) as [k [K27 [KD KN]]].
  assert (KK : 1 <= k <= kmax E). { destruct KD as [K1 [_ K3]]. split; [exact K1|]. apply K3; auto. }
  pose proof KD as [K1 [K2 K3]].
  assert (H32 : (N.of_nat (2 ^ k) < 4294967296)%N).
  { pose proof (pow2_le k 27 K27). change (2 ^ Z.of_nat 27)%Z with 134217728%Z in *. lia. }
  set (h := header2_of cs (Z.of_nat (length (r_cons cs))) (Z.of_nat (2 ^ k))).
  assert (Hd : h_domain h = Z.of_nat (2 ^ k)) by (unfold h, header2_of; now destruct (is_cmt _)).
  rewrite (cbind_ok _ _ _ _ _ (read_r1cs_ok _ _ _ _ A0 P1)) in Y.
  (* header *)
  apply cbind_panics in Y as [Y|[[pw h'] [f1 [S1 Y]]]].
  { apply (stage_safe _ _ _ _ _ _ _ _ (safe_process_header cs _ _ KN)) in Y as [w [_ Y]]. exact Y. }
  destruct (stage_safe _ _ _ _ _ _ _ _ (safe_process_header cs _ _ KN) S1) as [w1 [E1 Q1]]. cbn in Q1. fold h in Q1. subst h'.
  assert (A1 : f1 r1 = Some rb). { rewrite E1, wapply_other; [exact A0|]. cbn. intros [Z|[]]; congruence. } clear S1.
  (* srs.lag *)
  assert (O1 : f1 p2 <> None).
  { rewrite E1, (wapply_at [p2] w1 f0 0%nat p2); [discriminate| |reflexivity|unfold f0; rewrite fset_same; discriminate].
    constructor; [intros []|constructor]. }
  unfold c_lagrange at 1 in Y. rewrite Hd, new_domain_pow in Y by lia.
  assert (PL := post_process_lagrange pw k KK).
  assert (Y2 : exists f3 (t a b t2 : list E), length t = (2 ^ k)%nat /\ length a = (2 ^ k)%nat /\ length b = (2 ^ k)%nat /\ length t2 = (2 ^ k)%nat /\
     f3 lag_path = Some (lag_bytes t a b t2) /\ f3 r1 = Some rb /\ f3 p2 <> None /\
     cbind (copen lag_path) (fun _ => cbind (ccreate evals_path) (fun _ =>
       cbind (stage (process_eval_head (E := E) pw) p1 lag_path [p2; lag_path; evals_path]) (fun _ =>
       cbind (read_r1cs (E := E) r1) (fun cs => cbind (stage (process_eval_body cs (Some (r_cons cs)) h) p1 lag_path [p2; lag_path; evals_path]) (fun _ =>
       cbind (stage (process_delta_z (E := E) h) p1 lag_path [p2; lag_path; evals_path]) (fun _ =>
       cbind (copen lag_path) (fun _ => cbind (read_r1cs (E := E) r1) (fun cs =>
       stage (process_pvckk cs (Some (r_cons cs)) h) p1 lag_path [p2; lag_path; evals_path])))))))) f3 = (Panic, f')).
  { apply cbind_panics in Y as [Y|[[] [f3 [S3 Y]]]].
    - unfold cbind, ccreate in Y. apply (stage_post _ _ _ _ _ _ _ _ _ PL) in Y as [w [_ []]].
    - unfold cbind at 1, ccreate in S3. destruct (stage_post _ _ _ _ _ _ _ _ _ PL S3) as [w [E3 [t [a [b [t2 [L1 [L2 [L3 [L4 Ow]]]]]]]]]].
      assert (ND : NoDup [p2; lag_path]).
      { constructor; [cbn; intros [Z|[]]; congruence|]. constructor; [intros []|constructor]. }
      exists f3, t, a, b, t2. do 4 (split; [assumption|]). split; [|split; [|split; [|exact Y]]]; rewrite E3.
      + rewrite (wapply_at _ w _ 1%nat lag_path ND); [|reflexivity|rewrite fset_same; discriminate]. rewrite contents_same, Ow. reflexivity.
      + rewrite wapply_other; [rewrite fset_other; [exact A1|congruence]|]. cbn. intros [Z|[Z|[]]]; congruence.
      + rewrite (wapply_at _ w _ 0%nat p2 ND); [discriminate|reflexivity|]. rewrite fset_other; [exact O1|congruence]. }
  clear Y. destruct Y2 as [f3 [t [a [b [t2 [L1 [L2 [L3 [L4 [G3 [A3 [O3 Y]]]]]]]]]]]].
  rewrite (cbind_ok _ _ _ _ _ (copen_ok _ _ _ G3)) in Y. rewrite (cbind_ok (ccreate evals_path) _ f3 tt _ eq_refl) in Y.
  set (f4 := fset f3 evals_path []) in *.
  assert (ND : NoDup [p2; lag_path; evals_path]) by now apply nodup3.
  assert (NI : ~ In r1 [p2; lag_path; evals_path]) by (cbn; intros [Z|[Z|[Z|[]]]]; congruence).
  assert (LG : forall w ff, ff lag_path = Some (lag_bytes t a b t2) -> out 1 w = [] ->
    wapply [p2; lag_path; evals_path] w ff lag_path = Some (lag_bytes t a b t2)).
  { intros w ff G W. rewrite (wapply_at _ w _ 1%nat lag_path ND); [|reflexivity|congruence]. rewrite W, app_nil_r. now rewrite (contents_some _ _ _ G). }
  assert (G4 : f4 lag_path = Some (lag_bytes t a b t2)) by (unfold f4; rewrite fset_other; [auto|intros Z; now apply lag_evals]).
  assert (A4 : f4 r1 = Some rb) by (unfold f4; rewrite fset_other; auto).
  (* evals *)
  apply cbind_panics in Y as [Y|[[] [f5 [S5 Y]]]].
  { apply (stage_post _ _ _ _ _ _ _ _ _ (post_eval_head pw [])) in Y as [w [_ []]]. }
  apply (stage_post _ _ _ _ _ _ _ _ _ (post_eval_head pw [])) in S5 as [w5 [E5 W5]]. unfold same in W5.
  assert (G5 : f5 lag_path = Some (lag_bytes t a b t2)) by (rewrite E5; now apply LG).
  assert (A5 : f5 r1 = Some rb) by (rewrite E5, wapply_other; auto).
  rewrite (cbind_ok _ _ _ _ _ (read_r1cs_ok _ _ _ _ A5 P1)) in Y.
  destruct (process_eval_body_ev cs (Z.of_nat (length (r_cons cs))) (2 ^ k) (lag_bytes t a b t2) t a b t2
    (opened (contents f5 p1), opened (lag_bytes t a b t2)) Hok L1 L2 L3 L4 H32 K2 eq_refl) as [s5 V5]. fold h in V5.
  rewrite <- (contents_some _ _ _ G5) in V5 at 1.
  destruct (stage_ev _ p1 lag_path [p2; lag_path; evals_path] f5 _ _ _ V5) as [f6 [S6 [O6 W6]]].
  rewrite (cbind_ok _ _ _ _ _ S6) in Y.
  assert (G6 : f6 lag_path = Some (lag_bytes t a b t2)).
  { rewrite (W6 ND 1%nat lag_path eq_refl ltac:(congruence)). cbn [on Nat.eqb]. rewrite app_nil_r. f_equal. now apply contents_some. }
  assert (A6 : f6 r1 = Some rb) by (rewrite O6; auto).
  (* delta, Z *)
  assert (PD := post_delta_z h k [] ltac:(pose proof (kmax_lt E); lia) Hd).
  apply cbind_panics in Y as [Y|[[] [f7 [S7 Y]]]].
  { apply (stage_post _ _ _ _ _ _ _ _ _ PD) in Y as [w [_ []]]. }
  apply (stage_post _ _ _ _ _ _ _ _ _ PD) in S7 as [w7 [E7 W7]]. unfold same in W7.
  assert (G7 : f7 lag_path = Some (lag_bytes t a b t2)) by (rewrite E7; now apply LG).
  assert (A7 : f7 r1 = Some rb) by (rewrite E7, wapply_other; auto).
  rewrite (cbind_ok _ _ _ _ _ (copen_ok _ _ _ G7)), (cbind_ok _ _ _ _ _ (read_r1cs_ok _ _ _ _ A7 P1)) in Y.
  (* PKK, VKK, CKK *)
  destruct (SP k (Lsum cs t a b)) as [[[pkk vkk] ckk] HF]; [unfold Lsum; now rewrite map_length, seq_length|].
  rewrite <- Lsum_padd in HF.
  destruct (process_pvckk_ev cs (Z.of_nat (length (r_cons cs))) (2 ^ k) (lag_bytes t a b t2) t a b t2
    (opened (contents f7 p1), opened (lag_bytes t a b t2)) Hok L1 L2 L3 H32 K2 eq_refl _ _ _ HF) as [s8 V8].
  fold h in V8. rewrite <- (contents_some _ _ _ G7) in V8 at 1.
  destruct (stage_ev _ p1 lag_path [p2; lag_path; evals_path] f7 _ _ _ V8) as [f8 [S8 _]].
  rewrite S8 in Y. discriminate.
Qed.
Lemma splits_nocmt (cs : r1cs E) : no_cmt cs -> splits cs.
Proof. intros H k L HL. eexists. now apply filterL_nocmt. Qed.
Lemma splits_pubcmt (cs : r1cs E) : cm_committed (r_cmt cs) <> [] -> cm_nbpriv (r_cmt cs) = 0%nat ->
  cm_index (r_cmt cs) = nb_public cs -> nb_public cs < wires cs -> splits cs.
Proof. intros H1 H2 H3 H4 k L HL. eexists. now apply filterL_pubcmt. Qed.
End S3.
Lemma p2n_never_panics {E : Ext2} (cs : r1cs E) f p1 r1 p2 rb F :
  names_ok p1 r1 p2 -> f p1 = Some F -> f r1 = Some rb -> parse_r1cs rb = Some cs -> circuit_ok cs ->
  (Z.of_nat (length (r_cons cs)) <= 2 ^ 27)%Z -> 1 <= kmax E -> length (r_cons cs) <= 2 ^ kmax E ->
  (no_cmt cs \/ cm_committed (r_cmt cs) <> [] /\ cm_nbpriv (r_cmt cs) = 0%nat /\ cm_index (r_cmt cs) = nb_public cs /\ nb_public cs < wires cs) ->
  fst (p2n (E := E) p1 r1 p2 f) <> Panic.
Proof.
  intros. eapply p2n_no_panic; eauto. destruct H7 as [H7|[? [? [? ?]]]]; [now apply splits_nocmt|now apply splits_pubcmt].
Qed.
