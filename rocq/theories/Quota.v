(* Quota.v -- a disk with room for all that a command writes is as good as one without limits. *)
From Coq Require Import String.
From Verif Require Import Base Fld Conc Parallel IO Ext Spec1 Phase1 Gob Circuit Spec2 Phase2 Fs Init2 Spec3 Spec4 Keys Live LiveLemmas LiveCmd LiveClaims LiveTwin
  Spec5 Spec6 Cli CliClaims Spec15.
Local Open Scope lcmd_scope.

Lemma ops_bytes_app l l' : ops_bytes (l ++ l') = ops_bytes l + ops_bytes l'.
Proof. induction l as [|o l IH]; [reflexivity|]. cbn [app ops_bytes]. lia. Qed.

Section Quota.
Variable C : nat.
(* g on a disk without limits, g' on one with C bytes *)
Definition quo {Y} (g g' : world -> Y * world) : Prop := forall w,
  w_used w <= w_used (snd (g w)) /\ w_used w + ops_bytes (w_ops (snd (g w))) = w_used (snd (g w)) + ops_bytes (w_ops w) /\
  (w_used (snd (g w)) <= C -> g' w = g w).
Lemma quo_skip {Y} (g : world -> Y * world) : (forall w, snd (g w) = w) -> quo g g.
Proof. intros H w. rewrite H. split; [lia|]. split; [lia|auto]. Qed.
Lemma quo_ret {Y} (y : Y) : quo (fun w => (y, w)) (fun w => (y, w)). Proof. now apply quo_skip. Qed.
Lemma quo_then {Y Z} (g g' : world -> Y * world) (k k' : Y -> world -> Z * world) : quo g g' -> (forall y, quo (k y) (k' y)) ->
  quo (fun w => let '(y, w1) := g w in k y w1) (fun w => let '(y, w1) := g' w in k' y w1).
Proof.
  intros G K w. destruct (G w) as [A [B D]]. destruct (g w) as [y w1] eqn:GW. cbn [snd] in *. destruct (K y w1) as [A1 [B1 D1]].
  split; [lia|]. split; [lia|]. intros H. rewrite D by lia. now apply D1.
Qed.
Lemma quo_os p d : quo (os_write no_limit p d) (os_write (disk C) p d).
Proof.
  intros w. destruct p as [p|]; [|split; [cbn; lia|]; split; [cbn; lia|reflexivity]].
  unfold os_write, no_limit, disk. cbn [takes snd w_used w_ops]. rewrite Nat.min_id, firstn_all, ops_bytes_app. cbn [ops_bytes op_bytes].
  split; [lia|]. split; [lia|]. intros H. rewrite Nat.min_l by lia. now rewrite firstn_all.
Qed.
Lemma quo_direct d x : quo (bw_direct no_limit d x) (bw_direct (disk C) d x).
Proof. unfold bw_direct. apply (quo_then _ _ (fun y w => let '(ok, _) := y in (ok, _, w)) (fun y w => let '(ok, _) := y in (ok, _, w)) (quo_os (o_path x) d)). intros [ok n]. apply quo_ret. Qed.
Lemma quo_bflush x : quo (bw_flush no_limit x) (bw_flush (disk C) x).
Proof.
  unfold bw_flush. destruct (o_bad x); [apply quo_ret|]. destruct (o_buf x) as [|b l]; [apply quo_ret|].
  apply (quo_then _ _ (fun y w => let '(ok, n) := y in (ok, mkO (o_path x) (o_cap x) (if ok : bool then [] else skipn n (b :: l)) (negb ok), w))
    (fun y w => let '(ok, n) := y in (ok, mkO (o_path x) (o_cap x) (if ok : bool then [] else skipn n (b :: l)) (negb ok), w)) (quo_os (o_path x) (b :: l))).
  intros [ok n]. apply quo_ret.
Qed.
Lemma quo_flush x : quo (h_flush no_limit x) (h_flush (disk C) x).
Proof. unfold h_flush. destruct (o_cap x); [apply quo_ret|apply quo_bflush]. Qed.
Lemma quo_write d x : quo (h_write no_limit d x) (h_write (disk C) d x).
Proof.
  unfold h_write. destruct (o_cap x) as [|cap].
  { apply (quo_then _ _ (fun y w => let '(ok, _) := y in (ok, x, w)) (fun y w => let '(ok, _) := y in (ok, x, w)) (quo_os (o_path x) d)). intros [ok n]. apply quo_ret. }
  unfold bw_write. destruct (o_bad x); [apply quo_ret|]. destruct (length d <=? _); [apply quo_ret|]. destruct (o_buf x) as [|b l]; [apply quo_direct|].
  match goal with |- context [bw_flush no_limit ?y] =>
    apply (quo_then _ _ (fun z w => let '(ok, x1) := z in if ok : bool then
      if length (skipn (o_cap x - length (b :: l)) d) <=? o_cap x1 then (true, mkO (o_path x1) (o_cap x1) (skipn (o_cap x - length (b :: l)) d) false, w)
      else bw_direct no_limit (skipn (o_cap x - length (b :: l)) d) x1 w else (false, x1, w))
    (fun z w => let '(ok, x1) := z in if ok : bool then
      if length (skipn (o_cap x - length (b :: l)) d) <=? o_cap x1 then (true, mkO (o_path x1) (o_cap x1) (skipn (o_cap x - length (b :: l)) d) false, w)
      else bw_direct (disk C) (skipn (o_cap x - length (b :: l)) d) x1 w else (false, x1, w)) (quo_bflush y)) end.
  intros [ok x1]. destruct ok; [|apply quo_ret]. destruct (_ <=? _); [apply quo_ret|apply quo_direct].
Qed.
Lemma quo_run {X} (p : io X) : forall hs, quo (lrun no_limit p hs) (lrun (disk C) p hs).
Proof.
  induction p as [a|e| |h k c IH|h z c IH|h n c IH|h n c IH|o n c IH|o c IH|o d c IH]; intros hs; cbn [lrun]; try apply quo_ret; try apply IH.
  - intros w. destruct (l_read k (w_fs w) (geti h hs)) as [x i]. apply IH.
  - destruct (z <? 0)%Z; apply IH.
  - apply (quo_then _ _ (fun y w => let '(ok, x) := y in lrun no_limit (c ok) (seto o x hs) w) (fun y w => let '(ok, x) := y in lrun (disk C) (c ok) (seto o x hs) w) (quo_flush (h_out hs o))).
    intros [ok x]. apply IH.
  - apply (quo_then _ _ (fun y w => let '(ok, x) := y in lrun no_limit (c ok) (seto o x hs) w) (fun y w => let '(ok, x) := y in lrun (disk C) (c ok) (seto o x hs) w) (quo_write d (h_out hs o))).
    intros [ok x]. apply IH.
Qed.

(* commands *)
Lemma quo_bind {X Y} (c c' : lcmd X) (k k' : X -> lcmd Y) : quo c c' -> (forall x, quo (k x) (k' x)) -> quo (lbind c k) (lbind c' k').
Proof.
  intros A B. unfold lbind.
  apply (quo_then _ _ (fun r w => match r with Ok x => k x w | Err e => (Err e, w) | Panic => (Panic, w) end)
    (fun r w => match r with Ok x => k' x w | Err e => (Err e, w) | Panic => (Panic, w) end) A).
  intros [x|e|]; [apply B|apply quo_ret|apply quo_ret].
Qed.
Lemma quo_create p : quo (lcreate no_limit p) (lcreate (disk C) p).
Proof.
  intros w. unfold lcreate. cbn [no_limit disk can_create snd w_used w_ops]. rewrite ops_bytes_app. cbn [ops_bytes op_bytes]. split; [lia|]. split; [lia|reflexivity].
Qed.
Lemma quo_stage {X} (p : io X) a b l : quo (lstage no_limit p a b l) (lstage (disk C) p a b l).
Proof.
  unfold lstage. apply (quo_then _ _ (fun y w => let '(r, _) := y in (r, w)) (fun y w => let '(r, _) := y in (r, w)) (quo_run p (fresh a b l))). intros [r hs]. apply quo_ret.
Qed.
Lemma quo_stage_at {X} (p : io X) a b l : quo (lstage_at no_limit p a b l) (lstage_at (disk C) p a b l).
Proof.
  unfold lstage_at. apply (quo_then _ _ (fun y w => let '(r, _) := y in (r, w)) (fun y w => let '(r, _) := y in (r, w)) (quo_run p (fresh_at a b l))). intros [r hs]. apply quo_ret.
Qed.
Lemma quo_hold {X} (p : io X) a b l : quo (lhold no_limit p a b l) (lhold (disk C) p a b l).
Proof.
  unfold lhold. apply (quo_then _ _ (fun y w => let '(r, hs) := y in (Ok (r, h_out hs 0), w)) (fun y w => let '(r, hs) := y in (Ok (r, h_out hs 0), w)) (quo_run p (fresh a b l))).
  intros [r hs]. apply quo_ret.
Qed.
Lemma quo_lflush p x : quo (lflush no_limit p x) (lflush (disk C) p x).
Proof.
  intros w. unfold lflush. cbn [snd]. destruct (quo_flush (mkO (Some p) (o_cap x) (o_buf x) (o_bad x)) w) as [A [B D]]. split; [exact A|]. split; [exact B|].
  intros H. now rewrite D.
Qed.
Lemma quo_defer {X} (c c' : lcmd X) d d' : quo c c' -> quo d d' -> quo (ldefer c d) (ldefer c' d').
Proof.
  intros A B. unfold ldefer. apply (quo_then _ _ (fun r w => (r, snd (d w))) (fun r w => (r, snd (d' w))) A). intros r w. destruct (B w) as [B1 [B2 B3]]. cbn [snd].
  split; [exact B1|]. split; [exact B2|]. intros H. now rewrite B3.
Qed.
End Quota.

Ltac qq := repeat first [apply quo_create | apply quo_stage | apply quo_stage_at | apply quo_hold | apply quo_lflush | apply quo_defer | apply quo_bind; [|intros ?] | apply quo_skip; reflexivity].
Section Tool.
Context {E : Ext2}.
Variables (C bs : nat) (v : inv E).
Lemma quo_one {X} (p : io X) ip op : quo C (l_one no_limit p ip op) (l_one (disk C) p ip op).
Proof. unfold l_one. qq. Qed.
Lemma quo_quiet (c c' : lcmd unit) : quo C c c' -> quo C (quiet c) (quiet c').
Proof. intros H. unfold quiet. apply quo_bind; [exact H|intros _; now apply quo_skip]. Qed.
Lemma quo_int s (k k' : Z -> lcmd (list bytes)) : (forall z, quo C (k z) (k' z)) -> quo C (int_arg s k) (int_arg s k').
Proof. intros H. unfold int_arg. destruct (atoi s); [apply H|now apply quo_skip]. Qed.
Lemma quo_lagrange p1 p2 pw h : quo C (l_lagrange (E := E) no_limit p1 p2 pw h) (l_lagrange (E := E) (disk C) p1 p2 pw h).
Proof. unfold l_lagrange. destruct (new_domain (E := E) (h_domain h)); qq. Qed.
Lemma quo_r1cs p : quo C (l_read_r1cs (E := E) p) (l_read_r1cs p).
Proof. unfold l_read_r1cs. apply quo_bind; [now apply quo_skip|intros _]. apply quo_skip. intros w. now destruct (parse_r1cs _). Qed.
Lemma quo_steps circuit cons nb p1 p2 : quo C circuit circuit -> quo C (l_init_steps (E := E) no_limit circuit cons nb p1 p2) (l_init_steps (E := E) (disk C) circuit cons nb p1 p2).
Proof.
  intros H. unfold l_init_steps. cbv zeta. apply quo_bind; [exact H|intros cs]. apply quo_bind; [apply quo_stage|intros [pw h]].
  apply quo_bind; [apply quo_lagrange|intros _]. do 3 (apply quo_bind; [qq|intros _]). apply quo_bind; [exact H|intros cs2].
  do 3 (apply quo_bind; [qq|intros _]). apply quo_bind; [exact H|intros cs3]. qq.
Qed.
Lemma quo_p2n p1 r1 p2 : quo C (l_p2n (E := E) no_limit p1 r1 p2) (l_p2n (E := E) (disk C) p1 r1 p2).
Proof. unfold l_p2n. do 2 (apply quo_bind; [qq|intros _]). apply quo_steps, quo_r1cs. Qed.
Lemma quo_p2np (cs : r1cs E) p1 p2 nb : quo C (l_p2np no_limit cs p1 p2 nb) (l_p2np (disk C) cs p1 p2 nb).
Proof. unfold l_p2np. do 2 (apply quo_bind; [qq|intros _]). apply quo_steps. now apply quo_skip. Qed.
Lemma quo_pk p : quo C (l_pk (E := E) no_limit p) (l_pk (E := E) (disk C) p).
Proof. unfold l_pk, l_header. qq. Qed.
Lemma quo_vk wr g s p : quo C (l_vk (E := E) no_limit wr g s p) (l_vk (E := E) (disk C) wr g s p).
Proof. unfold l_vk, l_header. qq. Qed.
Lemma quo_creates names : forall c c', quo C c c' ->
  quo C (fold_left (fun c n => c ;;; lcreate no_limit n) names c) (fold_left (fun c n => c ;;; lcreate (disk C) n) names c').
Proof. induction names as [|n names IH]; intros c c' H; [exact H|]. cbn [fold_left]. apply IH. apply quo_bind; [exact H|intros _; apply quo_create]. Qed.
Lemma quo_split_pk p s : quo C (l_split_pk (E := E) no_limit p s) (l_split_pk (E := E) (disk C) p s).
Proof.
  unfold l_split_pk, l_header. cbv zeta. do 3 (apply quo_bind; [qq|intros _]). apply quo_bind; [apply quo_creates; now apply quo_skip|intros _]. qq.
Qed.
Lemma quo_split_vk wr g sg p s : quo C (l_split_vk (E := E) no_limit wr g sg p s) (l_split_vk (E := E) (disk C) wr g sg p s).
Proof. unfold l_split_vk, l_header. cbv zeta. do 5 (apply quo_bind; [qq|intros ?]). apply quo_defer; [|apply quo_lflush]. qq. Qed.

Ltac arity := cbv beta iota delta [a_p1n a_p1c a_p1v a_p1t a_p1vt a_p2n a_p2np a_p2c a_p2v a_extract a_extracts a_sol];
  lazymatch goal with |- quo _ usage _ => now apply quo_skip | _ => idtac end.
Lemma quo_tool n a : quo C (tool no_limit bs v n a) (tool (disk C) bs v n a).
Proof.
  unfold tool, table. cbn [find fst].
  destruct (String.eqb "p1n" n).
  { destruct a as [|x [|o [|? ?]]]; arity. apply quo_int. intros z. destruct (z >? 26)%Z; [now apply quo_skip|]. apply quo_quiet. unfold l_initialize. qq. }
  destruct (String.eqb "p1c" n).
  { destruct a as [|x [|o [|? ?]]]; arity. apply quo_bind; [|intros ?; now apply quo_skip]. exact (quo_one (contribute bs (v_w v)) x o). }
  destruct (String.eqb "p1v" n).
  { destruct a as [|x [|? ?]]; arity. unfold l_verify. apply quo_bind; [now apply quo_skip|intros _]. intros w. apply quo_stage. }
  destruct (String.eqb "p1t" n).
  { destruct a as [|x [|o [|s [|t [|? ?]]]]]; arity. apply quo_int. intros i. apply quo_int. intros j.
    destruct (i <? j)%Z; [now apply quo_skip|]. apply quo_quiet. exact (quo_one (transform (E := E) (to_byte i) (to_byte j)) x o). }
  destruct (String.eqb "p1vt" n).
  { destruct a as [|x [|o [|? ?]]]; arity. unfold l_verify. apply quo_bind; [now apply quo_skip|intros _]. intros w. apply quo_stage. }
  destruct (String.eqb "p2n" n).
  { destruct a as [|x [|r [|o [|? ?]]]]; arity. apply quo_quiet, quo_p2n. }
  destruct (String.eqb "p2np" n).
  { destruct a as [|x [|r [|o [|s [|t [|u [|? ?]]]]]]]; arity. do 3 (apply quo_int; intros ?). apply quo_quiet, quo_p2np. }
  destruct (String.eqb "p2c" n).
  { destruct a as [|x [|o [|? ?]]]; arity. apply quo_bind; [|intros ?; now apply quo_skip]. exact (quo_one (contribute2 bs (v_d v) (v_s v)) x o). }
  destruct (String.eqb "p2v" n).
  { destruct a as [|x [|o [|? ?]]]; arity. unfold l_verify2. qq. }
  destruct (String.eqb "key" n).
  { destruct a as [|x [|? ?]]; arity. apply quo_quiet. unfold l_keys. apply quo_bind; [apply quo_pk|intros _; apply quo_vk]. }
  destruct (String.eqb "keys" n).
  { destruct a as [|x [|o [|? ?]]]; arity. apply quo_quiet. unfold l_split_keys. apply quo_bind; [apply quo_split_pk|intros _; apply quo_split_vk]. }
  destruct (String.eqb "sol" n); [|now apply quo_skip].
  destruct a as [|s [|? ?]]; arity. apply quo_quiet. unfold l_sol. intros w.
  destruct (match w_fs w (vks_path s) with Some b => v_sol v b | None => None end) as [text|]; [|cbn [snd]; split; [lia|]; split; [lia|reflexivity]].
  match goal with |- context [lbind (lcreate no_limit ?p) ?k] => assert (Q : quo C (lbind (lcreate no_limit p) k) (lcreate (disk C) p ;;; lstage (disk C) (write 0 text) EmptyString EmptyString [p])) by qq end.
  destruct (Q w) as [A [B D]]. destruct (lbind (lcreate no_limit _) _ w) as [[x|e|] w1]; cbn [snd] in *; (split; [exact A|]); (split; [exact B|]); intros H; now rewrite D by exact H.
Qed.
End Tool.
