(* ProcUses.v -- a process looks at the files it uses only and changes no others; processes that have nothing to do
   with each other. *)
From Coq Require Import String.
From Verif Require Import Base Fld Conc Parallel IO Ext Spec1 Phase1 Gob Circuit Spec2 Phase2 Fs Init2 Keys Live LiveCmd LiveLemmas LiveClaims LiveTwin Spec5 Spec6 Cli CliClaims Session Spec10 Locality Proc ProcLemmas.

Definition agree (U : string -> Prop) (f g : fs) : Prop := forall q, U q -> f q = g q.
Inductive uses {A} (U W : string -> Prop) : proc A -> Prop :=
| u_done a : uses U W (Done a)
| u_step k : (forall f q, ~ W q -> fst (k f) q = f q) -> (forall f, uses U W (snd (k f))) ->
    (forall f f', agree U f f' -> snd (k f) = snd (k f') /\ agree U (fst (k f)) (fst (k f'))) -> uses U W (Step k).

Section Uses.
Variables U W : string -> Prop.
Hypothesis WU : forall q, W q -> U q.
Lemma uses_join {A B} (p : proc A) (g : A -> proc B) : uses U W p -> (forall a, uses U W (g a)) -> uses U W (pjoin p g).
Proof.
  intros H G. induction H as [a|k C _ IH D]; cbn [pjoin]; [apply G|]. constructor.
  - intros f q N. specialize (C f q N). destruct (k f); exact C.
  - intros f. specialize (IH f). destruct (k f). exact IH.
  - intros f f' K. destruct (D f f' K) as [D1 D2]. destruct (k f), (k f'). cbn [fst snd] in *. split; [now rewrite D1|exact D2].
Qed.
(* one step on the world *)
Definition like (w w' : world) : Prop := own w = own w' /\ agree U (w_fs w) (w_fs w').
Definition polite {Y} (g : world -> Y * world) : Prop :=
  (forall w q, ~ W q -> w_fs (snd (g w)) q = w_fs w q) /\
  forall w w', like w w' -> fst (g w) = fst (g w') /\ like (snd (g w)) (snd (g w')).
Lemma uses_step {A Y} (g : world -> Y * world) l (k : Y -> loc -> proc A) : polite g -> (forall y l, uses U W (k y l)) ->
  uses U W (Step (fun f => let '(y, w) := g (in_world l f) in (w_fs w, k y (own w)))).
Proof.
  intros [P Q] K. constructor.
  - intros f q N. specialize (P (in_world l f) q N). destruct (g (in_world l f)). exact P.
  - intros f. destruct (g (in_world l f)). apply K.
  - intros f f' H. destruct (Q (in_world l f) (in_world l f')) as [Q1 [Q2 Q3]]; [split; [reflexivity|exact H]|].
    destruct (g (in_world l f)), (g (in_world l f')). cbn [fst snd] in *. subst. rewrite Q2. split; [reflexivity|exact Q3].
Qed.
Lemma polite_skip {Y} (g : world -> Y * world) : (forall w, snd (g w) = w) -> (forall w w', like w w' -> fst (g w) = fst (g w')) -> polite g.
Proof. intros S F. split; [intros w q _; now rewrite S|]. intros w w' H. rewrite !S. auto. Qed.
Lemma polite_ret {Y} (y : Y) : polite (fun w => (y, w)). Proof. now apply polite_skip. Qed.
Lemma polite_then {Y Z} (g : world -> Y * world) (k : Y -> world -> Z * world) : polite g -> (forall y, polite (k y)) ->
  polite (fun w => let '(y, w') := g w in k y w').
Proof.
  intros [P1 P2] K. split.
  - intros w q N. specialize (P1 w q N). destruct (g w) as [y v]. cbn [snd] in P1. rewrite (proj1 (K y) v q N). exact P1.
  - intros w w' H. destruct (P2 w w' H) as [A B]. destruct (g w) as [y v], (g w') as [y' v']. cbn [fst snd] in *. subst y'. now apply (K y).
Qed.
Lemma polite_os dev p d : (forall q, p = Some q -> W q) -> polite (os_write dev p d).
Proof.
  intros P. destruct p as [p|]; [|apply (polite_ret (true, length d))]. specialize (P p eq_refl). split.
  - intros w q N. cbn [os_write snd w_fs]. unfold fset. destruct (String.eqb_spec p q) as [->|]; [contradiction|reflexivity].
  - intros w w' [O A]. injection O as O1 O2 O3. cbn [os_write]. rewrite O1, O2, O3. unfold contents. rewrite (A p (WU p P)). split; [reflexivity|].
    split; [reflexivity|]. intros q Q. cbn [snd w_fs]. unfold fset. destruct (String.eqb_spec p q) as [->|]; [reflexivity|auto].
Qed.
Lemma polite_flush dev x : (forall q, o_path x = Some q -> W q) -> polite (bw_flush dev x).
Proof.
  intros P. unfold bw_flush. destruct (o_bad x); [apply polite_ret|]. destruct (o_buf x) as [|b l]; [apply polite_ret|].
  pose proof (polite_then (os_write dev (o_path x) (b :: l)) (fun y w => (fst y, mkO (o_path x) (o_cap x) (if fst y then [] else skipn (snd y) (b :: l)) (negb (fst y)), w))
    (polite_os dev _ _ P) (fun y => polite_ret _)) as [H1 H2]. split.
  - intros w q N. specialize (H1 w q N). destruct (os_write dev (o_path x) (b :: l) w) as [[ok n] v]. exact H1.
  - intros w w' K. specialize (H2 w w' K). destruct (os_write dev (o_path x) (b :: l) w) as [[ok n] v], (os_write dev (o_path x) (b :: l) w') as [[ok' n'] v']. exact H2.
Qed.
Lemma polite_direct dev d x : (forall q, o_path x = Some q -> W q) -> polite (bw_direct dev d x).
Proof.
  intros P. unfold bw_direct.
  pose proof (polite_then (os_write dev (o_path x) d) (fun y w => (fst y, mkO (o_path x) (o_cap x) [] (negb (fst y)), w)) (polite_os dev _ _ P) (fun y => polite_ret _)) as [H1 H2]. split.
  - intros w q N. specialize (H1 w q N). destruct (os_write dev (o_path x) d w) as [[ok n] v]. exact H1.
  - intros w w' K. specialize (H2 w w' K). destruct (os_write dev (o_path x) d w) as [[ok n] v], (os_write dev (o_path x) d w') as [[ok' n'] v']. exact H2.
Qed.
Lemma polite_hflush dev x : (forall q, o_path x = Some q -> W q) -> polite (h_flush dev x).
Proof. intros P. unfold h_flush. destruct (o_cap x); [apply polite_ret|now apply polite_flush]. Qed.
Lemma polite_write dev d x : (forall q, o_path x = Some q -> W q) -> polite (h_write dev d x).
Proof.
  intros P. unfold h_write. destruct (o_cap x) as [|cap] eqn:CX.
  { pose proof (polite_then (os_write dev (o_path x) d) (fun y w => (fst y, x, w)) (polite_os dev _ _ P) (fun y => polite_ret _)) as [H1 H2]. split.
    - intros w q N. specialize (H1 w q N). destruct (os_write dev (o_path x) d w) as [[ok n] v]. exact H1.
    - intros w w' K. specialize (H2 w w' K). destruct (os_write dev (o_path x) d w) as [[ok n] v], (os_write dev (o_path x) d w') as [[ok' n'] v']. exact H2. }
  unfold bw_write. destruct (o_bad x); [apply polite_ret|]. destruct (length d <=? _); [apply polite_ret|]. destruct (o_buf x) as [|b l]; [now apply polite_direct|].
  set (y := mkO (o_path x) (o_cap x) _ false).
  assert (PY : polite (bw_flush dev y)) by now apply polite_flush.
  set (k := fun (z : bool * ohandle) (w : world) => let '(ok, x1) := z in if ok : bool then
        if length (skipn (o_cap x - length (b :: l)) d) <=? o_cap x1 then (true, mkO (o_path x1) (o_cap x1) (skipn (o_cap x - length (b :: l)) d) false, w)
        else bw_direct dev (skipn (o_cap x - length (b :: l)) d) (mkO (o_path x) (o_cap x1) (o_buf x1) (o_bad x1)) w
      else (false, x1, w)).
  assert (EQ : forall w, (let '(ok, x1, w) := bw_flush dev y w in if ok : bool then
        if length (skipn (o_cap x - length (b :: l)) d) <=? o_cap x1 then (true, mkO (o_path x1) (o_cap x1) (skipn (o_cap x - length (b :: l)) d) false, w)
        else bw_direct dev (skipn (o_cap x - length (b :: l)) d) x1 w
      else (false, x1, w)) = let '(z, w') := bw_flush dev y w in k z w').
  { intros w. pose proof (proj2 (bw_flush_grows dev y w)) as Q. destruct (bw_flush dev y w) as [[ok x1] v]. cbn [fst snd] in Q. unfold k.
    destruct ok; [|reflexivity]. destruct (_ <=? _); [reflexivity|]. change (o_path y) with (o_path x) in Q. rewrite <- Q. now destruct x1. }
  assert (PK : polite (fun w => let '(z, w') := bw_flush dev y w in k z w')).
  { apply polite_then; [exact PY|]. intros [ok x1]. unfold k. destruct ok; [|apply polite_ret]. destruct (_ <=? _); [apply polite_ret|]. now apply polite_direct. }
  destruct PK as [K1 K2]. split.
  - intros w q N. rewrite EQ. now apply K1.
  - intros w w' H. rewrite !EQ. now apply K2.
Qed.

Definition outs_in (hs : handles) : Prop := forall k q, paths hs k = Some q -> W q.
Definition ins_in (hs : handles) : Prop := forall h, U (i_path (geti h hs)).
Lemma uses_runh {X} dev (p : io X) : forall hs l, outs_in hs -> (noread p \/ ins_in hs) -> uses U W (prunh dev p hs l).
Proof.
  assert (SI : forall h i hs, ins_in hs -> i_path i = i_path (geti h hs) -> ins_in (seti h i hs)).
  { intros h i hs H Q h'. rewrite geti_seti. destruct (Bool.eqb h h') eqn:B; [|apply H]. rewrite Q. apply H. }
  assert (SO : forall o x hs, outs_in hs -> o_path x = o_path (h_out hs o) -> outs_in (seto o x hs)).
  { intros o x hs H Q k q. unfold paths, seto. cbn [h_out]. destruct (Nat.eqb_spec o k) as [->|]; [rewrite Q|]; apply H. }
  induction p as [a|e| |h k c IH|h z c IH|h n c IH|h n c IH|o n c IH|o c IH|o d c IH]; intros hs l O N; cbn [prunh]; try constructor.
  - intros f q _. destruct (l_read k f (geti h hs)). reflexivity.
  - intros f. destruct N as [N|N]; [inversion N|]. pose proof (l_read_path k f (geti h hs)) as P. destruct (l_read k f (geti h hs)) as [x i]. cbn [snd] in *.
    apply IH; [destruct h; exact O|right; now apply SI].
  - intros f f' H. destruct N as [N|N]; [inversion N|]. rewrite (l_read_same k f f'); [destruct (l_read k f' (geti h hs)); split; [reflexivity|exact H]|].
    unfold contents. now rewrite (H _ (N h)).
  - destruct (z <? 0)%Z.
    + apply IH; [exact O|]. destruct N as [N|N]; [left; now inversion N|now right].
    + apply IH; [destruct h; exact O|]. destruct N as [N|N]; [left; now inversion N|right; now apply SI].
  - apply IH; [destruct h; exact O|]. destruct N as [N|N]; [left; now inversion N|right; now apply SI].
  - apply IH; [destruct h; exact O|]. destruct N as [N|N]; [left; now inversion N|right; now apply SI].
  - apply IH; [now apply SO|]. destruct N as [N|N]; [left; now inversion N|right; exact N].
  - intros f q K. pose proof (proj1 (polite_hflush dev (h_out hs o) (O o)) (in_world l f) q K) as P. destruct (h_flush dev (h_out hs o) (in_world l f)) as [[ok x] w]. exact P.
  - intros f. pose proof (proj2 (h_flush_grows dev (h_out hs o) (in_world l f))) as Q. destruct (h_flush dev (h_out hs o) (in_world l f)) as [[ok x] w]. cbn [fst snd] in *.
    apply IH; [now apply SO|]. destruct N as [N|N]; [left; now inversion N|right; exact N].
  - intros f f' H. destruct (proj2 (polite_hflush dev (h_out hs o) (O o)) (in_world l f) (in_world l f')) as [Q1 [Q2 Q3]]; [split; [reflexivity|exact H]|].
    destruct (h_flush dev (h_out hs o) (in_world l f)) as [[ok x] w], (h_flush dev (h_out hs o) (in_world l f')) as [[ok' x'] w']. cbn [fst snd] in *.
    injection Q1 as <- <-. rewrite Q2. split; [reflexivity|exact Q3].
  - intros f q K. pose proof (proj1 (polite_write dev d (h_out hs o) (O o)) (in_world l f) q K) as P. destruct (h_write dev d (h_out hs o) (in_world l f)) as [[ok x] w]. exact P.
  - intros f. pose proof (proj2 (h_write_grows dev d (h_out hs o) (in_world l f))) as Q. destruct (h_write dev d (h_out hs o) (in_world l f)) as [[ok x] w]. cbn [fst snd] in *.
    apply IH; [now apply SO|]. destruct N as [N|N]; [left; now inversion N|right; exact N].
  - intros f f' H. destruct (proj2 (polite_write dev d (h_out hs o) (O o)) (in_world l f) (in_world l f')) as [Q1 [Q2 Q3]]; [split; [reflexivity|exact H]|].
    destruct (h_write dev d (h_out hs o) (in_world l f)) as [[ok x] w], (h_write dev d (h_out hs o) (in_world l f')) as [[ok' x'] w']. cbn [fst snd] in *.
    injection Q1 as <- <-. rewrite Q2. split; [reflexivity|exact Q3].
Qed.

Lemma uses_run {X} dev (p : io X) hs l : outs_in hs -> (noread p \/ ins_in hs) -> uses U W (prun dev p hs l).
Proof. intros O N. unfold prun. apply uses_join; [now apply uses_runh|]. intros [[r hs1] l1]. constructor. Qed.

(* commands *)
Definition keeps {X} (c : pcmd X) : Prop := forall l, uses U W (c l).
Lemma keeps_bind {X Y} (c : pcmd X) (k : X -> pcmd Y) : keeps c -> (forall x, keeps (k x)) -> keeps (pbind c k).
Proof. intros C K l. apply uses_join; [apply C|]. intros [[x|e|] l1]; [apply K|constructor|constructor]. Qed.
Lemma keeps_ret {X} (x : X) : keeps (pret x). Proof. intros l. constructor. Qed.
Lemma keeps_fail {X} e : keeps (pfail (X := X) e). Proof. intros l. constructor. Qed.
Lemma keeps_boom {X} : keeps (pboom (X := X)). Proof. intros l. constructor. Qed.
Lemma keeps_atomic {X} (c : lcmd X) : polite c -> keeps (atomic c).
Proof. intros P l. unfold atomic. apply (uses_step c l (fun r l1 => Done (r, l1)) P). constructor. Qed.
Lemma keeps_open p : U p -> keeps (popen p).
Proof. intros H. apply keeps_atomic, polite_skip; [reflexivity|]. intros w w' [_ A]. unfold lopen. cbn [fst]. now rewrite (A p H). Qed.
Lemma keeps_create dev p : W p -> keeps (pcreate dev p).
Proof.
  intros H. apply keeps_atomic. unfold lcreate. split.
  - intros w q N. destruct (can_create _ _ _); [|reflexivity]. cbn [snd w_fs]. unfold fset. destruct (String.eqb_spec p q) as [->|]; [contradiction|reflexivity].
  - intros w w' [O A]. injection O as O1 O2 O3. rewrite O1, O2, O3. destruct (can_create _ _ _); (split; [reflexivity|]); (split; [cbn [snd]; unfold own; cbn [w_used w_calls w_ops]; first [reflexivity|now rewrite O1, O2, O3]|]).
    + intros q Q. cbn [snd w_fs]. unfold fset. destruct (String.eqb_spec p q); [reflexivity|auto].
    + exact A.
Qed.
Lemma keeps_stage_at {X} dev (p : io X) a b ps : (forall k q, ps k = Some q -> W q) -> (noread p \/ U a /\ U b) -> keeps (pstage_at dev p a b ps).
Proof. intros P N l. apply uses_run; [exact P|]. destruct N as [N|[A B]]; [now left|right]. intros [|]; assumption. Qed.
Lemma keeps_stage {X} dev (p : io X) a b outs : (forall q, In q outs -> W q) -> (noread p \/ U a /\ U b) -> keeps (pstage dev p a b outs).
Proof.
  intros P N. change (pstage dev p a b outs) with (pstage_at dev p a b (nth_error outs)). apply keeps_stage_at; [|exact N].
  intros k q K. apply P. eapply nth_error_In. exact K.
Qed.
Lemma keeps_hold {X} dev (p : io X) a b outs : (forall q, In q outs -> W q) -> (noread p \/ U a /\ U b) -> keeps (phold dev p a b outs).
Proof.
  intros P N l. unfold phold. apply uses_join; [|intros [[r hs1] l1]; constructor]. apply uses_runh.
  - intros k q K. apply P. eapply nth_error_In. exact K.
  - destruct N as [N|[A B]]; [now left|right]. intros [|]; assumption.
Qed.
Lemma keeps_res {X} (r : res X) : keeps (pres r). Proof. intros l. constructor. Qed.
Lemma keeps_defer {X} (c : pcmd X) d : keeps c -> keeps d -> keeps (pdefer c d).
Proof. intros C D l. unfold pdefer. apply uses_join; [apply C|]. intros [r l1]. apply uses_join; [apply D|]. intros [u l2]. constructor. Qed.
Lemma keeps_flush dev p x : W p -> keeps (pflush dev p x).
Proof.
  intros H. apply keeps_atomic. unfold lflush.
  destruct (polite_hflush dev (mkO (Some p) (o_cap x) (o_buf x) (o_bad x))) as [A B]; [intros q Q; injection Q as <-; exact H|].
  split; [intros w q N; cbn [snd]; now apply A|]. intros w w' K. cbn [fst snd]. split; [reflexivity|]. now apply B.
Qed.

Section Cmd.
Context {E : Ext2}.
Variables (dev : device) (bs : nat) (v : inv E).
Ltac ks := lazymatch goal with
  | |- keeps (pbind _ _) => apply keeps_bind; [ks|intros ?; ks]
  | |- keeps (popen _) => apply keeps_open; auto
  | |- keeps (pcreate _ _) => apply keeps_create; auto
  | |- keeps (pret _) => apply keeps_ret
  | |- keeps (pstage _ _ _ _ _) => apply keeps_stage; [cbn [In]; intuition (subst; auto)|auto]
  | |- keeps (pstage_at _ _ _ _ _) => apply keeps_stage_at; [intros [|[|[|[|k]]]] q K; cbn in K; try discriminate; injection K as <-; auto|auto]
  | |- _ => idtac
  end.
Lemma keeps_one {X} (p : io X) ip op : U ip -> W op -> keeps (p_one dev p ip op).
Proof. intros A B. unfold p_one. ks. Qed.
Lemma keeps_initialize {E1 : Ext2} pw op : W op -> keeps (p_initialize (E := E1) dev pw op).
Proof. intros B. unfold p_initialize. apply keeps_bind; [ks|intros _]. apply keeps_stage; [intros q [<-|[]]; exact B|]. left. apply noread_initialize. Qed.
Lemma keeps_r1cs p : U p -> keeps (p_read_r1cs (E := E) p).
Proof.
  intros A. unfold p_read_r1cs. ks. apply keeps_atomic, polite_skip; [intros w; destruct (parse_r1cs _); reflexivity|].
  intros w w' [_ L]. unfold contents. rewrite (L p A). now destruct (parse_r1cs _).
Qed.
Lemma keeps_steps circuit cons nb p1 p2 : keeps circuit -> U p1 -> W p2 -> W lag_path -> W evals_path -> keeps (p_init_steps (E := E) dev circuit cons nb p1 p2).
Proof.
  intros C A B L V. unfold p_init_steps. cbv zeta. apply keeps_bind; [exact C|intros cs]. apply keeps_bind; [ks|intros [pw h]].
  apply keeps_bind; [unfold p_lagrange; destruct (new_domain (E := E) (h_domain h)); [ks|apply keeps_boom]|intros _].
  do 3 (apply keeps_bind; [ks|intros _]). apply keeps_bind; [exact C|intros cs2]. do 3 (apply keeps_bind; [ks|intros _]). apply keeps_bind; [exact C|intros cs3]. ks.
Qed.
Lemma keeps_p2n p1 r1 p2 : U p1 -> U r1 -> W p2 -> W lag_path -> W evals_path -> keeps (p_p2n (E := E) dev p1 r1 p2).
Proof. intros A R B L V. unfold p_p2n. do 2 (apply keeps_bind; [ks|intros _]). apply keeps_steps; auto. now apply keeps_r1cs. Qed.
Lemma keeps_p2np (cs : r1cs E) p1 p2 nb : U p1 -> W p2 -> W lag_path -> W evals_path -> keeps (p_p2np dev cs p1 p2 nb).
Proof. intros A B L V. unfold p_p2np. do 2 (apply keeps_bind; [ks|intros _]). apply keeps_steps; auto. apply keeps_ret. Qed.
Lemma keeps_creates names : forall p, keeps p -> (forall n, In n names -> W n) -> keeps (fold_left (fun c n => pbind c (fun _ => pcreate dev n)) names p).
Proof.
  induction names as [|n names IH]; intros p H N; [exact H|]. cbn [fold_left]. apply IH; [|intros m M; apply N; now right].
  apply keeps_bind; [exact H|intros _]. apply keeps_create. apply N. now left.
Qed.
Lemma keeps_keys wr (g sg : E) p : U p -> U evals_path -> W pk_path -> W vk_path -> keeps (p_keys dev wr g sg p).
Proof. intros A V P K. unfold p_keys, p_pk, p_vk, p_header. ks. Qed.
Lemma keeps_split_keys wr (g sg : E) p s : U p -> U evals_path -> (forall n, In n (split_names s) -> W n) -> W (vks_path s) -> W (ckey_path s) ->
  keeps (p_split_keys dev wr g sg p s).
Proof.
  intros A V N K C. unfold p_split_keys. apply keeps_bind; [|intros _].
  - unfold p_split_pk, p_header. cbv zeta. do 3 (apply keeps_bind; [ks|intros _]). apply keeps_bind; [apply keeps_creates; [apply keeps_ret|exact N]|intros _].
    apply keeps_stage; auto.
  - unfold p_split_vk, p_header. cbv zeta. do 4 (apply keeps_bind; [ks|intros ?]).
    apply keeps_bind; [apply keeps_hold; [intros q [<-|[]]; exact K|auto]|intros y]. apply keeps_defer; [|now apply keeps_flush].
    apply keeps_bind; [apply keeps_res|intros ck]. apply keeps_bind; [ks|intros _]. apply keeps_stage; [intros q [<-|[]]; exact C|]. left.
    apply noread_bind; [apply noread_write_|intros _; apply noread_write].
Qed.
Lemma keeps_verify ip tp : U ip -> U tp -> keeps (p_verify dev bs v ip tp).
Proof.
  intros A B. unfold p_verify. apply keeps_bind; [ks|intros _]. apply keeps_bind.
  - apply keeps_atomic, polite_skip; [reflexivity|]. intros w w' [_ L]. cbn [fst]. now rewrite (L tp B).
  - intros t. apply keeps_stage; [intros q []|]. right. split; [exact A|]. now destruct tp.
Qed.
Lemma keeps_verify1 ip : U ip -> keeps (p_verify dev bs v ip EmptyString).
Proof.
  intros A. unfold p_verify. apply keeps_bind; [ks|intros _]. apply keeps_bind.
  - apply keeps_atomic, polite_skip; reflexivity.
  - intros t. apply keeps_stage; [intros q []|]. right. split; exact A.
Qed.
Lemma keeps_verify2 ip op : U ip -> U op -> keeps (p_verify2 dev bs v ip op).
Proof. intros A B. unfold p_verify2. ks. Qed.
Lemma keeps_sol s : U (vks_path s) -> W (sol_path s) -> keeps (p_sol dev v s).
Proof.
  intros A B. unfold p_sol. apply keeps_bind.
  - apply keeps_atomic, polite_skip; [reflexivity|]. intros w w' [_ L]. cbn [fst]. now rewrite (L _ A).
  - intros text l. apply uses_join; [|intros [[x|e|] l1]; constructor].
    assert (K : keeps (pbind (pcreate dev (sol_path s)) (fun _ => pstage dev (write 0 text) EmptyString EmptyString [sol_path s]))); [|apply K].
    apply keeps_bind; [ks|intros _]. apply keeps_stage; [intros q [<-|[]]; exact B|]. left. apply noread_write.
Qed.
Lemma keeps_quiet p : keeps p -> keeps (pquiet p).
Proof. intros H. unfold pquiet. apply keeps_bind; [exact H|intros _; apply keeps_ret]. Qed.
Lemma keeps_int s k : (forall z, keeps (k z)) -> keeps (pint s k).
Proof. intros H. unfold pint. destruct (atoi s); [apply H|apply keeps_fail]. Qed.
Lemma keeps_tool n a : (forall q, In q (inputs n a) -> U q) -> (forall q, In q (outputs n a) -> W q) -> keeps (ptool dev bs v n a).
Proof.
  intros S T. unfold ptool. destruct (find (fun x => String.eqb (fst x) n) (ptable dev bs v)) as [[m act]|] eqn:F; [|apply keeps_fail].
  apply find_some in F as [J Q]. cbn [fst] in Q. apply String.eqb_eq in Q. subst m.
  cbn [ptable In] in J.
  destruct J as [J|[J|[J|[J|[J|[J|[J|[J|[J|[J|[J|[J|[]]]]]]]]]]]]]; injection J as <- <-.
  - destruct a as [|x [|o [|? ?]]]; try apply keeps_fail. apply keeps_int. intros z. destruct (z >? 26)%Z; [apply keeps_fail|].
    apply keeps_quiet, keeps_initialize. apply T. now left.
  - destruct a as [|x [|o [|? ?]]]; try apply keeps_fail. apply keeps_bind; [|intros h; apply keeps_ret].
    apply (keeps_one (contribute bs (v_w v)) x o); [apply S|apply T]; now left.
  - destruct a as [|x [|? ?]]; try apply keeps_fail. apply keeps_verify1. apply S. now left.
  - destruct a as [|x [|o [|s [|t [|? ?]]]]]; try apply keeps_fail. apply keeps_int. intros i. apply keeps_int. intros j.
    destruct (i <? j)%Z; [apply keeps_fail|]. apply keeps_quiet. apply (keeps_one (transform (E := E) (to_byte i) (to_byte j)) x o); [apply S|apply T]; now left.
  - destruct a as [|x [|o [|? ?]]]; try apply keeps_fail. apply keeps_verify; apply S; [now left|right; now left].
  - destruct a as [|x [|r [|o [|? ?]]]]; try apply keeps_fail. apply keeps_quiet. apply keeps_p2n; [apply S|apply S|apply T|apply T|apply T]; cbn; tauto.
  - destruct a as [|x [|r [|o [|s [|t [|u [|? ?]]]]]]]; try apply keeps_fail. do 3 (apply keeps_int; intros ?). apply keeps_quiet.
    apply keeps_p2np; [apply S|apply T|apply T|apply T]; cbn; tauto.
  - destruct a as [|x [|o [|? ?]]]; try apply keeps_fail. apply keeps_bind; [|intros h; apply keeps_ret].
    apply (keeps_one (contribute2 bs (v_d v) (v_s v)) x o); [apply S|apply T]; now left.
  - destruct a as [|x [|o [|? ?]]]; try apply keeps_fail. apply keeps_verify2; apply S; [now left|right; now left].
  - destruct a as [|x [|? ?]]; try apply keeps_fail. apply keeps_quiet. apply keeps_keys; [apply S|apply S|apply T|apply T]; cbn; tauto.
  - destruct a as [|x [|o [|? ?]]]; try apply keeps_fail. apply keeps_quiet. cbn -[append] in S, T.
    apply keeps_split_keys; [apply S; tauto|apply S; tauto| |apply T|apply T]; [intros q Q; apply T; cbn -[append] in Q| |]; unfold vks_path, ckey_path; tauto.
  - destruct a as [|x [|? ?]]; try apply keeps_fail. apply keeps_quiet, keeps_sol; [apply S|apply T]; now left.
Qed.
End Cmd.
End Uses.

(* ---- several of them ---- *)
Fixpoint steps {A} (n : nat) (p : proc A) (f : fs) : fs * proc A :=
  match n with 0 => (f, p) | S m => let '(f', p') := step1 p f in steps m p' f' end.
Lemma steps_done {A} n (a : A) f : steps n (Done a) f = (f, Done a).
Proof. induction n as [|n IH]; [reflexivity|exact IH]. Qed.
Lemma steps_solo {A} n : forall (p : proc A) f, let '(f', p') := steps n p f in solo p' f' = solo p f.
Proof.
  induction n as [|n IH]; intros p f; [reflexivity|]. cbn [steps]. destruct p as [a|k]; cbn [step1]; [apply IH|]. cbn [solo].
  destruct (k f) as [f' p']. apply IH.
Qed.
Lemma finishes {A} (p : proc A) : forall f, exists m, forall n, (m <= n)%nat -> steps n p f = (snd (solo p f), Done (fst (solo p f))).
Proof.
  induction p as [a|k IH] using proc_rect'; intros f.
  - exists 0%nat. intros n _. apply steps_done.
  - specialize (IH f (fst (k f))) as [m H]. exists (S m). intros [|n] L; [lia|]. cbn [steps step1 solo]. destruct (k f) as [f' p']. cbn [fst snd] in H. apply H. lia.
Qed.
Lemma upd_same {A} i (x : A) : forall l y, nth_error l i = Some y -> nth_error (upd i x l) i = Some x.
Proof. induction i as [|i IH]; intros [|z l] y H; try discriminate H; [reflexivity|]. cbn [upd nth_error]. now apply (IH l y). Qed.
Lemma upd_other {A} i j (x : A) : i <> j -> forall l, nth_error (upd i x l) j = nth_error l j.
Proof.
  revert j. induction i as [|i IH]; intros [|j] N [|z l]; try reflexivity; [congruence|]. cbn [upd nth_error]. apply IH. congruence.
Qed.
Lemma together_apart {A} (U W : nat -> string -> Prop) : forall sch (ps : list (proc A)) f (g : nat -> fs),
  (forall i q, W i q -> U i q) -> (forall i j q, i <> j -> W i q -> ~ U j q) ->
  (forall i p, nth_error ps i = Some p -> uses (U i) (W i) p /\ agree (U i) f (g i)) ->
  let '(ps', f') := together sch ps f in
  (forall i p, nth_error ps i = Some p -> let '(h, p') := steps (count_occ Nat.eq_dec sch i) p (g i) in
     nth_error ps' i = Some p' /\ agree (U i) f' h) /\
  forall q, (forall i p, nth_error ps i = Some p -> ~ W i q) -> f' q = f q.
Proof.
  intros sch. induction sch as [|i sch IH]; intros ps f g WU D H; cbn [together].
  - split; [|reflexivity]. intros i p P. split; [exact P|]. exact (proj2 (H i p P)).
  - destruct (nth_error ps i) as [p|] eqn:P.
    2: { specialize (IH ps f g WU D H). destruct (together sch ps f) as [ps' f']. destruct IH as [IH1 IH2]. split; [|exact IH2].
         intros j p Q. cbn [count_occ]. destruct (Nat.eq_dec i j) as [->|N]; [congruence|]. exact (IH1 j p Q). }
    destruct (H i p P) as [HU HA].
    assert (ST : uses (U i) (W i) (snd (step1 p f)) /\ snd (step1 p (g i)) = snd (step1 p f) /\ agree (U i) (fst (step1 p f)) (fst (step1 p (g i))) /\
      forall q, ~ W i q -> fst (step1 p f) q = f q).
    { inversion HU as [a Q|k K1 K2 K3 Q]; subst; cbn [step1 fst snd]; [repeat split; auto|]. destruct (K3 _ _ HA) as [S1 S2]. repeat split; auto. }
    destruct (step1 p f) as [f1 p1] eqn:S1, (step1 p (g i)) as [g1 p1'] eqn:S2. cbn [fst snd] in ST. destruct ST as [T1 [-> [T2 T3]]].
    specialize (IH (upd i p1 ps) f1 (fun j => if j =? i then g1 else g j) WU D).
    assert (H' : forall j p0, nth_error (upd i p1 ps) j = Some p0 -> uses (U j) (W j) p0 /\ agree (U j) f1 (if j =? i then g1 else g j)).
    { intros j p0 Q. destruct (Nat.eqb_spec j i) as [->|N].
      - rewrite (upd_same i p1 ps p P) in Q. injection Q as <-. auto.
      - rewrite upd_other in Q by congruence. destruct (H j p0 Q) as [X1 X2]. split; [exact X1|]. intros q Y. rewrite T3; [now apply X2|].
        intros Z. exact (D i j q (not_eq_sym N) Z Y). }
    specialize (IH H'). destruct (together sch (upd i p1 ps) f1) as [ps' f'] eqn:R. destruct IH as [IH1 IH2]. split.
    + intros j p0 Q. cbn [count_occ]. destruct (Nat.eq_dec i j) as [<-|N].
      * rewrite P in Q. injection Q as <-. cbn [steps]. rewrite S2. specialize (IH1 i p1 (upd_same i p1 ps p P)). rewrite Nat.eqb_refl in IH1. exact IH1.
      * specialize (IH1 j p0). rewrite upd_other in IH1 by exact N. specialize (IH1 Q). destruct (Nat.eqb_spec j i) as [->|]; [congruence|exact IH1].
    + intros q Q. rewrite IH2; [apply T3, (Q i p P)|]. intros j p0 X. destruct (Nat.eq_dec i j) as [<-|N]; [exact (Q i p P)|].
      rewrite upd_other in X by exact N. exact (Q j p0 X).
Qed.
