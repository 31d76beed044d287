(* OffCmd.v -- the commands of Off.v and Proc.v side by side. *)
From Coq Require Import String.
From Verif Require Import Base Fld Conc Parallel IO Ext Spec1 Phase1 Gob Circuit Spec2 Phase2 Fs Init2 Keys Live LiveCmd LiveLemmas LiveClaims LiveTwin Spec5 Spec6 Cli CliClaims Session Spec10 Locality Proc ProcLemmas ProcUses Off OffLemmas.

(* output o is open at the end of the o-th file of l *)
Definition slots_ok (l : list string) (offs : nat -> nat) (f : fs) : Prop := forall o p, nth_error l o = Some p -> offs o = length (contents f p).
Lemma nth_error_inj (l : list string) : NoDup l -> forall o o' p, nth_error l o = Some p -> nth_error l o' = Some p -> o = o'.
Proof. intros N o o' p A B. apply (NoDup_nth_error l); [exact N|apply nth_error_Some; congruence|congruence]. Qed.

Lemma NoDup_front (a b : list string) : NoDup (a ++ b) -> NoDup a.
Proof.
  induction a as [|x a IH]; intros N; [constructor|]. inversion N as [|? ? N1 N2]; subst. constructor; [|auto]. intros H. apply N1, in_or_app. now left.
Qed.
Section Cmd.
Variable W : string -> Prop.
(* J holds as long as the files of K stay as they are *)
Variables (K : string -> Prop) (J : fs -> Prop).
Hypothesis KW : forall q, K q -> W q.
Hypothesis JK : forall f g, agree K f g -> J f -> J g.
Definition good (l : list string) : Prop := NoDup l /\ (forall p, In p l -> W p /\ ~ K p).
Lemma J_agree f g : agree W f g -> J f -> J g. Proof. intros A. apply JK. intros q Q. apply A. auto. Qed.
Lemma slots_agree l offs f g : (forall p, In p l -> W p) -> agree W f g -> slots_ok l offs f -> slots_ok l offs g.
Proof. intros L A S o p P. rewrite (S o p P). unfold contents. rewrite (A p); [reflexivity|]. apply L. eapply nth_error_In, P. Qed.

Definition post {X Y} (Q : X -> Y -> (nat -> nat) -> fs -> Prop) (a : res X * (loc * (nat -> nat))) (b : res Y * loc) (f : fs) : Prop :=
  fst (snd a) = snd b /\ J f /\
  match fst a, fst b with Ok x, Ok y => Q x y (snd (snd a)) f | Err e, Err e' => e = e' | Panic, Panic => True | _, _ => False end.
Definition std {X} (l : list string) (x y : X) (offs : nat -> nat) (f : fs) : Prop := x = y /\ slots_ok l offs f.
Definition any {X} (x y : X) (offs : nat -> nat) (f : fs) : Prop := x = y.
Definition simc {X Y} (l : list string) (Q : X -> Y -> (nat -> nat) -> fs -> Prop) (c : fcmd X) (c' : pcmd Y) : Prop :=
  forall lo offs f, slots_ok l offs f -> J f -> sim W (post Q) (c (lo, offs)) (c' lo) f.

Lemma simc_bind {X Y X' Y'} l (P : X -> Y -> (nat -> nat) -> fs -> Prop) (Q : X' -> Y' -> (nat -> nat) -> fs -> Prop) c c' k k' :
  simc l P c c' -> (forall x y lo offs f, P x y offs f -> J f -> sim W (post Q) (k x (lo, offs)) (k' y lo) f) -> simc l Q (fbind c k) (pbind c' k').
Proof.
  intros C KK lo offs f S Jf. unfold fbind, pbind. eapply sim_join; [apply (C lo offs f S Jf)|]. intros [r [lo1 offs1]] [r' lo2] g (H1 & H2 & H3). cbn [fst snd] in *. subst lo2.
  destruct r as [x|e|], r' as [y|e'|]; try contradiction.
  - now apply KK.
  - subst. constructor. intros h G. split; [reflexivity|]. split; [now apply (J_agree g)|reflexivity].
  - constructor. intros h G. split; [reflexivity|]. split; [now apply (J_agree g)|exact Logic.I].
Qed.
Lemma simc_then {X X' Y'} l l1 (Q : X' -> Y' -> (nat -> nat) -> fs -> Prop) (c : fcmd X) c' k k' :
  simc l (std l1) c c' -> (forall x, simc l1 Q (k x) (k' x)) -> simc l Q (fbind c k) (pbind c' k').
Proof. intros C KK. eapply simc_bind; [exact C|]. intros x y lo offs f [<- S] Jf. now apply KK. Qed.
Lemma simc_skip {X} l (c : lcmd X) : good l -> (forall w, snd (c w) = w) -> simc l (std l) (fatomic c) (atomic c).
Proof.
  intros [_ G] H lo offs f S Jf. unfold fatomic, atomic. constructor.
  - intros g _. cbn [fst]. now destruct (c (in_world lo g)).
  - intros g q _. specialize (H (in_world lo g)). destruct (c (in_world lo g)) as [r w]. cbn [snd fst] in *. now subst w.
  - intros g A. cbn [fst]. specialize (H (in_world lo g)). destruct (c (in_world lo g)) as [r w]. cbn [snd fst] in *. subst w. constructor. cbn [w_fs in_world].
    intros h A'. split; [reflexivity|]. split; [eapply J_agree; [exact A'|eapply J_agree; [exact A|exact Jf]]|]. cbn [fst snd].
    destruct r; [|reflexivity|exact Logic.I]. split; [reflexivity|]. eapply slots_agree; [intros p P; now apply G|exact A'|]. eapply slots_agree; [intros p P; now apply G|exact A|exact S].
Qed.
Lemma simc_open l p : good l -> simc l (std l) (fopen p) (popen p).
Proof. intros G. now apply simc_skip. Qed.
Lemma simc_ret {X} l (x : X) : good l -> simc l (std l) (fret x) (pret x).
Proof.
  intros [_ G] lo offs f S Jf. constructor. intros g A. split; [reflexivity|]. split; [now apply (J_agree f)|]. split; [reflexivity|].
  eapply slots_agree; [intros p P; now apply G|exact A|exact S].
Qed.
Lemma simc_fail {X Y} l (Q : X -> Y -> (nat -> nat) -> fs -> Prop) e : simc l Q (ffail e) (pfail e).
Proof. intros lo offs f S Jf. constructor. intros g A. split; [reflexivity|]. split; [now apply (J_agree f)|reflexivity]. Qed.
Lemma simc_boom {X Y} l (Q : X -> Y -> (nat -> nat) -> fs -> Prop) : simc l Q fboom pboom.
Proof. intros lo offs f S Jf. constructor. intros g A. split; [reflexivity|]. split; [now apply (J_agree f)|exact Logic.I]. Qed.
Lemma sim_mono {A B} (R S : A -> B -> fs -> Prop) p q f : (forall a b f, R a b f -> S a b f) -> sim W R p q f -> sim W S p q f.
Proof. intros M H. induction H as [a b f H|k k' f H1 H2 H3 IH]; constructor; auto. Qed.
Lemma simc_any {X} l l1 (c : fcmd X) c' : simc l (std l1) c c' -> simc l any c c'.
Proof.
  intros C lo offs f S Jf. eapply sim_mono; [|apply (C lo offs f S Jf)]. intros a b g (P1 & P2 & P3). split; [exact P1|]. split; [exact P2|].
  destruct (fst a), (fst b); try exact P3. apply P3.
Qed.
Lemma simc_create dev l l1 o p : good l -> good l1 -> nth_error l1 o = Some p ->
  (forall o' q, o <> o' -> nth_error l1 o' = Some q -> nth_error l o' = Some q) -> simc l (std l1) (fcreate dev o p) (pcreate dev p).
Proof.
  intros [_ G] [N1 G1] P L lo offs f S Jf. unfold fcreate, pcreate, atomic.
  assert (Wp : W p /\ ~ K p) by (apply G1; eapply nth_error_In, P).
  constructor.
  - intros g _. cbn [fst]. now destruct (lcreate dev p (in_world lo g)).
  - intros g q Nq. unfold lcreate. destruct (can_create _ _ _); cbn; [|reflexivity]. unfold fset. destruct (String.eqb_spec p q) as [->|]; [tauto|reflexivity].
  - intros g A. cbn [fst snd]. unfold lcreate. destruct (can_create _ _ _); cbn [fst snd w_fs in_world].
    + constructor. intros h A'. split; [reflexivity|]. split.
      { eapply J_agree; [exact A'|]. apply (JK g); [|eapply J_agree; [exact A|exact Jf]]. intros q Q. unfold fset. destruct (String.eqb_spec p q) as [->|]; [tauto|reflexivity]. }
      cbn [fst snd]. split; [reflexivity|]. intros o' q Q. destruct (Nat.eqb_spec o o') as [->|No].
      * assert (q = p) by congruence. subst q. unfold contents. rewrite <- (A' p) by apply Wp. unfold fset. now rewrite String.eqb_refl.
      * rewrite (S o' q (L o' q No Q)). unfold contents. assert (Wq : W q) by (eapply G1, nth_error_In, Q). rewrite <- (A' q Wq), (A q Wq). unfold fset.
        destruct (String.eqb_spec p q) as [->|]; [|reflexivity]. elim No. eapply (nth_error_inj l1 N1); eassumption.
    + constructor. intros h A'. split; [reflexivity|]. split; [|reflexivity]. eapply J_agree; [exact A'|eapply J_agree; [exact A|exact Jf]].
Qed.

(* a stage *)
Lemma stage_sim {X} dev (p : io X) a b ps app l offs lo f : good l -> (forall o q, ps o = Some q -> nth_error l o = Some q) -> slots_ok l offs f -> J f ->
  sim W (stage_post ps app offs (fun g => slots_ok l offs f -> (forall o q, ps o = None -> nth_error l o = Some q -> offs o = length (contents g q)) /\ J g))
    (frunh dev p (opened a b ps app offs) lo) (prunh dev p (fresh_at a b ps) lo) f.
Proof.
  intros [N G] P S Jf. apply sim_runh.
  - intros o o' q A B. apply (nth_error_inj l N o o' q); auto.
  - intros o q A. eapply G, nth_error_In, P, A.
  - intros g h F H S'. destruct (H S') as [H1 H2]. split.
    + intros o q Z Q. rewrite (H1 o q Z Q). unfold contents. rewrite (F q); [reflexivity|eapply G, nth_error_In, Q|].
      intros o' A. assert (o = o') by (eapply (nth_error_inj l N); eauto). congruence.
    + apply (JK g); [|exact H2]. intros q Q. apply F; [auto|]. intros o A. destruct (G q) as [_ G2]; [eapply nth_error_In, P, A|]. contradiction.
  - constructor; try reflexivity; cbn.
    + intros o. repeat split.
    + intros o q n A B. cbn in A, B. destruct (app o); [discriminate|]. injection B as <-. apply S, P, A.
    + intros o. destruct (app o); split; congruence.
    + intros o _ ->. reflexivity.
    + intros _. split; [|exact Jf]. intros o q _ Q. now apply S.
Qed.
Lemma stage_slots {X} ps app l offs f0 (a : res X * fhandles * loc) b g : (forall o q, ps o = Some q -> nth_error l o = Some q) -> (forall o, app o = false) -> slots_ok l offs f0 ->
  stage_post ps app offs (fun g => slots_ok l offs f0 -> (forall o q, ps o = None -> nth_error l o = Some q -> offs o = length (contents g q)) /\ J g) a b g ->
  slots_ok l (offsets (snd (fst a)) offs) g.
Proof.
  intros P AP S (_ & _ & H) o q Q. unfold offsets. destruct (ps o) as [q'|] eqn:PO.
  - assert (q' = q) by (apply P in PO; congruence). subst q'. destruct (f_at (fh_out (snd (fst a)) o)) as [n|] eqn:A.
    + apply (ok_end _ _ _ _ _ _ _ H o q n); [rewrite (ok_path _ _ _ _ _ _ _ H); exact PO|exact A].
    + apply (ok_app _ _ _ _ _ _ _ H) in A. rewrite AP in A. discriminate.
  - rewrite (ok_none _ _ _ _ _ _ _ H o PO (AP o)). apply (proj1 (ok_I _ _ _ _ _ _ _ H S) o q PO Q).
Qed.
Lemma stage_agree {X} dev (p : io X) a b ps app l : good l -> (forall o q, ps o = Some q -> nth_error l o = Some q) -> (forall o, app o = false) ->
  simc l (std l) (fstage_at dev p a b ps app) (pstage_at dev p a b ps).
Proof.
  intros G P AP lo offs f S Jf. unfold fstage_at, pstage_at, prun. cbn [fst snd].
  eapply sim_join; [apply (stage_sim dev p a b ps app l offs lo f G P S Jf)|].
  intros [[r fhs] lo1] [[r' hs] lo2] g H. pose proof (stage_slots ps app l offs f _ _ g P AP S H) as SL. destruct H as (H1 & H2 & H3). cbn [fst snd] in *. subst.
  constructor. intros h A. split; [reflexivity|]. cbn [fst snd]. split; [eapply J_agree; [exact A|apply (ok_I _ _ _ _ _ _ _ H3 S)]|].
  destruct r'; [|reflexivity|exact Logic.I]. split; [reflexivity|]. eapply slots_agree; [intros q Q; now apply G|exact A|exact SL].
Qed.
Lemma simc_stage {X} dev (p : io X) a b l outs : good l -> (forall o q, nth_error outs o = Some q -> nth_error l o = Some q) -> simc l (std l) (fstage dev p a b outs) (pstage dev p a b outs).
Proof. intros G P. now apply stage_agree. Qed.
Lemma simc_stage_app {X} dev (p : io X) a b ps app l : good l -> (forall o q, ps o = Some q -> nth_error l o = Some q) ->
  simc l any (fstage_at dev p a b ps app) (pstage_at dev p a b ps).
Proof.
  intros G P lo offs f S Jf. unfold fstage_at, pstage_at, prun. cbn [fst snd].
  eapply sim_join; [apply (stage_sim dev p a b ps app l offs lo f G P S Jf)|].
  intros [[r fhs] lo1] [[r' hs] lo2] g H. destruct H as (H1 & H2 & H3). cbn [fst snd] in *. subst.
  constructor. intros h A. split; [reflexivity|]. cbn [fst snd]. split; [eapply J_agree; [exact A|apply (ok_I _ _ _ _ _ _ _ H3 S)]|].
  destruct r'; [|reflexivity|exact Logic.I]. reflexivity.
Qed.
Lemma simc_creates dev names : good names -> simc [] (std names) (fcreates dev names) (fold_left (fun c n => pbind c (fun _ => pcreate dev n)) names (pret tt)).
Proof.
  intros GN. unfold fcreates.
  assert (H : forall rest done c c', done ++ rest = names -> simc [] (std done) c c' ->
    simc [] (std names) (fold_left (fun c x => fbind c (fun _ => fcreate dev (fst x) (snd x))) (combine (seq (length done) (length rest)) rest) c)
      (fold_left (fun c n => pbind c (fun _ => pcreate dev n)) rest c')).
  { induction rest as [|n rest IH]; intros done c c' Q C; [rewrite app_nil_r in Q; subst; exact C|]. cbn [length seq combine fold_left fst snd].
    assert (Q' : (done ++ [n]) ++ rest = names) by (rewrite <- app_assoc; exact Q).
    assert (sub : forall d r, d ++ r = names -> good d).
    { intros d r <-. destruct GN as [N G]. split; [eapply NoDup_front; exact N|]. intros p P. apply G, in_or_app. now left. }
    specialize (IH (done ++ [n])). rewrite app_length in IH. cbn [length] in IH. replace (length done + 1) with (S (length done)) in IH by lia.
    apply IH; [exact Q'|]. eapply simc_then; [exact C|]. intros []. apply simc_create.
    - eapply sub, Q.
    - eapply sub, Q'.
    - rewrite nth_error_app2, Nat.sub_diag; [reflexivity|lia].
    - intros o' q No H. destruct (Nat.lt_ge_cases o' (length done)) as [L|L]; [now rewrite nth_error_app1 in H|]. rewrite nth_error_app2 in H by lia.
      destruct (o' - length done) as [|m] eqn:D; [lia|]. cbn in H. destruct m; discriminate H. }
  apply (H names [] _ _ eq_refl). apply simc_ret. split; [constructor|intros ? []].
Qed.

(* ---- the commands ---- *)
Section Tool.
Context {E : Ext2}.
Variable dev : device.
Lemma good_nil : good []. Proof. split; [constructor|intros ? []]. Qed.
Lemma good_one p : W p -> ~ K p -> good [p].
Proof. intros A B. split; [constructor; [intros []|constructor]|]. intros q [<-|[]]. now split. Qed.
Lemma simc_first l p : good l -> W p -> ~ K p -> simc l (std [p]) (fcreate dev 0 p) (pcreate dev p).
Proof. intros G A B. apply simc_create; [exact G|now apply good_one|reflexivity|]. intros [|o'] q N Q; [lia|]. destruct o'; discriminate Q. Qed.
Lemma sim_one {X} (p : io X) ip op : W op -> ~ K op -> simc [] (std [op]) (f_one dev p ip op) (p_one dev p ip op).
Proof.
  intros A B. unfold f_one, p_one. eapply simc_then; [apply simc_open, good_nil|intros []]. eapply simc_then; [apply simc_first; auto using good_nil|intros []].
  apply simc_stage; [now apply good_one|auto].
Qed.
Lemma sim_initialize pw op : W op -> ~ K op -> simc [] (std [op]) (f_initialize (E := E) dev pw op) (p_initialize (E := E) dev pw op).
Proof.
  intros A B. unfold f_initialize, p_initialize. eapply simc_then; [apply simc_first; auto using good_nil|intros []]. apply simc_stage; [now apply good_one|auto].
Qed.
Lemma sim_r1cs l p : good l -> simc l (std l) (f_read_r1cs (E := E) p) (p_read_r1cs (E := E) p).
Proof.
  intros G. unfold f_read_r1cs, p_read_r1cs. eapply simc_then; [now apply simc_open|intros []]. apply simc_skip; [exact G|]. intros w. now destruct (parse_r1cs _).
Qed.
Lemma sim_steps circuit circuit' cons nb p1 p2 : (forall l, good l -> simc l (std l) circuit circuit') -> good [p2; lag_path; evals_path] ->
  simc [p2] any (f_init_steps (E := E) dev circuit cons nb p1 p2) (p_init_steps (E := E) dev circuit' cons nb p1 p2).
Proof.
  intros C G. assert (G2 : good [p2; lag_path]).
  { destruct G as [N G]. split; [apply (NoDup_front [p2; lag_path] [evals_path] N)|]. intros p P. apply G. cbn in *. tauto. }
  assert (G1 : good [p2]).
  { destruct G as [N G]. split; [apply (NoDup_front [p2] [lag_path; evals_path] N)|]. intros p P. apply G. cbn in *. tauto. }
  unfold f_init_steps, p_init_steps. cbv zeta. eapply simc_then; [apply C, G1|intros cs]. eapply simc_then; [apply simc_stage; [exact G1|auto]|intros [pw h]].
  eapply simc_then.
  { unfold f_lagrange, p_lagrange. destruct (new_domain (E := E) (h_domain h)) as [k|]; [|apply simc_boom].
    eapply simc_then; [apply (simc_create dev [p2] [p2; lag_path]); auto|intros []].
    - intros [|[|o']] q No Q; [exact Q|lia|destruct o'; discriminate Q].
    - apply simc_stage; [exact G2|auto]. }
  intros []. eapply simc_then; [apply simc_open, G2|intros []].
  assert (PS : forall o q, outs_at [Some p2; None; Some evals_path] o = Some q -> nth_error [p2; lag_path; evals_path] o = Some q).
  { intros [|[|[|o]]] q Q; try exact Q; try discriminate Q. unfold outs_at in Q. cbn in Q. destruct o; discriminate Q. }
  eapply simc_then; [apply (simc_create dev [p2; lag_path] [p2; lag_path; evals_path]); auto|intros []].
  { intros [|[|[|o']]] q No Q; [exact Q|exact Q|lia|destruct o'; discriminate Q]. }
  eapply simc_then; [apply stage_agree; auto|intros []]. eapply simc_then; [apply C, G|intros cs2]. eapply simc_then; [apply stage_agree; auto|intros []].
  eapply simc_then; [apply stage_agree; auto|intros []]. eapply simc_then; [apply simc_open, G|intros []]. eapply simc_then; [apply C, G|intros cs3].
  apply (simc_stage_app dev _ _ _ _ _ _ G PS).
Qed.
Lemma sim_p2n p1 r1 p2 : good [p2; lag_path; evals_path] -> simc [] any (f_p2n (E := E) dev p1 r1 p2) (p_p2n (E := E) dev p1 r1 p2).
Proof.
  intros G. destruct (proj2 G p2 (or_introl eq_refl)). unfold f_p2n, p_p2n. eapply simc_then; [apply simc_open, good_nil|intros []].
  eapply simc_then; [apply simc_first; auto using good_nil|intros []]. apply sim_steps; [|exact G]. intros l Gl. now apply sim_r1cs.
Qed.
Lemma sim_p2np (cs : r1cs E) p1 p2 nb : good [p2; lag_path; evals_path] -> simc [] any (f_p2np dev cs p1 p2 nb) (p_p2np dev cs p1 p2 nb).
Proof.
  intros G. destruct (proj2 G p2 (or_introl eq_refl)). unfold f_p2np, p_p2np. eapply simc_then; [apply simc_open, good_nil|intros []].
  eapply simc_then; [apply simc_first; auto using good_nil|intros []]. apply sim_steps; [|exact G]. intros l Gl. now apply simc_ret.
Qed.
Lemma sim_header l p : good l -> simc l (std l) (f_header (E := E) dev p) (p_header (E := E) dev p).
Proof. intros G. apply simc_stage; [exact G|]. intros [|o] q Q; discriminate Q. Qed.
Lemma sim_keys wr (g sg : E) p : W pk_path -> ~ K pk_path -> W vk_path -> ~ K vk_path -> simc [] (std [vk_path]) (f_keys dev wr g sg p) (p_keys dev wr g sg p).
Proof.
  intros A1 A2 B1 B2. unfold f_keys, p_keys. apply (simc_then [] [pk_path]).
  - unfold f_pk, p_pk. do 2 (eapply simc_then; [apply simc_open, good_nil|intros []]). eapply simc_then; [apply sim_header, good_nil|intros _].
    eapply simc_then; [apply simc_first; auto using good_nil|intros []]. apply simc_stage; [now apply good_one|auto].
  - intros []. assert (G : good [pk_path]) by now apply good_one. unfold f_vk, p_vk. do 2 (eapply simc_then; [apply simc_open, G|intros []]). eapply simc_then; [apply sim_header, G|intros _].
    eapply simc_then; [apply simc_first; auto|intros []]. eapply simc_then; [apply simc_stage; [now apply good_one|auto]|intros _]. apply simc_ret. now apply good_one.
Qed.
Lemma sim_split_pk p s : good (split_names s) -> simc [] (std (split_names s)) (f_split_pk (E := E) dev p s) (p_split_pk (E := E) dev p s).
Proof.
  intros G. unfold f_split_pk, p_split_pk. cbv zeta. do 2 (eapply simc_then; [apply simc_open, good_nil|intros []]). eapply simc_then; [apply sim_header, good_nil|intros _].
  eapply simc_then; [now apply simc_creates|intros []]. apply simc_stage; auto.
Qed.
Lemma sim_ckey (r : res bytes) ckp : W ckp -> ~ K ckp -> simc [] any
  (fbind (fres r) (fun ck => fbind (fcreate dev 0 ckp) (fun _ => fstage dev (bind (write_ 0 ck) (fun _ => write 0 ck)) EmptyString EmptyString [ckp])))
  (pbind (pres r) (fun ck => pbind (pcreate dev ckp) (fun _ => pstage dev (bind (write_ 0 ck) (fun _ => write 0 ck)) EmptyString EmptyString [ckp]))).
Proof.
  intros A B. apply (simc_then [] []).
  - intros lo offs f S Jf. constructor. intros g Ag. split; [reflexivity|]. split; [now apply (J_agree f)|]. cbn. destruct r; [|reflexivity|exact Logic.I].
    split; [reflexivity|]. intros [|o] q Q; discriminate Q.
  - intros ck. apply (simc_any _ [ckp]). eapply simc_then; [apply simc_first; auto using good_nil|intros []]. apply simc_stage; [now apply good_one|auto].
Qed.
Variables (bs : nat) (v : inv E).
Lemma sim_verify ip tp : simc [] (std []) (f_verify dev bs v ip tp) (p_verify dev bs v ip tp).
Proof.
  unfold f_verify, p_verify. eapply simc_then; [apply simc_open, good_nil|intros []]. eapply simc_then; [apply simc_skip; [apply good_nil|reflexivity]|intros t].
  apply simc_stage; [apply good_nil|]. intros [|o] q Q; discriminate Q.
Qed.
Lemma sim_verify2 ip op : simc [] (std []) (f_verify2 dev bs v ip op) (p_verify2 dev bs v ip op).
Proof.
  unfold f_verify2, p_verify2. do 2 (eapply simc_then; [apply simc_open, good_nil|intros []]). apply simc_stage; [apply good_nil|]. intros [|o] q Q; discriminate Q.
Qed.
Lemma sim_sol s : W (sol_path s) -> ~ K (sol_path s) -> simc [] (std [sol_path s]) (f_sol dev v s) (p_sol dev v s).
Proof.
  intros A B. unfold f_sol, p_sol. eapply simc_then; [apply simc_skip; [apply good_nil|reflexivity]|intros text].
  intros lo offs f S Jf.
  assert (H : simc [] (std [sol_path s]) (fbind (fcreate dev 0 (sol_path s)) (fun _ => fstage dev (write 0 text) EmptyString EmptyString [sol_path s]))
    (pbind (pcreate dev (sol_path s)) (fun _ => pstage dev (write 0 text) EmptyString EmptyString [sol_path s]))).
  { eapply simc_then; [apply simc_first; auto using good_nil|intros []]. apply simc_stage; [now apply good_one|auto]. }
  eapply sim_join; [apply (H lo offs f S Jf)|]. intros [r [lo1 offs1]] [r' lo2] g (H1 & H2 & H3). cbn [fst snd] in *. subst lo2.
  destruct r as [x|e|], r' as [y|e'|]; try contradiction; constructor; intros h Ag; (split; [reflexivity|]); (split; [now apply (J_agree g)|]); cbn [fst snd]; [|exact Logic.I|exact Logic.I].
  destruct H3 as [-> H3]. split; [reflexivity|]. eapply slots_agree; [|exact Ag|exact H3]. intros q [<-|[]]. exact A.
Qed.
End Tool.
End Cmd.

(* keys.go:554-656: the first file stays open while the other one is written *)
Lemma sim_split_vk {E : Ext2} W dev wr (g sg : E) p s l : good W (fun _ => False) l -> W (vks_path s) -> W (ckey_path s) -> vks_path s <> ckey_path s ->
  simc W (fun _ => True) l any (f_split_vk dev wr g sg p s) (p_split_vk dev wr g sg p s).
Proof.
  intros G A B N.
  pose (KF := fun (q : string) (H : False) => match H return W q with end).
  assert (JT : forall f h : fs, agree (fun _ => False) f h -> True -> True) by auto.
  unfold f_split_vk, p_split_vk. cbv zeta.
  do 2 (eapply (simc_then W _ _ KF JT); [apply (simc_open W _ _ KF JT), G|intros []]).
  eapply (simc_then W _ _ KF JT); [apply (sim_header W _ _ KF JT), G|intros _].
  eapply (simc_then W _ _ KF JT); [apply (simc_first W _ _ KF JT dev l (vks_path s) G A); auto|intros []].
  assert (G1 : good W (fun _ => False) [vks_path s]) by (apply good_one; auto).
  eapply (simc_bind W _ _ KF JT) with (P := fun x y _ f => fst x = fst y /\ twin (snd x) (snd y) /\ at_end (snd x) f /\ f_path (snd x) = Some (vks_path s)).
  - intros lo offs f S _. unfold fhold, phold. cbn [fst snd].
    eapply sim_join; [apply (stage_sim W _ _ KF JT dev (extract_vk_open wr g sg) p evals_path (nth_error [vks_path s]) (fun _ => false) [vks_path s] offs lo f G1 (fun _ _ H => H) S Logic.I)|].
    intros [[r fhs] lo1] [[r' hs] lo2] h (H1 & H2 & H3). cbn [fst snd] in *. subst. constructor. intros h' Ag. split; [reflexivity|]. split; [exact Logic.I|]. cbn [fst snd].
    split; [reflexivity|]. split; [apply (ok_tw _ _ _ _ _ _ _ H3 0)|]. split; [|apply (ok_path _ _ _ _ _ _ _ H3 0)].
    intros q n P Q. rewrite (ok_end _ _ _ _ _ _ _ H3 0 q n P Q). rewrite (ok_path _ _ _ _ _ _ _ H3 0) in P. cbn in P. injection P as <-.
    unfold contents. now rewrite (Ag _ A).
  - intros [r x] [r' y] lo offs f (H1 & T & AE & P) _. cbn [fst snd] in *. subst r'.
    pose (K' := fun q => q = vks_path s). pose (J' := at_end x).
    assert (KW' : forall q, K' q -> W q) by (intros q ->; exact A).
    assert (JK' : forall f g, agree K' f g -> J' f -> J' g).
    { intros f1 f2 Ag H q n Q1 Q2. rewrite (H q n Q1 Q2). assert (q = vks_path s) by congruence. subst q. unfold contents. now rewrite (Ag (vks_path s) eq_refl). }
    pose proof (sim_ckey W K' J' KW' JK' dev r (ckey_path s) B (fun H => N (eq_sym H)) lo offs f) as C.
    unfold fdefer, pdefer. eapply sim_join; [apply C; [intros [|o] q Q; discriminate Q|exact AE]|].
    intros [r1 [lo1 offs1]] [r2 lo2] h (C1 & C2 & C3). cbn [fst snd] in C1, C3. subst lo2.
    eapply sim_join with (R := fun a b _ => fst (snd a) = snd b).
    + unfold fflush, pflush, atomic, lflush.
      replace (mkO (Some (vks_path s)) (o_cap y) (o_buf y) (o_bad y)) with y by (destruct T as (T1 & _); destruct y; cbn in *; congruence).
      assert (PY : forall q, o_path y = Some q -> W q) by (intros q Q; destruct T as (T1 & _); assert (q = vks_path s) by congruence; now subst).
      constructor.
      * intros k Ag. pose proof (hflush_twin dev x y (in_world lo1 k) T (JK' h k (fun q Q => Ag q (KW' q Q)) C2)) as F. cbn [fst].
        destruct (fh_flush dev x (in_world lo1 k)) as [[ok x'] w], (h_flush dev y (in_world lo1 k)) as [[ok' y'] w']. destruct F as (_ & -> & _). reflexivity.
      * intros k q Nq. pose proof (proj1 (polite_hflush W W (fun _ H => H) dev y PY) (in_world lo1 k) q Nq) as F. exact F.
      * intros k Ag. pose proof (hflush_twin dev x y (in_world lo1 k) T (JK' h k (fun q Q => Ag q (KW' q Q)) C2)) as F. cbn [fst].
        destruct (fh_flush dev x (in_world lo1 k)) as [[ok x'] w], (h_flush dev y (in_world lo1 k)) as [[ok' y'] w']. destruct F as (_ & -> & _). cbn [fst snd].
        constructor. reflexivity.
    + intros [u [lo3 offs3]] [u' lo4] k Q. cbn [fst snd] in Q. subst lo4. constructor. intros k' _. split; [reflexivity|]. split; [exact Logic.I|]. exact C3.
Qed.

(* ---- every command line ---- *)
Section Lines.
Context {E : Ext2}.
Variables (W : string -> Prop) (dev : device) (bs : nat) (v : inv E).
Let KF : forall q : string, False -> W q := fun q H => match H with end.
Let JT : forall f h : fs, agree (fun _ => False) f h -> True -> True := fun _ _ _ H => H.
Notation simT := (simc W (fun _ => True)).
Lemma sim_int s k k' : (forall z, simT [] any (k z) (k' z)) -> simT [] any (fint s k) (pint s k').
Proof. intros H. unfold fint, pint. destruct (atoi s); [apply H|apply (simc_fail W _ _ KF JT)]. Qed.
Lemma any_bind {X} (c : fcmd X) c' (k : X -> fcmd (list bytes)) k' : simT [] any c c' -> (forall x, simT [] any (k x) (k' x)) -> simT [] any (fbind c k) (pbind c' k').
Proof.
  intros C H. eapply (simc_bind W _ _ KF JT); [exact C|]. intros x y lo offs f Q _. unfold any in Q. subst y. apply H; [|exact Logic.I]. intros [|o] q P; discriminate P.
Qed.
Lemma any_ret {X} (x : X) : simT [] any (fret x) (pret x).
Proof. apply (simc_any W _ [] []). apply (simc_ret W _ _ KF JT). apply good_nil. Qed.
Lemma sim_quiet c c' : simT [] any c c' -> simT [] any (fquiet c) (pquiet c').
Proof. intros H. apply any_bind; [exact H|intros _; apply any_ret]. Qed.
Lemma sim_tool n a : NoDup (outputs n a) -> (forall q, In q (outputs n a) -> W q) -> simT [] any (ftool dev bs v n a) (ptool dev bs v n a).
Proof.
  intros N T.
  assert (GO : forall l, incl l (outputs n a) -> NoDup l -> good W (fun _ => False) l) by (intros l I D; split; [exact D|]; intros p P; split; [apply T, I, P|intros []]).
  unfold ftool, ptool. cbn [ptable ftable find fst].
  assert (FA : forall e, simT [] any (ffail (X := list bytes) e) (pfail e)) by (intros e; apply (simc_fail W _ _ KF JT)).
  destruct (String.eqb_spec "p1n" n) as [<-|_].
  { destruct a as [|x [|o [|? ?]]]; try apply FA. apply sim_int. intros z. destruct (z >? 26)%Z; [apply FA|].
    apply sim_quiet, (simc_any W _ _ [o]), (sim_initialize W _ _ KF JT); [apply T; now left|intros []]. }
  destruct (String.eqb_spec "p1c" n) as [<-|_].
  { destruct a as [|x [|o [|? ?]]]; try apply FA. apply any_bind; [|intros h; apply any_ret].
    apply (simc_any W _ _ [o]), (sim_one W _ _ KF JT); [apply T; now left|intros []]. }
  destruct (String.eqb_spec "p1v" n) as [<-|_].
  { destruct a as [|x [|? ?]]; try apply FA. apply (simc_any W _ _ []), (sim_verify W _ _ KF JT). }
  destruct (String.eqb_spec "p1t" n) as [<-|_].
  { destruct a as [|x [|o [|s [|t [|? ?]]]]]; try apply FA. apply sim_int. intros i. apply sim_int. intros z. destruct (i <? z)%Z; [apply FA|].
    apply sim_quiet, (simc_any W _ _ [o]), (sim_one W _ _ KF JT); [apply T; now left|intros []]. }
  destruct (String.eqb_spec "p1vt" n) as [<-|_].
  { destruct a as [|x [|t [|? ?]]]; try apply FA. apply (simc_any W _ _ []), (sim_verify W _ _ KF JT). }
  destruct (String.eqb_spec "p2n" n) as [<-|_].
  { destruct a as [|x [|r [|o [|? ?]]]]; try apply FA. apply sim_quiet, (sim_p2n W _ _ KF JT). apply GO; [intros q Q; exact Q|exact N]. }
  destruct (String.eqb_spec "p2np" n) as [<-|_].
  { destruct a as [|x [|r [|o [|s [|t [|u [|? ?]]]]]]]; try apply FA. do 3 (apply sim_int; intros ?). apply sim_quiet, (sim_p2np W _ _ KF JT).
    apply GO; [intros q Q; exact Q|exact N]. }
  destruct (String.eqb_spec "p2c" n) as [<-|_].
  { destruct a as [|x [|o [|? ?]]]; try apply FA. apply any_bind; [|intros h; apply any_ret].
    apply (simc_any W _ _ [o]), (sim_one W _ _ KF JT); [apply T; now left|intros []]. }
  destruct (String.eqb_spec "p2v" n) as [<-|_].
  { destruct a as [|x [|t [|? ?]]]; try apply FA. apply (simc_any W _ _ []), (sim_verify2 W _ _ KF JT). }
  destruct (String.eqb_spec "key" n) as [<-|_].
  { destruct a as [|x [|? ?]]; try apply FA. apply sim_quiet, (simc_any W _ _ [vk_path]), (sim_keys W _ _ KF JT); try (intros []); apply T; cbn; auto. }
  destruct (String.eqb_spec "keys" n) as [<-|_].
  { destruct a as [|x [|s [|? ?]]]; try apply FA. apply sim_quiet. unfold f_split_keys, p_split_keys.
    change (outputs "keys" [x; s]) with (split_names s ++ [vks_path s; ckey_path s]) in *.
    assert (GS : good W (fun _ => False) (split_names s)) by (apply GO; [intros q Q; apply in_or_app; now left|eapply NoDup_front; exact N]).
    eapply (simc_then W _ _ KF JT); [apply (sim_split_pk W _ _ KF JT), GS|intros []].
    apply sim_split_vk; [exact GS|apply T; apply in_or_app; right; now left|apply T; apply in_or_app; right; right; now left|].
    intros Q. rewrite Q in N. clear - N. induction (split_names s) as [|y l IH]; [|inversion N; auto]. inversion N as [|? ? N1 _]. apply N1. now left. }
  destruct (String.eqb_spec "sol" n) as [<-|_].
  { destruct a as [|s [|? ?]]; try apply FA. apply sim_quiet, (simc_any W _ _ [sol_path s]), (sim_sol W _ _ KF JT); [apply T; now left|intros []]. }
  apply FA.
Qed.
End Lines.

(* ---- several processes ---- *)
Lemma upd_length {A} i (x : A) : forall l, length (upd i x l) = length l.
Proof. induction i as [|i IH]; intros [|y l]; cbn; auto. Qed.
Lemma sim_together {A B} (R : A -> B -> fs -> Prop) (W : nat -> string -> Prop) : (forall i j q, i <> j -> W i q -> W j q -> False) ->
  forall sch (ps : list (proc A)) (qs : list (proc B)) f, length ps = length qs ->
  (forall i p q, nth_error ps i = Some p -> nth_error qs i = Some q -> sim (W i) R p q f) ->
  let '(ps', g) := together sch ps f in let '(qs', g') := together sch qs f in
  g = g' /\ length ps' = length qs' /\ forall i p q, nth_error ps' i = Some p -> nth_error qs' i = Some q -> sim (W i) R p q g.
Proof.
  intros D. induction sch as [|i sch IH]; intros ps qs f L H; [split; [reflexivity|now split]|]. cbn [together].
  destruct (nth_error ps i) as [p|] eqn:P; destruct (nth_error qs i) as [q|] eqn:Q.
  - pose proof (H i p q P Q) as S. destruct S as [a b f S|k k' f S1 S2 S3]; cbn [step1].
    + apply IH; [now rewrite !upd_length|]. intros j p' q'. destruct (Nat.eq_dec i j) as [<-|N].
      * rewrite (upd_same _ _ _ _ P), (upd_same _ _ _ _ Q). intros X Y. injection X as <-. injection Y as <-. now constructor.
      * rewrite !upd_other by exact N. apply H.
    + specialize (S1 f (agree_refl _ f)). specialize (S3 f (agree_refl _ f)). specialize (S2 f).
      destruct (k f) as [f1 p1], (k' f) as [f2 q1]. cbn [fst snd] in *. subst f1. apply IH; [now rewrite !upd_length|].
      intros j p' q'. destruct (Nat.eq_dec i j) as [<-|N].
      * rewrite (upd_same _ _ _ _ P), (upd_same _ _ _ _ Q). intros X Y. injection X as <-. injection Y as <-. exact S3.
      * rewrite !upd_other by exact N. intros X Y. eapply sim_agree; [eapply H; eassumption|]. intros x Wx. symmetry. apply S2. intros Wi. exact (D i j x N Wi Wx).
  - exfalso. apply nth_error_None in Q. assert (nth_error ps i <> None) by congruence. apply nth_error_Some in H0. lia.
  - exfalso. apply nth_error_None in P. assert (nth_error qs i <> None) by congruence. apply nth_error_Some in H0. lia.
  - now apply IH.
Qed.
