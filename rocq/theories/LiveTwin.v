(* LiveTwin.v -- whole commands: on a device that takes everything they are the commands of Fs.v; on
   any device they change nothing but their outputs. *)
From Coq Require String.
From Verif Require Import Base Fld Conc Parallel IO Ext Spec1 Phase1 Gob Circuit Spec2 Phase2 Spec3 Fs Init2 Spec4 Keys Phase1Io
  Phase1Verify Live LiveLemmas Sok LiveFail SokPrograms LiveCmd LiveClaims LiveMore LiveAgree KeysClaims.

Definition feq (f g : fs) : Prop := forall q, f q = g q.
Definition exist (ps : list string) (f : fs) : Prop := forall p, In p ps -> f p <> None.
Definition lref (ps ps' : list string) {X} (c : cmd X) (l : lcmd X) : Prop := forall f w, feq (w_fs w) f -> exist ps f ->
  fst (l w) = fst (c f) /\ feq (w_fs (snd (l w))) (snd (c f)) /\ (forall x, fst (c f) = Ok x -> exist ps' (snd (c f))).

Lemma fset_feq f g p b : feq f g -> feq (fset f p b) (fset g p b).
Proof. intros H q. unfold fset. destruct (String.eqb p q); auto. Qed.
Lemma contents_feq f g p : feq f g -> contents f p = contents g p.
Proof. intros H. unfold contents. now rewrite H. Qed.
Lemma lref_bind ps1 ps2 ps3 {X Y} (c : cmd X) l (k : X -> cmd Y) m : lref ps1 ps2 c l -> (forall x, lref ps2 ps3 (k x) (m x)) ->
  lref ps1 ps3 (cbind c k) (lbind l m).
Proof.
  intros A B f w Q X1. destruct (A f w Q X1) as [R1 [R2 R3]]. unfold cbind, lbind.
  destruct (c f) as [r f1]. destruct (l w) as [r' w1]. cbn [fst snd] in *. subst r'.
  destruct r as [x|e|]; [apply B; [exact R2|now apply (R3 x)]| |]; cbn [fst snd]; (split; [reflexivity|]); (split; [exact R2|]); discriminate.
Qed.
Lemma lref_open ps p : lref ps ps (copen p) (lopen p).
Proof. intros f w Q X1. cbn [copen lopen fst snd]. rewrite Q. auto. Qed.
Lemma lref_ret ps {X} (x : X) : lref ps ps (cret x) (lret x).
Proof. intros f w Q X1. cbn. auto. Qed.
Lemma lref_boom ps ps' {X} : lref ps ps' (cboom : cmd X) lboom.
Proof. intros f w Q X1. cbn. split; [auto|]. split; [auto|]. discriminate. Qed.
Lemma lref_create ps p : lref ps (p :: ps) (ccreate p) (lcreate no_limit p).
Proof.
  intros f w Q X1. cbn [ccreate lcreate can_create no_limit fst snd w_fs]. split; [reflexivity|]. split; [now apply fset_feq|]. intros _ _ q [<-|I].
  - rewrite fset_same. discriminate.
  - unfold fset. destruct (String.eqb p q); [discriminate|auto].
Qed.
Lemma wapply_exist outs W : forall f ps, exist ps f -> exist ps (wapply outs W f).
Proof.
  induction W as [|[o d] W IH]; intros f ps H; [exact H|]. change (exist ps (wapply outs W (wstep outs f (o, d)))). apply IH.
  unfold wstep. cbn [fst snd]. destruct (nth_error outs o) as [p|]; [|exact H]. intros q I. unfold fset. destruct (String.eqb p q); [discriminate|auto].
Qed.
Lemma lref_stage_at ps {X} (p : io X) m m' a b pt outs : agrees m p m' ->
  (forall k, match m k with Free => pt k = None | Un => pt k <> None /\ pt k = nth_error outs k | _ => False end) ->
  NoDup outs -> (forall k, pt k <> Some a /\ pt k <> Some b) -> (forall q, In q outs -> In q ps) ->
  lref ps ps (stage p a b outs) (lstage_at no_limit p a b pt).
Proof.
  intros A M ND NI S f w Q X1. destruct (lstage_at_stage p m m' a b pt outs A M ND NI f w Q ltac:(intros q I; auto)) as [R1 R2].
  split; [exact R1|]. split; [exact R2|]. intros _ _. unfold stage.
  destruct (run p (opened (contents f a), opened (contents f b))) as [[r s'] W]. cbn [snd]. now apply wapply_exist.
Qed.
Lemma lref_stage ps {X} (p : io X) m' a b outs : agrees (md (repeat Un (length outs))) p m' ->
  NoDup outs -> ~ In a outs -> ~ In b outs -> (forall q, In q outs -> In q ps) ->
  lref ps ps (stage p a b outs) (lstage no_limit p a b outs).
Proof.
  intros A ND NA NB S. change (lstage no_limit p a b outs) with (lstage_at no_limit p a b (nth_error outs)).
  eapply lref_stage_at; [exact A| |exact ND| |exact S].
  - clear. induction outs as [|p outs IH]; intros k; [unfold md; destruct k; reflexivity|].
    destruct k as [|k]; [split; [discriminate|reflexivity]|exact (IH k)].
  - intros k. split; intros H; apply nth_error_In in H; auto.
Qed.
Lemma lref_ext ps ps' {X} (c : cmd X) l l' : (forall w, l w = l' w) -> lref ps ps' c l -> lref ps ps' c l'.
Proof. intros H A f w Q X1. rewrite <- H. apply A; auto. Qed.

(* ---- commands with one input and one output ---- *)
Lemma one_exec {X} (p : io X) m' ip op f F r O : agrees (md [Un]) p m' -> ip <> op -> f ip = Some F -> exec p F F = (r, O) ->
  let '(r', w') := l_one no_limit p ip op (start f) in r' = r /\ w_fs w' op = Some O /\ forall q, q <> op -> w_fs w' q = f q.
Proof.
  intros A N HF R. pose proof (l_one_other no_limit p ip op f) as OT. rewrite (l_one_open no_limit p ip op f eq_refl) in * by congruence.
  assert (L : lref [op] [op] (stage p ip ip [op]) (lstage no_limit p ip ip [op])).
  { eapply lref_stage; [exact A|constructor; [intros []|constructor]| | |auto]; intros [K|[]]; congruence. }
  destruct (L (fset f op []) (created f op)) as [L1 [L2 _]]; [intros q; reflexivity|intros q [<-|[]]; rewrite fset_same; discriminate|].
  destruct (lstage no_limit p ip ip [op] (created f op)) as [r' w']. cbn [fst snd] in *. unfold stage in L1, L2.
  rewrite contents_other in L1, L2 by auto. assert (CI : contents f ip = F) by (unfold contents; now rewrite HF). rewrite CI in L1, L2.
  unfold exec in R. destruct (run p (opened F, opened F)) as [[r1 s1] W]. cbn [fst snd] in *. injection R as <- <-.
  split; [exact L1|]. split; [|intros q Q; now apply OT]. rewrite L2. 
  rewrite (wapply_at [op] W (fset f op []) 0 op); [now rewrite contents_same|constructor; [intros []|constructor]|reflexivity|rewrite fset_same; discriminate].
Qed.
Lemma c55_contribute {E : Ext} bs (w : @rnd1 E) ip op f F r O : ip <> op -> f ip = Some F -> exec (contribute bs w) F F = (r, O) ->
  let '(r', w') := l_contribute no_limit bs w ip op (start f) in r' = r /\ w_fs w' op = Some O /\ forall q, q <> op -> w_fs w' q = f q.
Proof. intros. eapply (one_exec (contribute bs w)); eauto using ag_contribute. Qed.
Lemma c55_contribute2 {E : Ext2} bs (d s : E) ip op f F r O : ip <> op -> f ip = Some F -> exec (contribute2 bs d s) F F = (r, O) ->
  let '(r', w') := l_contribute2 no_limit bs d s ip op (start f) in r' = r /\ w_fs w' op = Some O /\ forall q, q <> op -> w_fs w' q = f q.
Proof. intros. eapply (one_exec (contribute2 bs d s)); eauto using ag_contribute2. Qed.
Lemma c55_transform {E : Ext} a b ip op f F r O : ip <> op -> f ip = Some F -> exec (transform (E := E) a b) F F = (r, O) ->
  let '(r', w') := l_transform (E := E) no_limit a b ip op (start f) in r' = r /\ w_fs w' op = Some O /\ forall q, q <> op -> w_fs w' q = f q.
Proof. intros. eapply (one_exec (transform (E := E) a b)); eauto using ag_transform. Qed.

(* ---- phase 2 initialisation ---- *)
Section Cmds.
Context {E : Ext2}.
Lemma lref_r1cs ps p : lref ps ps (read_r1cs (E := E) p) (l_read_r1cs p).
Proof.
  eapply lref_bind; [apply lref_open|]. intros _ f w Q X1. rewrite (contents_feq _ _ p Q).
  destruct (parse_r1cs (contents f p)); cbn [fst snd]; auto.
Qed.
Lemma nodup3 (a b c : string) : a <> b -> a <> c -> b <> c -> NoDup [a; b; c].
Proof. intros. repeat constructor; cbn; intuition. Qed.
Lemma lref_steps ps circuit lcircuit cons nb p1 p2 : (forall ps, lref ps ps circuit lcircuit) -> In p2 ps ->
  p1 <> p2 -> p1 <> lag_path -> p1 <> evals_path -> p2 <> lag_path -> p2 <> evals_path ->
  lref ps (evals_path :: lag_path :: ps) (init_steps (E := E) circuit cons nb p1 p2) (l_init_steps no_limit lcircuit cons nb p1 p2).
Proof.
  intros C IP N1 N2 N3 N4 N5. assert (LE : lag_path <> evals_path) by discriminate.
  assert (ND : NoDup [p2; lag_path; evals_path]) by (apply nodup3; auto).
  assert (S3 : forall {X} (p : io X) m', agrees (md [Un; Free; Un]) p m' ->
    lref (evals_path :: lag_path :: ps) (evals_path :: lag_path :: ps) (stage p p1 lag_path [p2; lag_path; evals_path])
      (lstage_at no_limit p p1 lag_path (outs_at [Some p2; None; Some evals_path]))).
  { intros X p m' A. eapply lref_stage_at; [exact A| |exact ND| |].
    - intros [|[|[|k]]]; cbn; try (split; [discriminate|reflexivity]); try reflexivity. unfold md, outs_at. destruct k; reflexivity.
    - intros [|[|[|k]]]; cbn; split; try discriminate; try congruence; unfold outs_at; destruct k; discriminate.
    - intros q [<-|[<-|[<-|[]]]]; cbn; auto. }
  unfold init_steps, l_init_steps. eapply lref_bind; [apply C|]. intros cs.
  eapply lref_bind; [eapply lref_stage; [apply ag_process_header|constructor; [intros []|constructor]| | |]|].
  { intros [K|[]]; congruence. } { intros [K|[]]; congruence. } { intros q [<-|[]]. exact IP. }
  intros [pw h]. eapply (lref_bind ps (lag_path :: ps)).
  { unfold c_lagrange, l_lagrange. destruct (new_domain (E := E) (h_domain h)); [|apply lref_boom].
    eapply lref_bind; [apply lref_create|]. intros _. eapply lref_stage; [apply ag_lagrange| | | |].
    - constructor; [intros [K|[]]; congruence|constructor; [intros []|constructor]].
    - intros [K|[K|[]]]; congruence.
    - intros [K|[K|[]]]; congruence.
    - intros q [<-|[<-|[]]]; cbn; auto. }
  intros _. eapply lref_bind; [apply lref_open|]. intros _. eapply lref_bind; [apply lref_create|]. intros _.
  eapply lref_bind; [eapply S3, ag_eval_head|]. intros _. eapply lref_bind; [apply C|]. intros cs2.
  eapply lref_bind; [eapply S3, ag_eval_body|]. intros _. eapply lref_bind; [eapply S3, ag_delta_z|]. intros _.
  eapply lref_bind; [apply lref_open|]. intros _. eapply lref_bind; [apply C|]. intros cs3. eapply S3, ag_pvckk.
Qed.
Lemma lref_top {X} ps' (c : cmd X) l f : lref [] ps' c l ->
  fst (l (start f)) = fst (c f) /\ forall q, w_fs (snd (l (start f))) q = snd (c f) q.
Proof. intros H. destruct (H f (start f)) as [A [B _]]; [intros q; reflexivity|intros q []|]. auto. Qed.
Lemma c55_p2n p1 r1 p2 f : p1 <> p2 -> p1 <> lag_path -> p1 <> evals_path -> p2 <> lag_path -> p2 <> evals_path ->
  let '(r, w) := l_p2n (E := E) no_limit p1 r1 p2 (start f) in
  r = fst (p2n (E := E) p1 r1 p2 f) /\ forall q, w_fs w q = snd (p2n (E := E) p1 r1 p2 f) q.
Proof.
  intros N1 N2 N3 N4 N5.
  destruct (lref_top [evals_path; lag_path; p2] (p2n (E := E) p1 r1 p2) (l_p2n (E := E) no_limit p1 r1 p2) f) as [A B].
  { unfold p2n, l_p2n. eapply lref_bind; [apply lref_open|]. intros _. eapply lref_bind; [apply lref_create|]. intros _.
    apply lref_steps; auto using lref_r1cs. now left. }
  destruct (l_p2n (E := E) no_limit p1 r1 p2 (start f)) as [r w]. auto.
Qed.
Lemma c55_p2np (cs : r1cs E) p1 p2 n f : p1 <> p2 -> p1 <> lag_path -> p1 <> evals_path -> p2 <> lag_path -> p2 <> evals_path ->
  let '(r, w) := l_p2np (E := E) no_limit cs p1 p2 n (start f) in
  r = fst (p2np (E := E) cs p1 p2 n f) /\ forall q, w_fs w q = snd (p2np (E := E) cs p1 p2 n f) q.
Proof.
  intros N1 N2 N3 N4 N5.
  destruct (lref_top [evals_path; lag_path; p2] (p2np (E := E) cs p1 p2 n) (l_p2np (E := E) no_limit cs p1 p2 n) f) as [A B].
  { unfold p2np, l_p2np. eapply lref_bind; [apply lref_open|]. intros _. eapply lref_bind; [apply lref_create|]. intros _.
    apply lref_steps; auto using lref_ret. now left. }
  destruct (l_p2np (E := E) no_limit cs p1 p2 n (start f)) as [r w]. auto.
Qed.

(* ---- keys ---- *)
Lemma lref_header ps p : lref ps ps (c_header (E := E) p) (l_header (E := E) no_limit p).
Proof. unfold c_header, l_header. eapply lref_stage; [apply ag_hdr|constructor|intros []|intros []|intros q []]. Qed.
Lemma lref_pk ps p : p <> pk_path -> lref ps (pk_path :: ps) (c_pk (E := E) p) (l_pk (E := E) no_limit p).
Proof.
  intros N. unfold c_pk, l_pk. do 2 (eapply lref_bind; [apply lref_open|]; intros _). eapply lref_bind; [apply lref_header|]. intros _.
  eapply lref_bind; [apply lref_create|]. intros _.
  eapply lref_stage; [apply ag_pk|constructor; [intros []|constructor]|intros [K|[]]; congruence|intros [K|[]]; discriminate|].
  intros q [<-|[]]. now left.
Qed.
Lemma lref_vk ps wr (g sg : E) p : p <> vk_path -> lref ps (vk_path :: ps) (c_vk wr g sg p) (l_vk no_limit wr g sg p).
Proof.
  intros N. unfold c_vk, l_vk. do 2 (eapply lref_bind; [apply lref_open|]; intros _). eapply lref_bind; [apply lref_header|]. intros _.
  eapply lref_bind; [apply lref_create|]. intros _.
  eapply lref_bind; [eapply lref_stage; [apply ag_vk|constructor; [intros []|constructor]|intros [K|[]]; congruence|intros [K|[]]; discriminate|]|].
  - intros q [<-|[]]. now left.
  - intros _. apply lref_ret.
Qed.
Lemma c55_keys wr (g sg : E) p f : p <> pk_path -> p <> vk_path ->
  let '(r, w) := l_keys no_limit wr g sg p (start f) in
  r = fst (extract_keys wr g sg p f) /\ forall q, w_fs w q = snd (extract_keys wr g sg p f) q.
Proof.
  intros N1 N2. destruct (lref_top [vk_path; pk_path] (extract_keys wr g sg p) (l_keys no_limit wr g sg p) f) as [A B].
  { unfold extract_keys, l_keys. eapply lref_bind; [apply lref_pk; auto|]. intros _. apply lref_vk; auto. }
  destruct (l_keys no_limit wr g sg p (start f)) as [r w]. auto.
Qed.
Lemma lref_creates : forall names ps c l, lref ps ps c l ->
  exists ps', lref ps ps' (fold_left (fun c n => cbind c (fun _ => ccreate n)) names c) (fold_left (fun c n => lbind c (fun _ => lcreate no_limit n)) names l) /\
    forall q, In q names \/ In q ps -> In q ps'.
Proof.
  intros names ps c l H. assert (G : forall names ps1 c l, lref ps ps1 c l ->
    exists ps', lref ps ps' (fold_left (fun c n => cbind c (fun _ => ccreate n)) names c) (fold_left (fun c n => lbind c (fun _ => lcreate no_limit n)) names l) /\
      forall q, In q names \/ In q ps1 -> In q ps').
  { clear. induction names as [|n names IH]; intros ps1 c l H; [exists ps1; split; [exact H|intros q [[]|I]; exact I]|].
    cbn [fold_left]. destruct (IH (n :: ps1) (cbind c (fun _ => ccreate n)) (lbind l (fun _ => lcreate no_limit n))) as [ps' [A B]].
    - eapply lref_bind; [exact H|]. intros _. apply lref_create.
    - exists ps'. split; [exact A|]. intros q [[<-|I]|I]; apply B; cbn; auto. }
  exact (G names ps c l H).
Qed.
Lemma lref_split_pk ps p s : ~ In p (split_names s) -> exists ps', lref ps ps' (c_split_pk (E := E) p s) (l_split_pk (E := E) no_limit p s).
Proof.
  intros N. destruct (lref_creates (split_names s) ps (cret tt) (lret tt) (lref_ret ps tt)) as [ps' [A B]]. exists ps'.
  unfold c_split_pk, l_split_pk. do 2 (eapply lref_bind; [apply lref_open|]; intros _). eapply lref_bind; [apply lref_header|]. intros _.
  eapply lref_bind; [exact A|]. intros _.
  eapply lref_stage; [apply ag_split_pk|apply split_nodup|exact N|apply split_evals|auto].
Qed.
Lemma ag_twice (ck : bytes) : agrees (md [Un]) (bind (write_ 0 ck) (fun _ => write 0 ck)) (md [Un]).
Proof. step. last_. Qed.
Lemma save_nonempty s part : save_path s part <> String.EmptyString.
Proof. unfold save_path. destruct s; [destruct part; discriminate|discriminate]. Qed.
(* reading nothing, the program may be given any input *)
(* the deferred flush of the vk file at once instead of in the end *)
Lemma vk_hold dev wr (g sg : E) a b outs w : lstage dev (extract_vk wr g sg) a b outs w =
  let '(r, hs, w1) := lrun dev (extract_vk_open wr g sg) (fresh a b outs) w in (r, snd (h_flush dev (h_out hs 0) w1)).
Proof.
  unfold lstage, extract_vk, extract_vk_open, vk_with. cbn [lrun]. rewrite !lrun_bind.
  match goal with |- context [lrun dev (read_hdr2 false) ?hs w] => destruct (quiet_lrun dev true any (read_hdr2 (E := E) false) (sok_read_hdr2 _ _ _) hs w) as [hs' [-> [_ [OUT _]]]] end.
  { split; intros _; reflexivity. }
  destruct (fst (fst _)) as [h|e|]; [|unfold h_flush; now rewrite OUT|unfold h_flush; now rewrite OUT].
  cbn [lrun]. rewrite lrun_with_flush.
  match goal with |- context [lrun dev ?q ?hs w] => destruct (lrun dev q hs w) as [[r hs1] w1] end.
  destruct (h_flush dev (h_out hs1 0) w1) as [[ok x] w2]. reflexivity.
Qed.
Definition l_split_vk_early (wr : Z -> Z) (g sg : E) (p s : string) : lcmd unit :=
  lbind (lopen p) (fun _ => lbind (lopen evals_path) (fun _ => lbind (l_header (E := E) no_limit p) (fun _ => lbind (lcreate no_limit (vks_path s)) (fun _ =>
  lbind (lstage no_limit (extract_vk wr g sg) p evals_path [vks_path s]) (fun ck => lbind (lcreate no_limit (ckey_path s)) (fun _ =>
  lstage no_limit (bind (write_ 0 ck) (fun _ => write 0 ck)) String.EmptyString String.EmptyString [ckey_path s])))))).
Lemma early_bind {X Y} (c : lcmd X) (k k' : X -> lcmd Y) :
  (forall x w, fst (k x w) = fst (k' x w) /\ feq (w_fs (snd (k x w))) (w_fs (snd (k' x w)))) ->
  forall w, fst (lbind c k w) = fst (lbind c k' w) /\ feq (w_fs (snd (lbind c k w))) (w_fs (snd (lbind c k' w))).
Proof. intros H w. unfold lbind. destruct (c w) as [[x|e|] w1]; [apply H|split; [reflexivity|intros q; reflexivity]|split; [reflexivity|intros q; reflexivity]]. Qed.
Lemma flush_free x v : o_path x = Some v -> (forall w, snd (h_flush no_limit x w) = w) \/
  exists d, forall w, w_fs (snd (h_flush no_limit x w)) = fset (w_fs w) v (contents (w_fs w) v ++ d).
Proof.
  intros P. unfold h_flush. destruct (o_cap x); [now left|]. unfold bw_flush. destruct (o_bad x); [now left|]. destruct (o_buf x) as [|b l]; [now left|].
  right. set (d := b :: l). exists d. intros w. rewrite P. unfold os_write, no_limit. cbn [takes]. rewrite Nat.min_id, firstn_all. reflexivity.
Qed.
Lemma ckey_free (ck : bytes) c w :
  let A := lbind (lcreate no_limit c) (fun _ => lstage no_limit (bind (write_ 0 ck) (fun _ => write 0 ck)) String.EmptyString String.EmptyString [c]) in
  fst (A w) = Ok tt /\ feq (w_fs (snd (A w))) (fset (w_fs w) c (ck ++ ck)).
Proof.
  unfold lbind, lcreate, lstage, write, write_, fresh. cbn [no_limit can_create takes bind lrun h_out nth_error h_write o_cap o_path os_write seto Nat.eqb w_fs w_used w_calls w_ops].
  rewrite !Nat.min_id, !Nat.eqb_refl, !firstn_all. cbn [lrun fst snd w_fs]. split; [reflexivity|]. intros q. rewrite !contents_same.
  unfold fset. destruct (String.eqb c q); reflexivity.
Qed.
Lemma hold_bind dev {X Y} (p : io X) a b outs (k : res X * ohandle -> lcmd Y) w : lbind (lhold dev p a b outs) k w =
  let '(r, hs, w1) := lrun dev p (fresh a b outs) w in k (r, h_out hs 0) w1.
Proof. unfold lbind, lhold. now destruct (lrun dev p (fresh a b outs) w) as [[r hs] w1]. Qed.
Lemma bind_at {X Y} (c : lcmd X) (k : X -> lcmd Y) w : lbind c k w =
  match fst (c w) with Ok x => k x (snd (c w)) | Err e => (Err e, snd (c w)) | Panic => (Panic, snd (c w)) end.
Proof. unfold lbind. destruct (c w) as [[x|e|] w1]; reflexivity. Qed.
Lemma split_vk_early wr (g sg : E) p s w : fst (l_split_vk no_limit wr g sg p s w) = fst (l_split_vk_early wr g sg p s w) /\
  feq (w_fs (snd (l_split_vk no_limit wr g sg p s w))) (w_fs (snd (l_split_vk_early wr g sg p s w))).
Proof.
  assert (D : vks_path s <> ckey_path s) by (intros Q; apply save_inj in Q; discriminate Q).
  revert w. unfold l_split_vk, l_split_vk_early. cbv zeta. do 4 (apply early_bind; intros _). intros w.
  rewrite hold_bind. rewrite (bind_at (lstage _ _ _ _ _)), vk_hold.
  pose proof (lrun_grow no_limit (extract_vk_open wr g sg) (fresh p evals_path [vks_path s]) w) as G.
  destruct (lrun no_limit (extract_vk_open wr g sg) (fresh p evals_path [vks_path s]) w) as [[r hs] w1]. destruct G as [_ G]. specialize (G 0).
  unfold paths in G. cbn [fresh h_out o_path nth_error] in G. cbn [fst snd]. unfold ldefer, lflush. cbn [snd]. rewrite <- G.
  replace (mkO (o_path (h_out hs 0)) _ _ _) with (h_out hs 0) by now destruct (h_out hs 0).
  rewrite !(bind_at (lres r)). unfold lres. cbn [fst snd].
  destruct r as [ck|e|]; [|split; [reflexivity|intros q; reflexivity]|split; [reflexivity|intros q; reflexivity]].
  destruct (ckey_free ck (ckey_path s) w1) as [A1 A2]. destruct (ckey_free ck (ckey_path s) (snd (h_flush no_limit (h_out hs 0) w1))) as [B1 B2].
  rewrite B1. destruct (lbind (lcreate no_limit (ckey_path s)) _ w1) as [r1 w2]. cbn [fst snd] in *. split; [exact A1|].
  intros q. rewrite B2. destruct (flush_free (h_out hs 0) (vks_path s) G) as [F|[d F]].
  - rewrite !F. apply A2.
  - rewrite !F. unfold fset at 1. rewrite (contents_feq _ _ _ A2), contents_other by congruence. rewrite A2. unfold fset.
    destruct (String.eqb_spec (vks_path s) q) as [<-|]; [|reflexivity]. destruct (String.eqb_spec (ckey_path s) (vks_path s)); congruence.
Qed.
Lemma lref_split_vk_early ps wr (g sg : E) p s : p <> vks_path s ->
  lref ps (ckey_path s :: vks_path s :: ps) (c_split_vk wr g sg p s) (l_split_vk_early wr g sg p s).
Proof.
  intros N. unfold c_split_vk, l_split_vk_early. do 2 (eapply lref_bind; [apply lref_open|]; intros _). eapply lref_bind; [apply lref_header|]. intros _.
  eapply lref_bind; [apply lref_create|]. intros _.
  eapply lref_bind; [eapply lref_stage; [apply ag_vk|constructor; [intros []|constructor]|intros [K|[]]; congruence| |]|].
  - intros [K|[]]. revert K. apply save_evals. cbn. lia.
  - intros q [<-|[]]. now left.
  - intros ck. eapply lref_bind; [apply lref_create|]. intros _.
    assert (H : lref (ckey_path s :: vks_path s :: ps) (ckey_path s :: vks_path s :: ps)
      (stage (bind (write_ 0 ck) (fun _ => write 0 ck)) String.EmptyString String.EmptyString [ckey_path s])
      (lstage no_limit (bind (write_ 0 ck) (fun _ => write 0 ck)) String.EmptyString String.EmptyString [ckey_path s])).
    { eapply lref_stage; [apply ag_twice|constructor; [intros []|constructor]| | |].
      - intros [K|[]]. revert K. apply save_nonempty.
      - intros [K|[]]. revert K. apply save_nonempty.
      - intros q [<-|[]]. now left. }
    exact H.
Qed.
Lemma lref_split_vk ps wr (g sg : E) p s : p <> vks_path s ->
  lref ps (ckey_path s :: vks_path s :: ps) (c_split_vk wr g sg p s) (l_split_vk no_limit wr g sg p s).
Proof.
  intros N f w Q X. destruct (lref_split_vk_early ps wr g sg p s N f w Q X) as [A [B C]]. destruct (split_vk_early wr g sg p s w) as [D F].
  split; [now rewrite D|]. split; [intros q; now rewrite F|exact C].
Qed.
Lemma c55_split_keys wr (g sg : E) p s f : ~ In p (split_names s) -> p <> vks_path s ->
  let '(r, w) := l_split_keys no_limit wr g sg p s (start f) in
  r = fst (extract_split_keys wr g sg p s f) /\ forall q, w_fs w q = snd (extract_split_keys wr g sg p s f) q.
Proof.
  intros N1 N2. destruct (lref_split_pk [] p s N1) as [ps' A1].
  destruct (lref_top (ckey_path s :: vks_path s :: ps') (extract_split_keys wr g sg p s) (l_split_keys no_limit wr g sg p s) f) as [A B].
  { unfold extract_split_keys, l_split_keys. eapply lref_bind; [exact A1|]. intros _. apply lref_split_vk; auto. }
  destruct (l_split_keys no_limit wr g sg p s (start f)) as [r w]. auto.
Qed.
End Cmds.

(* Initialize reads nothing *)
Lemma run_encodes' o l : forall s, run (encodes o l) s = (Ok tt, s, map (pair o) l).
Proof.
  induction l as [|b l IH]; intros s; [reflexivity|]. cbn [encodes]. rewrite run_bind. unfold write. cbn [run]. rewrite IH. reflexivity.
Qed.
Lemma run_initialize {E : Ext} pw : exists W, forall s, run (initialize (E := E) pw) s = (Ok tt, s, W).
Proof.
  eexists. intros s. unfold initialize. cbv zeta. rewrite run_bind, run_try. unfold write_header. rewrite run_bind.
  unfold write at 1 2. cbn [run app]. rewrite run_with_flush. unfold repeat_write.
  do 4 (rewrite run_bind, run_encodes'). unfold write_. cbn [run]. reflexivity.
Qed.
Lemma c55_initialize {E : Ext} pw op f r O : op <> String.EmptyString -> exec (initialize (E := E) pw) [] [] = (r, O) ->
  let '(r', w') := l_initialize (E := E) no_limit pw op (start f) in r' = r /\ w_fs w' op = Some O /\ forall q, q <> op -> w_fs w' q = f q.
Proof.
  intros N R. destruct (run_initialize (E := E) pw) as [W RI].
  unfold l_initialize, lbind, lcreate. cbn [can_create no_limit start w_fs w_used w_calls w_ops app]. change (mkW (fset f op []) 0 0 [OTrunc op]) with (created f op).
  assert (L : lref [op] [op] (stage (initialize (E := E) pw) String.EmptyString String.EmptyString [op])
     (lstage no_limit (initialize (E := E) pw) String.EmptyString String.EmptyString [op])).
  { eapply lref_stage; [apply ag_initialize|constructor; [intros []|constructor]| | |auto]; intros [K|[]]; congruence. }
  destruct (L (fset f op []) (created f op)) as [L1 [L2 _]]; [intros q; reflexivity|intros q [<-|[]]; rewrite fset_same; discriminate|].
  destruct (lstage no_limit (initialize (E := E) pw) String.EmptyString String.EmptyString [op] (created f op)) as [r' w']. cbn [fst snd] in *. unfold stage in L1, L2.
  rewrite RI in L1, L2. unfold exec in R. rewrite RI in R. cbn [fst snd] in *. injection R as <- <-.
  split; [exact L1|]. split.
  - rewrite L2, (wapply_at [op] W (fset f op []) 0 op); [now rewrite contents_same|constructor; [intros []|constructor]|reflexivity|rewrite fset_same; discriminate].
  - intros q Q. rewrite L2, wapply_other by (intros [K|[]]; congruence). apply fset_other. auto.
Qed.

(* ---- any device: only the outputs change ---- *)
Definition touches (ps : list string) (o : osop) : Prop := match o with OTrunc p => In p ps | OApp p _ => In p ps end.
Definition lonly {X} (ps : list string) (l : lcmd X) : Prop := forall w, exists ops,
  w_ops (snd (l w)) = w_ops w ++ ops /\ feq (w_fs (snd (l w))) (replay ops (w_fs w)) /\ Forall (touches ps) ops.
Lemma lonly_skip {X} ps (l : lcmd X) : (forall w, snd (l w) = w) -> lonly ps l.
Proof. intros H w. exists []. rewrite H, app_nil_r. split; [auto|]. split; [intros q; reflexivity|constructor]. Qed.
Lemma lonly_bind {X Y} ps (l : lcmd X) (k : X -> lcmd Y) : lonly ps l -> (forall x, lonly ps (k x)) -> lonly ps (lbind l k).
Proof.
  intros A B w. destruct (A w) as [o1 [A1 [A2 A3]]]. unfold lbind. destruct (l w) as [r w1]. cbn [snd] in *.
  destruct r as [x|e|]; cbn [snd]; try (exists o1; auto; fail).
  destruct (B x w1) as [o2 [B1 [B2 B3]]]. exists (o1 ++ o2). split; [now rewrite B1, A1, app_assoc|]. split.
  - intros q. rewrite B2, replay_app. now apply replay_ext.
  - apply Forall_app. auto.
Qed.
Lemma lonly_open ps p : lonly ps (lopen p). Proof. apply lonly_skip. reflexivity. Qed.
Lemma lonly_ret ps {X} (x : X) : lonly ps (lret x). Proof. apply lonly_skip. reflexivity. Qed.
Lemma lonly_create dev ps p : In p ps -> lonly ps (lcreate dev p).
Proof.
  intros I w. unfold lcreate. destruct (can_create dev (length (w_ops w)) p).
  - exists [OTrunc p]. split; [reflexivity|]. split; [intros q; reflexivity|]. constructor; [exact I|constructor].
  - exists []. cbn [snd]. rewrite app_nil_r. split; [reflexivity|]. split; [intros q; reflexivity|constructor].
Qed.
Lemma lonly_stage_at dev ps {X} (p : io X) a b pt : (forall k q, pt k = Some q -> In q ps) -> lonly ps (lstage_at dev p a b pt).
Proof.
  intros I w. unfold lstage_at. pose proof (lrun_grow dev p (fresh_at a b pt) w) as G.
  destruct (lrun dev p (fresh_at a b pt) w) as [[r hs'] w']. destruct G as [[l [G1 [G2 G3]]] _]. exists l. cbn [snd].
  split; [exact G1|]. split; [exact G2|]. apply Forall_forall. intros o O. destruct (G3 o O) as [k [q [d [-> K]]]]. exact (I k q K).
Qed.
Lemma lonly_stage dev ps {X} (p : io X) a b outs : (forall q, In q outs -> In q ps) -> lonly ps (lstage dev p a b outs).
Proof.
  intros I. change (lstage dev p a b outs) with (lstage_at dev p a b (nth_error outs)). apply lonly_stage_at.
  intros k q K. apply I. eapply nth_error_In. exact K.
Qed.
Lemma lonly_hold dev ps {X} (p : io X) a b outs : (forall q, In q outs -> In q ps) -> lonly ps (lhold dev p a b outs).
Proof.
  intros I w. destruct (lonly_stage dev ps p a b outs I w) as [l H]. exists l. unfold lhold. unfold lstage in H.
  destruct (lrun dev p (fresh a b outs) w) as [[r hs'] w']. exact H.
Qed.
Lemma lonly_res ps {X} (r : res X) : lonly ps (lres r). Proof. apply lonly_skip. reflexivity. Qed.
Lemma lonly_flush dev ps p x : In p ps -> lonly ps (lflush dev p x).
Proof.
  intros I w. unfold lflush. cbn [snd]. destruct (proj1 (h_flush_grows dev (mkO (Some p) (o_cap x) (o_buf x) (o_bad x)) w)) as [l [A [B C]]].
  exists l. split; [exact A|]. split; [exact B|]. apply Forall_forall. intros o O. destruct (C o O) as [q [d [-> K]]]. injection K as <-. exact I.
Qed.
Lemma lonly_defer ps {X} (c : lcmd X) d : lonly ps c -> lonly ps d -> lonly ps (ldefer c d).
Proof.
  intros A B w. destruct (A w) as [o1 [A1 [A2 A3]]]. unfold ldefer. destruct (c w) as [r w1]. cbn [snd] in *.
  destruct (B w1) as [o2 [B1 [B2 B3]]]. exists (o1 ++ o2). split; [now rewrite B1, A1, app_assoc|]. split.
  - intros q. rewrite B2, replay_app. now apply replay_ext.
  - apply Forall_app. auto.
Qed.
Lemma replay_touch q ps : ~ In q ps -> forall l f, Forall (touches ps) l -> replay l f q = f q.
Proof.
  intros N. induction l as [|o l IH]; intros f H; [reflexivity|]. apply Forall_cons_iff in H as [T H].
  change (replay (o :: l) f) with (replay l (op_do f o)). rewrite IH by exact H. destruct o as [p|p d]; cbn [op_do touches] in *; apply fset_other; congruence.
Qed.
(* the end and every crash *)
Lemma lonly_safe {X} ps (l : lcmd X) f q : lonly ps l -> ~ In q ps ->
  w_fs (snd (l (start f))) q = f q /\ forall l', died (w_ops (snd (l (start f)))) l' -> replay l' f q = f q.
Proof.
  intros L N. destruct (L (start f)) as [ops [A [B C]]]. cbn [start w_ops w_fs app] in A, B. split.
  - rewrite B. eapply replay_touch; eauto.
  - rewrite A. intros l' [[l2 ->]|[l1 [p [d [t [l2 [-> ->]]]]]]].
    + apply Forall_app in C as [C _]. eapply replay_touch; eauto.
    + apply Forall_app in C as [C1 C2]. apply Forall_cons_iff in C2 as [C2 _]. eapply replay_touch; [exact N|].
      apply Forall_app. split; [exact C1|]. constructor; [exact C2|constructor].
Qed.

Section Only.
Context {E : Ext2}.
Variable dev : device.
Ltac lo := first [apply lonly_open|apply lonly_ret|apply lonly_create; cbn; tauto|apply lonly_stage; cbn; tauto
  |apply lonly_stage_at; intros [|[|[|[|k]]]] q K; cbn in K; try discriminate; injection K as <-; cbn; tauto].
Ltac lb := eapply lonly_bind; [lo|intros ?].
Lemma only_one {X} (p : io X) ip op : lonly [op] (l_one dev p ip op).
Proof. unfold l_one. do 2 lb. lo. Qed.
Lemma only_initialize {E1 : Ext} pw op : lonly [op] (l_initialize (E := E1) dev pw op).
Proof. unfold l_initialize. lb. lo. Qed.
Lemma only_steps circuit cons nb p1 p2 : (forall ps, lonly ps circuit) ->
  lonly [p2; lag_path; evals_path] (l_init_steps (E := E) dev circuit cons nb p1 p2).
Proof.
  intros C. unfold l_init_steps. cbv zeta. eapply lonly_bind; [apply C|intros cs]. lb. destruct x as [pw h].
  eapply lonly_bind; [|intros _].
  { unfold l_lagrange. destruct (new_domain (E := E) (h_domain h)); [|apply lonly_skip; reflexivity]. lb. lo. }
  do 3 lb. eapply lonly_bind; [apply C|intros cs2]. do 3 lb. eapply lonly_bind; [apply C|intros cs3]. lo.
Qed.
Lemma only_p2n p1 r1 p2 : lonly [p2; lag_path; evals_path] (l_p2n (E := E) dev p1 r1 p2).
Proof.
  unfold l_p2n. do 2 lb. apply only_steps. intros ps. unfold l_read_r1cs. lb. apply lonly_skip. intros w. destruct (parse_r1cs _); reflexivity.
Qed.
Lemma only_p2np (cs : r1cs E) p1 p2 n : lonly [p2; lag_path; evals_path] (l_p2np (E := E) dev cs p1 p2 n).
Proof. unfold l_p2np. do 2 lb. apply only_steps. intros ps. apply lonly_ret. Qed.
Lemma only_keys wr (g sg : E) p : lonly [pk_path; vk_path] (l_keys dev wr g sg p).
Proof.
  unfold l_keys, l_pk, l_vk, l_header. eapply lonly_bind; [do 4 lb; lo|intros _]. do 5 lb. lo.
Qed.
Lemma only_split_keys wr (g sg : E) p s : lonly (split_names s ++ [vks_path s; ckey_path s]) (l_split_keys dev wr g sg p s).
Proof.
  unfold l_split_keys, l_split_pk, l_split_vk, l_header. eapply lonly_bind; [|intros _].
  - do 3 lb. eapply lonly_bind; [|intros _; apply lonly_stage; intros q I; apply in_or_app; auto].
    assert (G : forall names l, (forall q, In q names -> In q (split_names s ++ [vks_path s; ckey_path s])) -> lonly (split_names s ++ [vks_path s; ckey_path s]) l ->
      lonly (split_names s ++ [vks_path s; ckey_path s]) (fold_left (fun c n => lbind c (fun _ => lcreate dev n)) names l)).
    { induction names as [|n names IH]; intros l I L; [exact L|]. cbn [fold_left]. apply IH; [intros q Q; apply I; now right|].
      eapply lonly_bind; [exact L|intros _]. apply lonly_create, I. now left. }
    apply G; [|apply lonly_ret]. intros q I. apply in_or_app. auto.
  - do 4 lb. eapply lonly_bind; [apply lonly_hold; intros q [<-|[]]; apply in_or_app; right; now left|intros y].
    apply lonly_defer; [|apply lonly_flush; apply in_or_app; right; now left]. eapply lonly_bind; [apply lonly_res|intros ck]. lb. lo.
Qed.
End Only.
