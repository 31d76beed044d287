(* LiveAgree.v -- on a device that takes everything the programs of Live.v do what [run] and the
   commands of Fs.v say: every buffered byte reaches its file. *)
From Coq Require String.
From Verif Require Import Base Fld Conc Parallel IO Ext Spec1 Phase1 Gob Circuit Spec2 Phase2 Spec3 Fs Init2 Spec4 Keys Phase1Io
  Phase1Verify Live LiveLemmas Sok LiveFail SokPrograms LiveCmd LiveClaims.
Local Open Scope io_scope.

(* classes of the first outputs; the others are not used *)
Definition md (l : list cls) : nat -> cls := fun o => nth o l Free.
Definition fine1 (x y : cls) : bool :=
  match x, y with
  | Free, Free => true | Free, _ | _, Free => false
  | Di, _ => true | _, Di => false | _, _ => true
  end.
Fixpoint fine (l l' : list cls) : bool :=
  match l, l' with
  | [], [] => true
  | x :: l, y :: l' => fine1 x y && fine l l'
  | _, _ => false
  end.
Lemma fine_spec : forall l l', fine l l' = true -> forall o, (md l' o = Di -> md l o = Di) /\ (md l o = Free <-> md l' o = Free).
Proof.
  induction l as [|x l IH]; intros [|y l'] H o; cbn [fine] in H; try discriminate.
  - unfold md. destruct o; split; auto; reflexivity.
  - apply andb_true_iff in H as [H1 H2]. destruct o as [|o]; [|exact (IH l' H2 o)].
    unfold md. cbn [nth]. destruct x, y; cbn in H1; try discriminate; split; auto; try discriminate; split; congruence.
Qed.
Lemma md_upd : forall l o x k, nth o l Free <> Free -> md (upd l o x) k = cset (md l) o x k.
Proof.
  induction l as [|y l IH]; intros o x k H; [destruct o; elim H; reflexivity|].
  destruct o as [|o]; destruct k as [|k]; try reflexivity.
  exact (IH o x k H).
Qed.

Lemma ag_bind l1 l2 l3 {X Y} (p : io X) (f : X -> io Y) : agrees (md l1) p (md l2) -> (forall a, agrees (md l2) (f a) (md l3)) ->
  fine l2 l3 = true -> agrees (md l1) (bind p f) (md l3).
Proof. intros A B F. eapply agrees_bind; [exact A|exact B|]. now apply fine_spec. Qed.
Definition wrt (l : list cls) : nat -> bytes -> Prop := fun o _ => nth o l Free = Un \/ nth o l Free = Di.
Lemma ag_sok l st {X} (Q : X -> Prop) (p : io X) : sok st (wrt l) Q p -> agrees (md l) p (md l).
Proof. intros A. eapply agrees_sok; [exact A|]. auto. Qed.
Lemma ag_seq l1 l2 st {X Y} (Q : X -> Prop) (p : io X) (f : X -> io Y) : sok st (wrt l1) Q p -> (forall a, agrees (md l1) (f a) (md l2)) ->
  fine l1 l2 = true -> agrees (md l1) (bind p f) (md l2).
Proof. intros A B F. eapply ag_bind; [eapply ag_sok; exact A|exact B|exact F]. Qed.
Lemma ag_boom l l' {X} : fine l l' = true -> agrees (md l) (Boom : io X) (md l').
Proof.
  intros F. change (agrees (md l) (bind (Boom : io Empty_set) (fun e => match e with end : io X)) (md l')).
  eapply ag_bind; [apply (ag_sok l true any); exact I|intros []|exact F].
Qed.
Lemma ag_throw l l' e {X} : fine l l' = true -> agrees (md l) (Throw e : io X) (md l').
Proof.
  intros F. change (agrees (md l) (bind (Throw e : io Empty_set) (fun e => match e with end : io X)) (md l')).
  eapply ag_bind; [apply (ag_sok l true any); exact I|intros []|exact F].
Qed.
Lemma ag_orBoom l l' {X Y} (a : option X) (k : X -> io Y) : (forall x, agrees (md l) (k x) (md l')) -> fine l l' = true ->
  agrees (md l) (orBoom a k) (md l').
Proof. intros H F. destruct a; [apply H|now apply ag_boom]. Qed.
Lemma ag_buf l o n l1 {X} (p : io X) : n <> 0 -> nth o l Free = Un \/ nth o l Free = Cl ->
  agrees (md (upd l o Di)) p (md l1) -> nth o l1 Free = Di -> agrees (md l) (NewWr o n (with_flush o p)) (md (upd l1 o Cl)).
Proof.
  intros N U A D. eapply agrees_ext; [reflexivity| |eapply (agrees_buffered (md l) o n p (md l1)); [exact N|exact U| |exact D]].
  - intros k. symmetry. apply md_upd. congruence.
  - eapply agrees_ext; [|reflexivity|exact A]. intros k. apply md_upd. destruct U; congruence.
Qed.
Lemma ag_newrd l l' h n {X} (p : io X) : agrees (md l) p (md l') -> agrees (md l) (NewRd h n p) (md l').
Proof. apply agrees_newrd. Qed.
Lemma ag_fwd l l' h n {X} (p : io X) : agrees (md l) p (md l') -> fine l l' = true -> agrees (md l) (Fwd h n p) (md l').
Proof.
  intros A F. change (agrees (md l) (bind (Fwd h n (Ret tt)) (fun _ => p)) (md l')).
  eapply ag_seq; [apply (sok_any true (wrt l) any)|intros; exact A|exact F]. exact I.
Qed.

Ltac hp := first [exact (fun d _ => or_introl eq_refl)|exact (fun d _ => or_intror eq_refl)].
Ltac w1 := first [exact (or_introl eq_refl)|exact (or_intror eq_refl)].
(* one statement that neither creates nor flushes a writer *)
Ltac one := lazymatch goal with
  | |- sok _ _ _ (write _ _) => apply (sok_write false); w1
  | |- sok _ _ _ (write_ _ _) => apply sok_write_; w1
  | |- sok _ _ _ (decode1 _) => apply (sok_decode1 false)
  | |- sok _ _ _ (decode2 _) => apply (sok_decode2 false)
  | |- sok _ _ _ (decodes1 _ _) => apply (sok_decodes1 false)
  | |- sok _ _ _ (decodes2 _ _) => apply (sok_decodes2 false)
  | |- sok _ _ _ (read_slice1 _) => apply (sok_read_slice1 false)
  | |- sok _ _ _ (read_slice2 _) => apply (sok_read_slice2 false)
  | |- sok _ _ _ (read_n _) => apply (sok_read_n false)
  | |- sok _ _ _ (seek _ _) => apply (sok_seek false)
  | |- sok _ _ _ (read_hdr2 _) => apply (sok_read_hdr2 false)
  | |- sok _ _ _ (read_header _) => apply (sok_read_header false)
  | |- sok _ _ _ (write_header _ _ _) => apply (sok_write_header false); hp
  | |- sok _ _ _ (write_hdr _ _) => apply (sok_write_hdr false); hp
  | |- sok _ _ _ (write_slice1 _ _) => apply (sok_write_slice1 false); hp
  | |- sok _ _ _ (write_slice2 _ _) => apply (sok_write_slice2 false); hp
  | |- sok _ _ _ (write_raw1 _ _) => apply (sok_write_raw1 false); hp
  | |- sok _ _ _ (write_raw2 _ _) => apply (sok_write_raw2 false); hp
  end.
Lemma sok_encs2 l o (pts : list bytes) : wrt l o [] -> Forall (fun b => (length b <= 256)%nat) pts -> sok false (wrt l) any (encodes o pts).
Proof. intros H F. apply (sok_encodes false); [intros d _; exact H|exact F]. Qed.
Ltac step := eapply ag_seq; [one|intros ?|reflexivity].
Ltac last_ := eapply ag_sok; one.

Section P1.
Context {E : Ext}.
Lemma ag_transform_section (dec : io E) enc pos size x : x = Un \/ x = Cl -> sok false (wrt [Di]) any dec -> (forall x, length (enc x) <= 256) ->
  agrees (md [x]) (transform_section dec enc pos size) (md [Cl]).
Proof.
  intros U D L. unfold transform_section. eapply ag_seq; [apply (sok_seek false)|intros _|destruct U; subst x; reflexivity].
  apply ag_newrd. apply (ag_buf [x] 0 defBuf [Di]); [exact defBuf_pos|exact U| |reflexivity].
  change (md (upd [x] 0 Di)) with (md [Di]). eapply ag_sok. apply (sok_transform_loop false); [hp|exact D|exact L].
Qed.
Lemma g1c_256 (x : E) : length (g1c x) <= 256. Proof. rewrite g1c_len. lia. Qed.
Lemma g2c_256 (x : E) : length (g2c x) <= 256. Proof. rewrite g2c_len. lia. Qed.
Lemma ag_transform ipw opw : agrees (md [Un]) (transform (E := E) ipw opw) (md [Cl]).
Proof.
  unfold transform, transformG1, transformG2. step. cbv zeta.
  do 4 (eapply (ag_bind _ [Cl]); [apply ag_transform_section; [auto|first [apply sok_decode1|apply sok_decode2]|first [exact g1c_256|exact g2c_256]]|intros _|reflexivity]).
  apply ag_transform_section; [auto|apply sok_decode2|exact g2c_256].
Qed.
Lemma ag_initialize pw : agrees (md [Un]) (initialize (E := E) pw) (md [Cl]).
Proof.
  unfold initialize. cbv zeta. eapply ag_seq; [eapply sok_try, sok_write_header; hp|intros _|reflexivity].
  apply (ag_buf [Un] 0 bigBuf [Di]); [exact bigBuf_pos|left; reflexivity| |reflexivity]. change (md (upd [Un] 0 Di)) with (md [Di]).
  assert (RW : forall b n, length b <= 256 -> sok false (wrt [Di]) any (repeat_write 0 b n)).
  { intros b n H. unfold repeat_write. apply (sok_encodes false); [hp|]. apply Forall_forall. intros c I. apply repeat_spec in I. now subst c. }
  do 4 (eapply ag_seq; [apply RW; first [apply g1c_256|apply g2c_256]|intros _|reflexivity]). last_.
Qed.
Lemma ag_contribute bs (w : @rnd1 E) : agrees (md [Un]) (contribute bs w) (md [Cl]).
Proof.
  rewrite contribute_split. step. destruct a as [pw n]. step.
  apply ag_newrd. apply (ag_buf [Un] 0 defBuf [Di]); [exact defBuf_pos|left; reflexivity| |reflexivity]. change (md (upd [Un] 0 Di)) with (md [Di]).
  apply (ag_sok _ false any). eapply sok_mono; [eapply ends_sok, body1_ends|intros o d ->; right; reflexivity|auto].
Qed.
End P1.

Ltac filt := match goal with |- context [filterInfinity ?x] => destruct (filterInfinity x) as [[? ?] ?] end.
Ltac under o l := apply (ag_buf _ o defBuf l); [exact defBuf_pos|first [left; reflexivity|right; reflexivity]| |reflexivity];
  match goal with |- agrees (md ?x) _ _ => let y := eval cbv in x in change (md x) with (md y) end.
Section P2.
Context {E : Ext2}.
Lemma ag_contribute2 bs (d s : E) : agrees (md [Un]) (contribute2 bs d s) (md [Cl]).
Proof.
  rewrite contribute2_split. apply ag_newrd. under 0 [Di].
  apply (ag_sok _ false any). eapply sok_mono; [eapply ends_sok, body2_ends|intros o b ->; right; reflexivity|auto].
Qed.
Lemma ag_process_header (cs : r1cs E) nb : agrees (md [Un]) (process_header cs nb) (md [Un]).
Proof.
  unfold process_header. apply ag_orBoom; [intros dom|reflexivity]. step. destruct a as [pw n].
  destruct (pow2 pw <? nb)%Z; [apply ag_throw; reflexivity|]. cbv zeta. step. apply (ag_sok _ false any). exact I.
Qed.
Lemma ag_lagrange_section dec enc pos k x : x = Un \/ x = Cl -> (forall n, sok false (wrt [Un; Di]) any (dec n)) ->
  (forall l, sok false (wrt [Un; Di]) any (enc l)) -> agrees (md [Un; x]) (lagrange_section (E := E) dec enc pos k) (md [Un; Cl]).
Proof.
  intros U D L. unfold lagrange_section. eapply ag_seq; [apply (sok_seek false)|intros _|destruct U; subst x; reflexivity].
  apply ag_newrd. apply (ag_buf [Un; x] 1 defBuf [Un; Di]); [exact defBuf_pos|exact U| |reflexivity].
  change (md (upd [Un; x] 1 Di)) with (md [Un; Di]). eapply ag_seq; [apply D|intros buff|reflexivity].
  apply ag_orBoom; [|reflexivity]. intros l. eapply ag_sok. apply L.
Qed.
Lemma ag_lagrange pw k : agrees (md [Un; Un]) (process_lagrange (E := E) pw k) (md [Un; Cl]).
Proof.
  unfold process_lagrange, lagrangeG1, lagrangeG2. cbv zeta.
  do 3 (eapply (ag_bind _ [Un; Cl]); [apply ag_lagrange_section; [auto|apply sok_decodes1|intros l; apply (sok_write_slice1 false); hp]|intros _|reflexivity]).
  apply ag_lagrange_section; [auto|apply sok_decodes2|intros l; apply (sok_write_slice2 false); hp].
Qed.
Lemma ag_eval_head pw : agrees (md [Un; Free; Un]) (process_eval_head (E := E) pw) (md [Un; Free; Un]).
Proof.
  unfold process_eval_head, read_phase1. cbv zeta. eapply (ag_bind _ [Un; Free; Un]); [|intros a|reflexivity].
  - do 6 step. apply (ag_sok _ false any). exact I.
  - destruct a as [[alpha b1] b2]. eapply ag_sok, sok_encs2; [left; reflexivity|].
    apply Forall_forall. intros b [<-|[<-|[<-|[]]]]; rewrite ?g1c_len, ?g2c_len; lia.
Qed.
Lemma ag_eval_body (cs : r1cs E) cons h : agrees (md [Un; Free; Un]) (process_eval_body cs cons h) (md [Un; Free; Un]).
Proof.
  unfold process_eval_body. step. do 2 (apply ag_orBoom; [intros ?|reflexivity]). step. apply ag_orBoom; [intros ?|reflexivity]. step.
  apply ag_fwd; [|reflexivity]. step. apply ag_orBoom; [intros ?|reflexivity]. last_.
Qed.
Lemma ag_delta_z h : agrees (md [Un; Free; Un]) (process_delta_z (E := E) h) (md [Cl; Free; Un]).
Proof.
  unfold process_delta_z. under 0 [Di; Free; Un]. do 3 step. apply ag_newrd. cbv zeta. step. apply ag_orBoom; [intros ?|reflexivity].
  eapply ag_sok, sok_encs2; [right; reflexivity|apply enc1_small].
Qed.
Lemma ag_pvckk (cs : r1cs E) cons h : agrees (md [Un; Free; Un]) (process_pvckk cs cons h) (md [Cl; Free; Cl]).
Proof.
  unfold process_pvckk. apply ag_newrd. under 0 [Di; Free; Cl]. step. do 2 (apply ag_orBoom; [intros ?|reflexivity]). step.
  apply ag_orBoom; [intros ?|reflexivity]. step. apply ag_orBoom; [intros ?|reflexivity]. apply ag_orBoom; [intros [[pkk vkk] ckk]|reflexivity].
  eapply ag_seq; [apply sok_encs2; [right; reflexivity|apply enc1_small]|intros _|reflexivity].
  under 2 [Di; Free; Di]. do 2 step. last_.
Qed.
Lemma ag_hdr : agrees (md []) (NewRd false defBuf (read_hdr2 (E := E) false)) (md []).
Proof. apply ag_newrd. last_. Qed.
Lemma ag_pk : agrees (md [Un]) (extract_pk (E := E)) (md [Cl]).
Proof.
  unfold extract_pk. do 2 apply ag_newrd. step. under 0 [Di]. apply ag_orBoom; [intros k|reflexivity].
  do 10 step. filt. do 2 step. filt. do 8 step. filt. do 5 step. last_.
Qed.
Lemma ag_split_pk : agrees (md [Un; Un; Un; Un; Un; Un]) (extract_split_pk (E := E)) (md [Cl; Cl; Cl; Cl; Cl; Cl]).
Proof.
  unfold extract_split_pk. do 2 apply ag_newrd. step.
  under 0 [Di; Cl; Cl; Cl; Cl; Cl]. under 1 [Di; Di; Cl; Cl; Cl; Cl]. under 2 [Di; Di; Di; Cl; Cl; Cl]. under 3 [Di; Di; Di; Di; Cl; Cl].
  under 4 [Di; Di; Di; Di; Di; Cl]. under 5 [Di; Di; Di; Di; Di; Di].
  do 10 step. filt. do 2 step. filt. do 8 step. filt. do 5 step. last_.
Qed.
Lemma ag_vk wr (g sg : E) : agrees (md [Un]) (extract_vk wr g sg) (md [Cl]).
Proof.
  unfold extract_vk. do 2 apply ag_newrd. step. under 0 [Di]. do 3 step. cbv zeta. do 3 step. apply ag_newrd. do 2 step.
  unfold write_vk. eapply ag_bind; [|intros _; apply (ag_sok [Di] false any); exact I|reflexivity].
  do 8 step. last_.
Qed.
End P2.
