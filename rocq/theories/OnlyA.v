(* OnlyA.v -- programs that use one input handle only: what the other one holds does not matter. *)
From Verif Require Import Base Fld Conc Parallel IO Ext Spec1 Phase1 Gob Circuit Spec2 Phase2 Phase1Io Phase1Verify Fs Live LiveLemmas Sok.
Local Open Scope fld_scope.
Local Open Scope io_scope.

Fixpoint onlya {X} (p : io X) : Prop :=
  match p with
  | Ret _ | Throw _ | Boom => True
  | Rd h k c => h = false /\ forall x, (forall b, x = Some b -> length b <= k) -> onlya (c x)
  | Seek h _ c => h = false /\ forall x, onlya (c x)
  | Fwd h _ c | NewRd h _ c => h = false /\ onlya c
  | NewWr _ _ c => onlya c
  | Flush _ c | Wr _ _ c => forall x, onlya (c x)
  end.

Lemma onlya_run {X} (p : io X) : onlya p -> forall a b b',
  let '(r, s, W) := run p (a, b) in run p (a, b') = (r, (fst s, b'), W).
Proof.
  induction p as [x|e| |h k c IH|h z c IH|h n c IH|h n c IH|o n c IH|o c IH|o d c IH]; cbn [onlya run]; intros H a b b'; auto.
  - destruct H as [-> H]. cbn [getr setr fst snd]. pose proof (rd_read_len k a) as L. destruct (rd_read k a) as [x r]. cbn [fst] in L.
    assert (XX : forall b0, x = Some b0 -> length b0 <= k) by (intros b0 ->; now apply L). exact (IH x (H x XX) r b b').
  - destruct H as [-> H]. cbn [getr setr fst snd]. destruct (z <? 0)%Z; [exact (IH _ (H _) a b b')|exact (IH _ (H _) _ b b')].
  - destruct H as [-> H]. cbn [getr setr fst snd]. exact (IH H _ b b').
  - destruct H as [-> H]. cbn [getr setr fst snd]. exact (IH H _ b b').
  - exact (IH H a b b').
  - exact (IH _ (H _) a b b').
  - specialize (IH true (H true) a b b'). destruct (run (c true) (a, b)) as [[r s] W]. rewrite IH. reflexivity.
Qed.
Lemma onlya_exec {X} (p : io X) a b b' : onlya p -> exec p a b = exec p a b'.
Proof.
  intros H. unfold exec. pose proof (onlya_run p H (opened a) (opened b) (opened b')) as R.
  destruct (run p (opened a, opened b)) as [[r s] W]. now rewrite R.
Qed.

Lemma onlya_bind {X Y} (p : io X) (f : X -> io Y) : onlya p -> (forall a, onlya (f a)) -> onlya (bind p f).
Proof.
  induction p as [a|e| |h k c IH|h z c IH|h n c IH|h n c IH|o n c IH|o c IH|o d c IH]; cbn [bind onlya]; intros A F; try tauto; try (destruct A; split; auto); auto.
Qed.
Lemma onlya_try {X} (p : io X) : onlya p -> onlya (try p).
Proof.
  induction p as [a|e| |h k c IH|h z c IH|h n c IH|h n c IH|o n c IH|o c IH|o d c IH]; cbn [try onlya]; intros A; try tauto; try (destruct A; split; auto); auto.
Qed.
Lemma onlya_flush {X} o (p : io X) : onlya p -> onlya (with_flush o p).
Proof.
  induction p as [a|e| |h k c IH|h z c IH|h n c IH|h n c IH|o' n c IH|o' c IH|o' d c IH]; cbn [with_flush onlya]; intros A; try tauto; try (destruct A; split; auto); auto.
Qed.
Lemma onlya_orBoom {X Y} (a : option X) (k : X -> io Y) : (forall x, onlya (k x)) -> onlya (orBoom a k).
Proof. intros H. destruct a; cbn; auto. Qed.
Lemma onlya_reads {X} (p : io X) : only_reads false p -> onlya p.
Proof.
  induction p as [a|e| |h' k c IH|h' z c IH|h' n c IH|h' n c IH|o' n c IH|o' c IH|o' d c IH]; cbn [only_reads onlya]; intros A; try contradiction; try exact I.
  destruct A as [A1 [_ A]]. split; auto.
Qed.
Lemma onlya_write o d : onlya (write o d).
Proof. intros []; exact I. Qed.
Lemma onlya_readfull k : onlya (readfull false k).
Proof.
  unfold readfull. destruct (k =? 0); [exact I|]. generalize (@nil byte). generalize k at 1. intros fuel acc. revert k acc.
  induction fuel as [|fuel IH]; intros k acc; cbn [rf_loop onlya]; [exact I|]. split; auto.
  intros [b|] _; [|exact I]. destruct (length b =? k); [exact I|apply IH].
Qed.
Create HintDb oa.
Global Hint Resolve onlya_write onlya_readfull : oa.
Ltac oa := repeat first
  [ exact I | assumption | solve [auto with oa]
  | apply onlya_orBoom; intros | apply onlya_bind; [|intros] | apply onlya_try | apply onlya_flush
  | match goal with |- onlya (match ?x with _ => _ end) => destruct x end
  | match goal with |- onlya (let _ := _ in _) => cbv zeta end
  | progress cbn [onlya] | split; [reflexivity|] | intros ].

Lemma onlya_encodes o l : onlya (encodes o l).
Proof. induction l as [|b l IH]; cbn [encodes]; oa. Qed.
Global Hint Resolve onlya_encodes : oa.
Lemma onlya_recv : onlya (recv false).
Proof. unfold recv, rd_uint. oa. Qed.
Lemma onlya_read_header : onlya (read_header false).
Proof. unfold read_header. oa. Qed.
Lemma onlya_write_header o pw n : onlya (write_header o pw n).
Proof. unfold write_header. oa. Qed.
Lemma onlya_write_hdr o h : onlya (write_hdr o h).
Proof. unfold write_hdr. oa. Qed.
Global Hint Resolve onlya_recv onlya_read_header onlya_write_header onlya_write_hdr : oa.

Section E1.
Context {E : Ext}.
Lemma onlya_decode1 : onlya (decode1 (E := E) false). Proof. unfold decode1. oa. Qed.
Lemma onlya_decode2 : onlya (decode2 (E := E) false). Proof. unfold decode2. oa. Qed.
Lemma onlya_decode1_into x : onlya (decode1_into (E := E) false x). Proof. unfold decode1_into. oa. Qed.
Lemma onlya_decode2_into x : onlya (decode2_into (E := E) false x). Proof. unfold decode2_into. oa. Qed.
Hint Resolve onlya_decode1 onlya_decode2 onlya_decode1_into onlya_decode2_into : oa.
Lemma onlya_decodes1 n : onlya (decodes1 (E := E) false n). Proof. induction n; cbn [decodes1]; oa. Qed.
Lemma onlya_decodes2 n : onlya (decodes2 (E := E) false n). Proof. induction n; cbn [decodes2]; oa. Qed.
Hint Resolve onlya_decodes1 onlya_decodes2 : oa.
Lemma onlya_scale bs dec enc o N (tau : E) mul : (forall n, onlya (dec n)) -> onlya (scale bs dec enc o N tau mul).
Proof.
  intros D. unfold scale. destruct (N <? 0)%Z; [exact I|]. cbv zeta. generalize (Z.to_nat N) at 1. intros fuel.
  generalize (repeat (0 : E) (Nat.min (Z.to_nat N) bs)). generalize (0 : E). generalize (1 : E). generalize (Z.to_nat N).
  induction fuel as [|fuel IH]; intros rem st fi buff; destruct rem; cbn [scale_loop]; try exact I. cbv zeta. oa.
Qed.
Lemma onlya_read_fields : forall fs (c : contrib E), onlya (read_fields false fs c).
Proof. induction fs as [|[g s|g s] fs IH]; intros c; cbn [read_fields]; oa. Qed.
Hint Resolve onlya_read_fields : oa.
Lemma onlya_read_contrib (c : contrib E) : onlya (read_contrib false c).
Proof. unfold read_contrib. oa. Qed.
Lemma onlya_write_contrib o (c : contrib E) : onlya (write_contrib o c).
Proof. unfold write_contrib. oa. Qed.
Hint Resolve onlya_read_contrib onlya_write_contrib : oa.
Lemma onlya_copy o : forall n (c : contrib E), onlya (copy_contribs false o n c).
Proof. induction n as [|n IH]; intros c; cbn [copy_contribs]; oa. Qed.
Hint Resolve onlya_copy : oa.
Lemma onlya_contribute bs (w : @rnd1 E) : onlya (contribute bs w).
Proof.
  unfold contribute, scaleG1, scaleG2. destruct w as [t a b s1 s2 s3]. oa; apply onlya_scale; intros; oa.
Qed.
(* any other input gives the same *)
Lemma contribute_alone bs (w : @rnd1 E) F g g' : exec (contribute bs w) F g = exec (contribute bs w) F g'.
Proof. apply onlya_exec, onlya_contribute. Qed.
End E1.

Section E2.
Context {E : Ext2}.
Lemma onlya_read_hdr2 : onlya (read_hdr2 (E := E) false).
Proof.
  unfold read_hdr2, read_hdr. oa; apply onlya_reads, gob_alt_reads.
Qed.
Hint Resolve onlya_read_hdr2 : oa.
Lemma onlya_contribute2 bs (d s : E) : onlya (contribute2 bs d s).
Proof.
  assert (S2 : forall o N (x : E), onlya (scale2 bs false o N x)).
  { intros o N x. unfold scale2. destruct (N <? 0)%Z; [exact I|]. cbv zeta. generalize (Z.to_nat N) at 1. intros fuel.
    generalize (repeat (0 : E) (Nat.min (Z.to_nat N) bs)). generalize (Z.to_nat N).
    induction fuel as [|fuel IH]; intros rem buff; destruct rem; cbn [scale2_loop]; try exact I. cbv zeta. oa. apply onlya_decodes1. }
  assert (R2 : onlya (read_contrib2 (E := E) false)).
  { unfold read_contrib2. oa; try apply onlya_decode1; apply onlya_decode2. }
  assert (W2 : forall o (c : contrib2 E), onlya (write_contrib2 o c)) by (intros; unfold write_contrib2; oa).
  assert (C2 : forall o n (c : contrib2 E), onlya (copy_contribs2 false o n c)).
  { induction n as [|n IH]; intros c; cbn [copy_contribs2]; oa. }
  unfold contribute2. oa; try apply onlya_decode1; try apply onlya_decode2; auto.
Qed.
Lemma contribute2_alone bs (d s : E) F g g' : exec (contribute2 bs d s) F g = exec (contribute2 bs d s) F g'.
Proof. apply onlya_exec, onlya_contribute2. Qed.
End E2.
