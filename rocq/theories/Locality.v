(* Locality.v -- a command reads nothing but its inputs and what it has created itself. *)
From Coq Require Import String.
From Verif Require Import Base Fld Conc Parallel IO Ext Spec1 Phase1 Gob Circuit Spec2 Phase2 Fs Init2 Keys Live LiveCmd LiveLemmas LiveClaims LiveTwin Spec5 Spec6 Cli CliClaims Spec10.
Local Open Scope lcmd_scope.

(* programs that do not read *)
Inductive noread {X} : io X -> Prop :=
| nr_ret a : noread (Ret a)
| nr_throw e : noread (Throw e)
| nr_boom : noread Boom
| nr_seek h z c : (forall x, noread (c x)) -> noread (Seek h z c)
| nr_fwd h n c : noread c -> noread (Fwd h n c)
| nr_newrd h n c : noread c -> noread (NewRd h n c)
| nr_newwr o n c : noread c -> noread (NewWr o n c)
| nr_flush o c : (forall x, noread (c x)) -> noread (Flush o c)
| nr_wr o d c : (forall x, noread (c x)) -> noread (Wr o d c).
Lemma noread_bind {X Y} (p : io X) (f : X -> io Y) : noread p -> (forall x, noread (f x)) -> noread (bind p f).
Proof. intros H F. induction H; cbn [bind]; try constructor; auto. Qed.
Lemma noread_flush {X} o (p : io X) : noread p -> noread (with_flush o p).
Proof. intros H. induction H; cbn [with_flush]; try (constructor; auto; intros; constructor; fail). Qed.

Definition cut (w : world) (p : string) : Prop := In (OTrunc p) (w_ops w).
(* two runs side by side: the same so far, on files that agree on the inputs I and on what was created *)
Definition par (dev : device) (I : string -> Prop) (w1 w2 : world) : Prop :=
  w_used w1 = w_used w2 /\ w_calls w1 = w_calls w2 /\ w_ops w1 = w_ops w2 /\
  (forall x, I x \/ cut w1 x -> w_fs w1 x = w_fs w2 x) /\
  (forall p d, In (OApp p d) (w_ops w1) -> cut w1 p) /\
  (forall k p, nth_error (w_ops w1) k = Some (OTrunc p) -> can_create dev k p = true).

Section Local.
Variable dev : device.
Variable I : string -> Prop.

Lemma par_os p d w1 w2 : par dev I w1 w2 -> (forall q, p = Some q -> cut w1 q) ->
  exists ok n w1' w2', os_write dev p d w1 = (ok, n, w1') /\ os_write dev p d w2 = (ok, n, w2') /\ par dev I w1' w2' /\
    forall q, cut w1 q -> cut w1' q.
Proof.
  intros (U & C & O & S & A & N) P. destruct p as [p|]; cbn [os_write].
  - rewrite <- U, <- C, <- O. eexists _, _, _, _. split; [reflexivity|]. split; [reflexivity|]. split; [|intros q Q; unfold cut; cbn [w_ops]; apply in_or_app; now left].
    specialize (P p eq_refl). assert (EP : contents (w_fs w1) p = contents (w_fs w2) p) by (unfold contents; now rewrite S by now right).
    unfold par, cut. cbn [w_used w_calls w_ops w_fs]. repeat split; auto.
    + intros x H. rewrite EP. unfold fset. destruct (String.eqb_spec p x) as [->|NE]; [reflexivity|].
      apply S. destruct H as [H|H]; [now left|]. apply in_app_or in H as [H|[H|[]]]; [now right|discriminate].
    + intros q e H. apply in_app_or in H as [H|[H|[]]]; apply in_or_app; left; [eapply A; exact H|]. injection H as <- <-. exact P.
    + intros k q H. destruct (Nat.lt_ge_cases k (length (w_ops w1))) as [L|L]; [rewrite nth_error_app1 in H by exact L; now apply N|].
      rewrite nth_error_app2 in H by exact L. destruct (k - length (w_ops w1)) as [|[|j]]; discriminate H.
  - eexists _, _, _, _. split; [reflexivity|]. split; [reflexivity|]. repeat split; auto.
Qed.

(* a step on the world that does the same in both runs *)
Definition twin {Y} (g : world -> Y * world) (w1 w2 : world) : Prop :=
  fst (g w1) = fst (g w2) /\ par dev I (snd (g w1)) (snd (g w2)) /\ forall q, cut w1 q -> cut (snd (g w1)) q.
Lemma twin_ret {Y} (y : Y) w1 w2 : par dev I w1 w2 -> twin (fun w => (y, w)) w1 w2.
Proof. intros H. split; [reflexivity|]. split; [exact H|auto]. Qed.
Lemma twin_os p d w1 w2 : par dev I w1 w2 -> (forall q, p = Some q -> cut w1 q) -> twin (os_write dev p d) w1 w2.
Proof. intros H P. destruct (par_os p d w1 w2 H P) as (ok & n & w1' & w2' & A & B & C & D). unfold twin. rewrite A, B. cbn [fst snd]. auto. Qed.
Lemma twin_then {Y Z} (g : world -> Y * world) (k : Y -> world -> Z * world) w1 w2 : twin g w1 w2 ->
  (forall y w1' w2', g w1 = (y, w1') -> g w2 = (y, w2') -> par dev I w1' w2' -> (forall q, cut w1 q -> cut w1' q) -> twin (k y) w1' w2') ->
  twin (fun w => let '(y, w') := g w in k y w') w1 w2.
Proof.
  intros [A [B C]] K. unfold twin. destruct (g w1) as [y w1'], (g w2) as [y2 w2']. cbn [fst snd] in *. subst y2.
  destruct (K y w1' w2' eq_refl eq_refl B C) as [D [F G]]. split; [exact D|]. split; [exact F|auto].
Qed.
Lemma twin_direct d x w1 w2 : par dev I w1 w2 -> (forall q, o_path x = Some q -> cut w1 q) -> twin (bw_direct dev d x) w1 w2.
Proof.
  intros H P. destruct (par_os (o_path x) d w1 w2 H P) as (ok & n & w1' & w2' & A & B & C & D). unfold twin, bw_direct. rewrite A, B. cbn [fst snd]. auto.
Qed.
Lemma twin_bflush x w1 w2 : par dev I w1 w2 -> (forall q, o_path x = Some q -> cut w1 q) -> twin (bw_flush dev x) w1 w2.
Proof.
  intros H P. unfold twin, bw_flush. destruct (o_bad x); [now apply twin_ret|]. destruct (o_buf x) as [|b l]; [now apply twin_ret|].
  destruct (par_os (o_path x) (b :: l) w1 w2 H P) as (ok & n & w1' & w2' & A & B & C & D). rewrite A, B. cbn [fst snd]. auto.
Qed.
Lemma twin_write d x w1 w2 : par dev I w1 w2 -> (forall q, o_path x = Some q -> cut w1 q) -> twin (h_write dev d x) w1 w2.
Proof.
  intros H P. unfold twin, h_write. destruct (o_cap x) as [|cap] eqn:CX.
  { destruct (par_os (o_path x) d w1 w2 H P) as (ok & n & w1' & w2' & A & B & C & D). rewrite A, B. cbn [fst snd]. auto. }
  unfold bw_write. destruct (o_bad x); [now apply twin_ret|].
  destruct (length d <=? _); [now apply twin_ret|]. destruct (o_buf x) as [|b l]; [now apply twin_direct|].
  match goal with |- context [bw_flush dev ?y w1] =>
    destruct (twin_bflush y w1 w2 H P) as [A [B C]]; pose proof (proj2 (bw_flush_grows dev y w1)) as Q;
    destruct (bw_flush dev y w1) as [[ok y1] v1], (bw_flush dev y w2) as [[ok2 y2] v2] end.
  cbn [fst snd o_path] in *. injection A as <- <-. destruct ok; [|now split; [|split]].
  destruct (length _ <=? o_cap y1); [cbn [fst snd]; now split; [|split]|].
  destruct (twin_direct (skipn (o_cap x - length (b :: l)) d) y1 v1 v2 B) as [D [F G]].
  { intros q K. apply C, P. congruence. }
  split; [exact D|]. split; [exact F|auto].
Qed.
Lemma twin_flush x w1 w2 : par dev I w1 w2 -> (forall q, o_path x = Some q -> cut w1 q) -> twin (h_flush dev x) w1 w2.
Proof. intros H P. unfold twin, h_flush. destruct (o_cap x); [now apply twin_ret|now apply twin_bflush]. Qed.

(* where a handle may be open *)
Definition outs_cut (hs : handles) (w : world) : Prop := forall k q, paths hs k = Some q -> cut w q.
Definition ins_ok (hs : handles) (w : world) : Prop := forall h, let q := i_path (geti h hs) in I q \/ cut w q.
Lemma l_read_path k f i : i_path (snd (l_read k f i)) = i_path i.
Proof.
  unfold l_read. destruct (i_cap i); [destruct (skipn _ _); reflexivity|]. destruct (i_buf i); [|reflexivity].
  destruct (skipn _ _); [reflexivity|]. destruct (_ <=? _); reflexivity.
Qed.
Lemma l_read_same k f g i : contents f (i_path i) = contents g (i_path i) -> l_read k f i = l_read k g i.
Proof. intros H. unfold l_read. now rewrite H. Qed.
Lemma geti_seti h h' i hs : geti h' (seti h i hs) = if Bool.eqb h h' then i else geti h' hs.
Proof. now destruct h, h'. Qed.
Lemma twin_run {X} (p : io X) : forall hs w1 w2, par dev I w1 w2 -> outs_cut hs w1 -> (noread p \/ ins_ok hs w1) -> twin (lrun dev p hs) w1 w2.
Proof.
  assert (SI : forall h i hs w, ins_ok hs w -> i_path i = i_path (geti h hs) -> ins_ok (seti h i hs) w).
  { intros h i hs w H Q h'. cbv zeta. rewrite geti_seti. destruct (Bool.eqb h h') eqn:B; [|apply H]. rewrite Q. apply H. }
  assert (SO : forall o x hs w, outs_cut hs w -> o_path x = o_path (h_out hs o) -> outs_cut (seto o x hs) w).
  { intros o x hs w H Q k q. unfold paths, seto. cbn [h_out]. destruct (Nat.eqb_spec o k) as [->|]; [rewrite Q|]; apply H. }
  induction p as [a|e| |h k c IH|h z c IH|h n c IH|h n c IH|o n c IH|o c IH|o d c IH]; intros hs w1 w2 H O N.
  - now apply twin_ret.
  - now apply twin_ret.
  - now apply twin_ret.
  - destruct N as [N|N]; [inversion N|]. unfold twin. cbn [lrun].
    assert (EQ : l_read k (w_fs w2) (geti h hs) = l_read k (w_fs w1) (geti h hs)).
    { apply l_read_same. unfold contents. destruct H as (_ & _ & _ & S & _). now rewrite (S _ (N h)). }
    rewrite EQ. pose proof (l_read_path k (w_fs w1) (geti h hs)) as P. destruct (l_read k (w_fs w1) (geti h hs)) as [x i]. cbn [snd] in P.
    apply (IH x (seti h i hs) w1 w2 H); [destruct h; exact O|right; now apply SI].
  - unfold twin. cbn [lrun]. destruct (z <? 0)%Z.
    + apply (IH false hs w1 w2 H O). destruct N as [N|N]; [left; now inversion N|now right].
    + apply (IH true _ w1 w2 H); [destruct h; exact O|]. destruct N as [N|N]; [left; now inversion N|right; now apply SI].
  - apply (IH _ w1 w2 H); [destruct h; exact O|]. destruct N as [N|N]; [left; now inversion N|right; now apply SI].
  - apply (IH _ w1 w2 H); [destruct h; exact O|]. destruct N as [N|N]; [left; now inversion N|right; now apply SI].
  - apply (IH _ w1 w2 H); [now apply SO|]. destruct N as [N|N]; [left; now inversion N|right; exact N].
  - unfold twin. cbn [lrun]. destruct (twin_flush (h_out hs o) w1 w2 H (O o)) as [A [B C]].
    pose proof (proj2 (h_flush_grows dev (h_out hs o) w1)) as Q.
    destruct (h_flush dev (h_out hs o) w1) as [[ok x] v1], (h_flush dev (h_out hs o) w2) as [[ok2 x2] v2]. cbn [fst snd] in *. injection A as <- <-.
    destruct (IH ok (seto o x hs) v1 v2 B) as [D [F G]].
    + apply SO; [intros k q K; apply C; now apply (O k)|exact Q].
    + destruct N as [N|N]; [left; now inversion N|]. right. intros h. destruct (N h) as [K|K]; [now left|right; now apply C].
    + split; [exact D|]. split; [exact F|auto].
  - unfold twin. cbn [lrun]. destruct (twin_write d (h_out hs o) w1 w2 H (O o)) as [A [B C]].
    pose proof (proj2 (h_write_grows dev d (h_out hs o) w1)) as Q.
    destruct (h_write dev d (h_out hs o) w1) as [[ok x] v1], (h_write dev d (h_out hs o) w2) as [[ok2 x2] v2]. cbn [fst snd] in *. injection A as <- <-.
    destruct (IH ok (seto o x hs) v1 v2 B) as [D [F G]].
    + apply SO; [intros k q K; apply C; now apply (O k)|exact Q].
    + destruct N as [N|N]; [left; now inversion N|]. right. intros h. destruct (N h) as [K|K]; [now left|right; now apply C].
    + split; [exact D|]. split; [exact F|auto].
Qed.

(* commands: l has been created before, l' afterwards *)
Definition made (l : list string) (w : world) : Prop := forall q, In q l -> cut w q.
Definition local {X} (l l' : list string) (c : lcmd X) : Prop := forall w1 w2, par dev I w1 w2 -> made l w1 ->
  fst (c w1) = fst (c w2) /\ par dev I (snd (c w1)) (snd (c w2)) /\
  match fst (c w1) with Ok _ => made l' (snd (c w1)) | _ => True end.
Lemma local_bind {X Y} l l1 l2 (c : lcmd X) (k : X -> lcmd Y) : local l l1 c -> (forall x, local l1 l2 (k x)) -> local l l2 (lbind c k).
Proof.
  intros A B w1 w2 H M. unfold lbind. destruct (A w1 w2 H M) as [A1 [A2 A3]]. destruct (c w1) as [r v1], (c w2) as [r2 v2]. cbn [fst snd] in *. subst r2.
  destruct r as [x|e|]; [|auto|auto]. exact (B x v1 v2 A2 A3).
Qed.
Lemma local_skip {X} l (c : lcmd X) : (forall w, snd (c w) = w) -> (forall w1 w2, par dev I w1 w2 -> made l w1 -> fst (c w1) = fst (c w2)) -> local l l c.
Proof.
  intros S F w1 w2 H M. rewrite !S. split; [now apply F|]. split; [exact H|]. now destruct (fst (c w1)).
Qed.
Lemma local_ret {X} l (x : X) : local l l (lret x). Proof. apply local_skip; reflexivity. Qed.
Lemma local_fail {X} l l' e : local l l' (lfail (X := X) e).
Proof. intros w1 w2 H M. split; [reflexivity|]. split; [exact H|exact Logic.I]. Qed.
Lemma local_boom {X} l l' : local l l' (lboom (X := X)).
Proof. intros w1 w2 H M. split; [reflexivity|]. split; [exact H|exact Logic.I]. Qed.
Lemma local_open l p : I p \/ In p l -> local l l (lopen p).
Proof.
  intros K. apply local_skip; [reflexivity|]. intros w1 w2 H M. unfold lopen. cbn [fst]. destruct H as (_ & _ & _ & S & _).
  rewrite (S p); [reflexivity|]. destruct K as [K|K]; [now left|right; now apply M].
Qed.
Lemma local_create l p : local l (p :: l) (lcreate dev p).
Proof.
  intros w1 w2 (U & C & O & S & A & N) M. unfold lcreate. rewrite <- O. destruct (can_create dev (length (w_ops w1)) p) eqn:CC; cbn [fst snd].
  2: { split; [reflexivity|]. split; [repeat split; assumption|exact Logic.I]. }
  split; [reflexivity|]. split.
  - unfold par, cut. cbn [w_used w_calls w_ops w_fs]. split; [exact U|]. split; [exact C|]. split; [reflexivity|]. split.
    + intros x H. unfold fset. destruct (String.eqb_spec p x) as [->|NE]; [reflexivity|]. apply S. destruct H as [H|H]; [now left|].
      apply in_app_or in H as [H|[H|[]]]; [now right|congruence].
    + split; [intros q d H; apply in_app_or in H as [H|[H|[]]]; [|discriminate]; apply in_or_app; left; eapply A; exact H|].
      intros k q H. destruct (Nat.lt_ge_cases k (length (w_ops w1))) as [L|L]; [rewrite nth_error_app1 in H by exact L; now apply N|].
      rewrite nth_error_app2 in H by exact L. destruct (k - length (w_ops w1)) as [|[|j]] eqn:KJ; try discriminate H. injection H as <-.
      now replace k with (length (w_ops w1)) by lia.
  - intros q [<-|H]; unfold cut; cbn [w_ops]; apply in_or_app; [right; now left|left; now apply M].
Qed.
Lemma local_stage_at {X} l (p : io X) a b ps : (forall k q, ps k = Some q -> In q l) ->
  (noread p \/ (I a \/ In a l) /\ (I b \/ In b l)) -> local l l (lstage_at dev p a b ps).
Proof.
  intros O R w1 w2 H M. destruct (twin_run p (fresh_at a b ps) w1 w2 H) as [A [B C]].
  - intros k q K. apply M. exact (O k q K).
  - destruct R as [R|[RA RB]]; [now left|]. right. intros h. cbv zeta. destruct h; cbn [geti fresh_at h_a h_b i_path].
    + destruct RB; [now left|right; now apply M].
    + destruct RA; [now left|right; now apply M].
  - unfold lstage_at. destruct (lrun dev p (fresh_at a b ps) w1) as [[r hs] v1], (lrun dev p (fresh_at a b ps) w2) as [[r2 hs2] v2]. cbn [fst snd] in *.
    injection A as <- <-. split; [reflexivity|]. split; [exact B|]. destruct r; [|exact Logic.I|exact Logic.I]. intros q Q. apply C. now apply M.
Qed.
Lemma local_stage {X} l (p : io X) a b outs : (forall q, In q outs -> In q l) ->
  (noread p \/ (I a \/ In a l) /\ (I b \/ In b l)) -> local l l (lstage dev p a b outs).
Proof.
  intros O R. change (lstage dev p a b outs) with (lstage_at dev p a b (nth_error outs)). apply local_stage_at; [|exact R].
  intros k q K. apply O. eapply nth_error_In. exact K.
Qed.
Lemma local_hold {X} l (p : io X) a b outs : (forall q, In q outs -> In q l) ->
  (noread p \/ (I a \/ In a l) /\ (I b \/ In b l)) -> local l l (lhold dev p a b outs).
Proof.
  intros O R w1 w2 H M. destruct (twin_run p (fresh a b outs) w1 w2 H) as [A [B C]].
  - intros k q K. apply M, O. eapply nth_error_In. exact K.
  - destruct R as [R|[RA RB]]; [now left|]. right. intros h. cbv zeta. destruct h; cbn [geti fresh h_a h_b i_path].
    + destruct RB; [now left|right; now apply M].
    + destruct RA; [now left|right; now apply M].
  - unfold lhold. destruct (lrun dev p (fresh a b outs) w1) as [[r hs] v1], (lrun dev p (fresh a b outs) w2) as [[r2 hs2] v2]. cbn [fst snd] in *.
    injection A as <- <-. split; [reflexivity|]. split; [exact B|]. intros q Q. apply C. now apply M.
Qed.
Lemma local_res {X} l (r : res X) : local l l (lres r). Proof. apply local_skip; reflexivity. Qed.
Lemma local_flush l p x : In p l -> local l l (lflush dev p x).
Proof.
  intros P w1 w2 H M. unfold lflush. destruct (twin_flush (mkO (Some p) (o_cap x) (o_buf x) (o_bad x)) w1 w2 H) as [A [B C]].
  - intros q Q. injection Q as <-. now apply M.
  - cbn [fst snd]. split; [reflexivity|]. split; [exact B|]. intros q Q. apply C. now apply M.
Qed.
Lemma made_only {X} ps l (c : lcmd X) w : lonly ps c -> made l w -> made l (snd (c w)).
Proof. intros L M q Q. destruct (L w) as [ops [A _]]. unfold cut. rewrite A. apply in_or_app. left. now apply M. Qed.
Lemma local_defer {X} l l' ps (c : lcmd X) d : local l l' c -> local l l d -> lonly ps c -> lonly ps d -> local l l' (ldefer c d).
Proof.
  intros C D OC OD w1 w2 H M. unfold ldefer. destruct (C w1 w2 H M) as [A [B P]]. pose proof (made_only ps l c w1 OC M) as M1.
  destruct (c w1) as [r v1], (c w2) as [r2 v2]. cbn [fst snd] in *. subst r2. destruct (D v1 v2 B M1) as [_ [F _]].
  split; [reflexivity|]. split; [exact F|]. destruct r; [|exact Logic.I|exact Logic.I]. now apply (made_only ps).
Qed.
End Local.

(* ---- the commands ---- *)
Lemma noread_write o d : noread (write o d). Proof. unfold write. apply nr_wr. intros [|]; constructor. Qed.
Lemma noread_write_ o d : noread (write_ o d). Proof. unfold write_. apply nr_wr. intros x. constructor. Qed.

Lemma noread_try {X} (p : io X) : noread p -> noread (try p).
Proof. intros H. induction H; cbn [try]; constructor; auto. Qed.
Lemma noread_encodes o l : noread (encodes o l).
Proof. induction l as [|b l IH]; cbn [encodes]; [constructor|]. apply noread_bind; [apply noread_write|intros _; exact IH]. Qed.
Lemma noread_initialize {E : Ext} pw : noread (initialize (E := E) pw).
Proof.
  unfold initialize. cbv zeta. apply noread_bind.
  { apply noread_try. unfold write_header. apply noread_bind; [apply noread_write|intros _; apply noread_write]. }
  intros _. apply nr_newwr, noread_flush. unfold repeat_write. do 4 (apply noread_bind; [apply noread_encodes|intros _]). apply noread_write_.
Qed.

Section Commands.
Context {E : Ext2}.
Variable dev : device.
Variable I : string -> Prop.
Ltac ii := cbn [In]; tauto.
Ltac lo := lazymatch goal with
  | |- local _ _ _ _ (lopen _) => apply local_open; ii
  | |- local _ _ _ _ (lret _) => apply local_ret
  | |- local _ _ _ _ (lcreate _ _) => apply local_create
  | |- local _ _ _ _ (lstage _ _ _ _ _) => apply local_stage; [cbn [In]; intros ?; tauto|right; split; ii]
  | |- local _ _ _ _ (lstage_at _ _ _ _ _) => apply local_stage_at; [intros [|[|[|[|k]]]] q K; cbn in K; try discriminate; injection K as <-; ii|right; split; ii]
  end.
Ltac lb := eapply local_bind; [lo|intros ?].
Lemma local_weak {X} l l' l1 (c : lcmd X) : (forall q, In q l1 -> In q l') -> local dev I l l' c -> local dev I l l1 c.
Proof.
  intros S L w1 w2 H M. destruct (L w1 w2 H M) as [A [B C]]. split; [exact A|]. split; [exact B|]. destruct (fst (c w1)); auto. intros q Q. apply C. auto.
Qed.
Lemma local_one {X} (p : io X) ip op : I ip -> local dev I [] [op] (l_one dev p ip op).
Proof. intros H. unfold l_one. do 2 lb. lo. Qed.
Lemma local_initialize {E1 : Ext} pw op : local dev I [] [op] (l_initialize (E := E1) dev pw op).
Proof. unfold l_initialize. lb. apply local_stage; [ii|]. left. apply noread_initialize. Qed.
Lemma local_steps circuit cons nb p1 p2 l : I p1 -> In p2 l -> (forall l, In p2 l -> local dev I l l circuit) ->
  local dev I l (evals_path :: lag_path :: l) (l_init_steps (E := E) dev circuit cons nb p1 p2).
Proof.
  intros H P C. unfold l_init_steps. cbv zeta. eapply local_bind; [apply C; ii|intros cs].
  eapply local_bind; [apply local_stage; [intros q [<-|[]]; ii|right; split; ii]|intros [pw h]].
  eapply (local_bind dev I l (lag_path :: l)).
  { unfold l_lagrange. destruct (new_domain (E := E) (h_domain h)); [|apply local_boom]. lb.
    apply local_stage; [intros q [<-|[<-|[]]]; ii|right; split; ii]. }
  intros _. do 3 lb. eapply local_bind; [apply C; ii|intros cs2]. do 3 lb. eapply local_bind; [apply C; ii|intros cs3]. lo.
Qed.
Lemma local_r1cs l r1 : I r1 \/ In r1 l -> local dev I l l (l_read_r1cs (E := E) r1).
Proof.
  intros H. unfold l_read_r1cs. eapply local_bind; [apply local_open; exact H|intros _].
  apply local_skip; [intros w; destruct (parse_r1cs _); reflexivity|]. intros w1 w2 (_ & _ & _ & S & _) M. unfold contents.
  rewrite (S r1) by (destruct H as [H|H]; [now left|right; now apply M]). now destruct (parse_r1cs _).
Qed.
Lemma local_p2n p1 r1 p2 : I p1 -> I r1 -> local dev I [] [evals_path; lag_path; p2] (l_p2n (E := E) dev p1 r1 p2).
Proof. intros H R. unfold l_p2n. do 2 lb. apply local_steps; [exact H|ii|]. intros l _. apply local_r1cs. ii. Qed.
Lemma local_p2np (cs : r1cs E) p1 p2 n : I p1 -> local dev I [] [evals_path; lag_path; p2] (l_p2np (E := E) dev cs p1 p2 n).
Proof. intros H. unfold l_p2np. do 2 lb. apply local_steps; [exact H|ii|]. intros l _. apply local_ret. Qed.
Lemma local_keys wr (g sg : E) p : I p -> I evals_path -> local dev I [] [vk_path; pk_path] (l_keys dev wr g sg p).
Proof.
  intros H V. unfold l_keys, l_pk, l_vk, l_header. eapply local_bind; [do 4 lb; lo|intros _]. do 5 lb. lo.
Qed.
Lemma local_creates names : forall l l0 (c : lcmd unit), local dev I l l0 c ->
  local dev I l (rev names ++ l0) (fold_left (fun c n => c ;;; lcreate dev n) names c).
Proof.
  induction names as [|n names IH]; intros l l0 c L; cbn [fold_left rev app]; [exact L|]. rewrite <- app_assoc. cbn [app].
  apply IH. eapply local_bind; [exact L|intros _]. apply local_create.
Qed.
Lemma local_split_keys wr (g sg : E) p s : I p -> I evals_path ->
  local dev I [] (ckey_path s :: vks_path s :: rev (split_names s)) (l_split_keys dev wr g sg p s).
Proof.
  intros H V. unfold l_split_keys, l_split_pk, l_split_vk, l_header. eapply (local_bind dev I [] (rev (split_names s))); [|intros _].
  - do 3 lb. eapply local_bind; [apply local_creates, local_ret|intros _]. rewrite app_nil_r.
    apply local_stage; [intros q Q; now apply in_rev in Q|right; split; ii].
  - do 3 lb. lb. eapply local_bind; [apply local_hold; [intros q [<-|[]]; ii|right; split; ii]|intros y].
    apply (local_defer dev I _ _ [ckey_path s; vks_path s]).
    + eapply local_bind; [apply local_res|intros ck]. lb.
      apply local_stage; [intros q [<-|[]]; ii|]. left. apply noread_bind; [apply noread_write_|intros _; apply noread_write].
    + apply local_flush. ii.
    + eapply lonly_bind; [apply lonly_res|intros ck]. eapply lonly_bind; [apply lonly_create; ii|intros _]. apply lonly_stage. intros q [<-|[]]. ii.
    + apply lonly_flush. ii.
Qed.
End Commands.
