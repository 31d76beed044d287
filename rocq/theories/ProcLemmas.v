(* ProcLemmas.v -- a process that runs alone is a command of Cli.v. *)
From Coq Require Import String.
From Verif Require Import Base Fld Conc Parallel IO Ext Spec1 Phase1 Gob Circuit Spec2 Phase2 Fs Init2 Keys Live LiveCmd LiveClaims Cli Session Proc.

(* the induction principle that looks inside the pairs *)
Fixpoint proc_rect' {A} (P : proc A -> Prop) (D : forall a, P (Done a)) (S : forall k, (forall f, P (snd (k f))) -> P (Step k)) (p : proc A) : P p :=
  match p with
  | Done a => D a
  | Step k => S k (fun f => match k f as x return P (snd x) with (_, p') => proc_rect' P D S p' end)
  end.
Lemma solo_join {A B} (p : proc A) (g : A -> proc B) : forall f, solo (pjoin p g) f = let '(a, f') := solo p f in solo (g a) f'.
Proof.
  induction p as [a|k IH] using proc_rect'; intros f; [reflexivity|]. cbn [pjoin solo]. specialize (IH f). destruct (k f) as [f' p']. apply IH.
Qed.

Definition same {X} (p : pcmd X) (c : lcmd X) : Prop := forall w, solo (p (own w)) (w_fs w) = ((fst (c w), own (snd (c w))), w_fs (snd (c w))).
Lemma in_own w : in_world (own w) (w_fs w) = w. Proof. now destruct w. Qed.
Lemma same_atomic {X} (c : lcmd X) : same (atomic c) c.
Proof. intros w. cbn [atomic solo]. rewrite in_own. destruct (c w) as [r w1]. reflexivity. Qed.
Lemma same_bind {X Y} (p : pcmd X) (c : lcmd X) (k : X -> pcmd Y) (k' : X -> lcmd Y) : same p c -> (forall x, same (k x) (k' x)) -> same (pbind p k) (lbind c k').
Proof.
  intros A B w. unfold pbind, lbind. rewrite solo_join, (A w). destruct (c w) as [r w1]. cbn [fst snd]. destruct r as [x|e|]; [apply B|reflexivity|reflexivity].
Qed.
Lemma same_ret {X} (x : X) : same (pret x) (lret x). Proof. intros w. reflexivity. Qed.
Lemma same_fail {X} e : same (pfail (X := X) e) (lfail e). Proof. intros w. reflexivity. Qed.
Lemma same_boom {X} : same (pboom (X := X)) lboom. Proof. intros w. reflexivity. Qed.
Lemma same_runh {X} dev (p : io X) : forall hs w, solo (prunh dev p hs (own w)) (w_fs w) =
  let '(r, hs1, w1) := lrun dev p hs w in ((r, hs1, own w1), w_fs w1).
Proof.
  induction p as [a|e| |h k c IH|h z c IH|h n c IH|h n c IH|o n c IH|o c IH|o d c IH]; intros hs w; try reflexivity.
  - cbn [prunh lrun solo]. destruct (l_read k (w_fs w) (geti h hs)) as [x i]. apply IH.
  - cbn [prunh lrun]. destruct (z <? 0)%Z; apply IH.
  - cbn [prunh lrun]. apply IH.
  - cbn [prunh lrun]. apply IH.
  - cbn [prunh lrun]. apply IH.
  - cbn [prunh lrun solo]. rewrite in_own. destruct (h_flush dev (h_out hs o) w) as [[ok x] w1]. apply IH.
  - cbn [prunh lrun solo]. rewrite in_own. destruct (h_write dev d (h_out hs o) w) as [[ok x] w1]. apply IH.
Qed.
Lemma same_run {X} dev (p : io X) hs w : solo (prun dev p hs (own w)) (w_fs w) = let '(r, _, w1) := lrun dev p hs w in ((r, own w1), w_fs w1).
Proof. unfold prun. rewrite solo_join, same_runh. now destruct (lrun dev p hs w) as [[r hs1] w1]. Qed.
Lemma same_stage {X} dev (p : io X) a b l : same (pstage dev p a b l) (lstage dev p a b l).
Proof. intros w. unfold pstage, lstage. rewrite same_run. destruct (lrun dev p (fresh a b l) w) as [[r hs] w1]. reflexivity. Qed.
Lemma same_stage_at {X} dev (p : io X) a b l : same (pstage_at dev p a b l) (lstage_at dev p a b l).
Proof. intros w. unfold pstage_at, lstage_at. rewrite same_run. destruct (lrun dev p (fresh_at a b l) w) as [[r hs] w1]. reflexivity. Qed.
Lemma same_hold {X} dev (p : io X) a b l : same (phold dev p a b l) (lhold dev p a b l).
Proof. intros w. unfold phold, lhold. rewrite solo_join, same_runh. now destruct (lrun dev p (fresh a b l) w) as [[r hs] w1]. Qed.
Lemma same_res {X} (r : res X) : same (pres r) (lres r). Proof. intros w. reflexivity. Qed.
Lemma same_defer {X} (p : pcmd X) (c : lcmd X) d e : same p c -> same d e -> same (pdefer p d) (ldefer c e).
Proof.
  intros A B w. unfold pdefer, ldefer. rewrite solo_join, (A w). destruct (c w) as [r w1]. cbn [fst snd]. rewrite solo_join, (B w1). reflexivity.
Qed.

Ltac ss := lazymatch goal with
  | |- same (pbind _ _) _ => apply same_bind; [ss|intros ?; ss]
  | |- same (popen _) _ => apply same_atomic
  | |- same (pcreate _ _) _ => apply same_atomic
  | |- same (pret _) _ => apply same_ret
  | |- same (pstage _ _ _ _ _) _ => apply same_stage
  | |- same (phold _ _ _ _ _) _ => apply same_hold
  | |- same (pres _) _ => apply same_res
  | |- same (pdefer _ _) _ => apply same_defer; ss
  | |- same (pflush _ _ _) _ => apply same_atomic
  | |- same (pstage_at _ _ _ _ _) _ => apply same_stage_at
  | |- _ => idtac
  end.
Section Cmd.
Context {E : Ext2}.
Variables (dev : device) (bs : nat) (v : inv E).
Lemma same_one {X} (p : io X) ip op : same (p_one dev p ip op) (l_one dev p ip op).
Proof. unfold p_one, l_one. ss. Qed.
Lemma same_r1cs p : same (p_read_r1cs (E := E) p) (l_read_r1cs p).
Proof. unfold p_read_r1cs, l_read_r1cs. ss. apply same_atomic. Qed.
Lemma same_steps circuit circuit' cons nb p1 p2 : same circuit circuit' ->
  same (p_init_steps (E := E) dev circuit cons nb p1 p2) (l_init_steps (E := E) dev circuit' cons nb p1 p2).
Proof.
  intros C. unfold p_init_steps, l_init_steps. cbv zeta. apply same_bind; [exact C|intros cs]. apply same_bind; [apply same_stage|intros [pw h]].
  apply same_bind; [unfold p_lagrange, l_lagrange; destruct (new_domain (E := E) (h_domain h)); [ss|apply same_boom]|intros _].
  do 3 (apply same_bind; [ss|intros _]). apply same_bind; [exact C|intros cs2]. do 3 (apply same_bind; [ss|intros _]). apply same_bind; [exact C|intros cs3]. ss.
Qed.
Lemma same_p2n p1 r1 p2 : same (p_p2n (E := E) dev p1 r1 p2) (l_p2n (E := E) dev p1 r1 p2).
Proof. unfold p_p2n, l_p2n. do 2 (apply same_bind; [ss|intros _]). apply same_steps, same_r1cs. Qed.
Lemma same_p2np (cs : r1cs E) p1 p2 nb : same (p_p2np dev cs p1 p2 nb) (l_p2np dev cs p1 p2 nb).
Proof. unfold p_p2np, l_p2np. do 2 (apply same_bind; [ss|intros _]). apply same_steps, same_ret. Qed.
Lemma same_creates names : forall p c, same p c -> same (fold_left (fun c n => pbind c (fun _ => pcreate dev n)) names p) (fold_left (fun c n => lbind c (fun _ => lcreate dev n)) names c).
Proof. induction names as [|n names IH]; intros p c H; [exact H|]. cbn [fold_left]. apply IH. apply same_bind; [exact H|intros _; ss]. Qed.
Lemma same_keys wr (g sg : E) p : same (p_keys dev wr g sg p) (l_keys dev wr g sg p).
Proof. unfold p_keys, l_keys, p_pk, l_pk, p_vk, l_vk, p_header, l_header. ss. Qed.
Lemma same_split_keys wr (g sg : E) p s : same (p_split_keys dev wr g sg p s) (l_split_keys dev wr g sg p s).
Proof.
  unfold p_split_keys, l_split_keys. apply same_bind; [|intros _].
  - unfold p_split_pk, l_split_pk, p_header, l_header. cbv zeta. do 3 (apply same_bind; [ss|intros _]). apply same_bind; [apply same_creates, same_ret|intros _]. ss.
  - unfold p_split_vk, l_split_vk, p_header, l_header. cbv zeta. ss.
Qed.
Lemma same_verify ip tp : same (p_verify dev bs v ip tp) (l_verify dev bs v ip tp).
Proof.
  unfold p_verify, l_verify. apply same_bind; [ss|intros _]. intros w. unfold pbind. rewrite solo_join.
  match goal with |- context [atomic ?c] => rewrite (same_atomic c w) end. cbn [fst snd]. apply same_stage.
Qed.
Lemma same_verify2 ip op : same (p_verify2 dev bs v ip op) (l_verify2 dev bs v ip op).
Proof. unfold p_verify2, l_verify2. ss. Qed.
Lemma same_sol s : same (p_sol dev v s) (l_sol dev v s).
Proof.
  intros w. unfold p_sol, l_sol. unfold pbind at 1. rewrite solo_join.
  match goal with |- context [atomic ?c (own w)] => rewrite (same_atomic c w) end. cbn [fst snd].
  destruct (match w_fs w (vks_path s) with Some b => v_sol v b | None => None end) as [text|]; [|reflexivity].
  rewrite solo_join.
  assert (S : same (pbind (pcreate dev (sol_path s)) (fun _ => pstage dev (write 0 text) EmptyString EmptyString [sol_path s]))
    (lbind (lcreate dev (sol_path s)) (fun _ => lstage dev (write 0 text) EmptyString EmptyString [sol_path s]))) by ss.
  rewrite (S w). destruct (lbind _ _ w) as [[x|e|] w1]; reflexivity.
Qed.
Lemma same_quiet p c : same p c -> same (pquiet p) (quiet c).
Proof. intros H. unfold pquiet, quiet. apply same_bind; [exact H|intros _; apply same_ret]. Qed.
Lemma same_int s k k' : (forall z, same (k z) (k' z)) -> same (pint s k) (int_arg s k').
Proof. intros H. unfold pint, int_arg. destruct (atoi s); [apply H|apply same_fail]. Qed.
Lemma same_usage : same pusage usage. Proof. apply same_fail. Qed.
Lemma same_initialize pw op : same (p_initialize (E := E) dev pw op) (l_initialize (E := E) dev pw op).
Proof. unfold p_initialize, l_initialize. ss. Qed.

Ltac arity := cbv beta iota delta [a_p1n a_p1c a_p1v a_p1t a_p1vt a_p2n a_p2np a_p2c a_p2v a_extract a_extracts a_sol];
  lazymatch goal with |- same pusage _ => exact same_usage | _ => idtac end.
Lemma same_tool n a : same (ptool dev bs v n a) (tool dev bs v n a).
Proof.
  unfold ptool, ptable, tool, table. cbn [find fst].
  destruct (String.eqb "p1n" n).
  { destruct a as [|x [|o [|? ?]]]; arity. apply same_int. intros z. destruct (z >? 26)%Z; [apply same_fail|]. apply same_quiet, same_initialize. }
  destruct (String.eqb "p1c" n).
  { destruct a as [|x [|o [|? ?]]]; arity. apply same_bind; [|intros h; apply same_ret]. apply (same_one (contribute bs (v_w v)) x o). }
  destruct (String.eqb "p1v" n).
  { destruct a as [|x [|? ?]]; arity. apply same_verify. }
  destruct (String.eqb "p1t" n).
  { destruct a as [|x [|o [|s [|t [|? ?]]]]]; arity. apply same_int. intros i. apply same_int. intros j.
    destruct (i <? j)%Z; [apply same_fail|]. apply same_quiet. apply (same_one (transform (E := E) (to_byte i) (to_byte j)) x o). }
  destruct (String.eqb "p1vt" n).
  { destruct a as [|x [|o [|? ?]]]; arity. apply same_verify. }
  destruct (String.eqb "p2n" n).
  { destruct a as [|x [|r [|o [|? ?]]]]; arity. apply same_quiet, same_p2n. }
  destruct (String.eqb "p2np" n).
  { destruct a as [|x [|r [|o [|s [|t [|u [|? ?]]]]]]]; arity. do 3 (apply same_int; intros ?). apply same_quiet, same_p2np. }
  destruct (String.eqb "p2c" n).
  { destruct a as [|x [|o [|? ?]]]; arity. apply same_bind; [|intros h; apply same_ret]. apply (same_one (contribute2 bs (v_d v) (v_s v)) x o). }
  destruct (String.eqb "p2v" n).
  { destruct a as [|x [|o [|? ?]]]; arity. apply same_verify2. }
  destruct (String.eqb "key" n).
  { destruct a as [|x [|? ?]]; arity. apply same_quiet, same_keys. }
  destruct (String.eqb "keys" n).
  { destruct a as [|x [|o [|? ?]]]; arity. apply same_quiet, same_split_keys. }
  destruct (String.eqb "sol" n).
  { destruct a as [|x [|? ?]]; arity. apply same_quiet, same_sol. }
  exact same_usage.
Qed.
End Cmd.
