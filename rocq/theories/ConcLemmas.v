(* ConcLemmas.v -- the forms of the concurrency results used in PropConc.v. *)
From Coq Require Import Relations Operators_Properties.
From Verif Require Import Base Fld Conc Parallel BitRev FFT Poly.

Lemma chunks_partition : forall n tasks, 1 <= tasks ->
  exists l, chunks n tasks = Some l /\
    flat_map (fun r => seq (fst r) (snd r - fst r)) l = seq 0 n /\
    (forall r, In r l -> fst r < snd r) /\ length l <= tasks.
Proof.
  intros n tasks H. destruct (chunks_tiles n tasks H) as [l [E [T L]]].
  exists l. split; [auto|]. split.
  - rewrite (tiles_concat _ _ _ T). f_equal. lia.
  - split; [|auto]. clear - T. revert T. generalize 0. induction l as [|[s e] l IH]; intros a T r Hr; [destruct Hr|].
    destruct T as [_ [T1 T2]]. destruct Hr as [<-|Hr]; [auto|]. eapply IH; eauto.
Qed.

Lemma par_loop_deterministic : forall (A : Type) (f : nat -> A -> A) n tasks m, 1 <= tasks ->
  exists p, parallelize n tasks (fun i => cell i (f i)) = Some p /\
    Acc (fun c2 c1 => step c1 c2) (p, m) /\
    (forall c, steps (p, m) c -> fst c = Skip \/ exists c', step c c') /\
    forall m', steps (p, m) (Skip, m') ->
      length m' = length m /\
      forall i, nth_error m' i = if i <? n then option_map (f i) (nth_error m i) else nth_error m i.
Proof.
  intros A f n tasks m Ht. destruct (par_cells_prog n tasks f Ht) as [p [E [R [S _]]]].
  exists p. split; [auto|]. split; [apply all_schedules_terminate|]. split.
  - intros [q m'] _. apply progress.
  - intros m' H. apply race_free_deterministic in H; auto. subst m'. rewrite S.
    split; [now rewrite mapi_length|]. intros i. rewrite nth_error_mapi.
    destruct (i <? n), (nth_error m i); auto.
Qed.

Lemma steps_to_end {A} (p : prog A) m : exists m', steps (p, m) (Skip, m').
Proof.
  assert (G : forall c : prog A * list A, exists m', steps c (Skip, m')).
  { intros c. induction (all_schedules_terminate c) as [c _ IH].
    destruct c as [q s]. destruct (progress q s) as [->|[c' H]].
    - exists s. constructor.
    - destruct (IH c' H) as [m' Hm]. exists m'. econstructor; eauto. }
  apply G.
Qed.

Lemma par_loop_case : exists p m', parallelize 3 2 (fun i => cell i (fun x => x + i)) = Some p /\
  steps (p, [5; 5; 5]) (Skip, m') /\ m' = [5; 6; 7].
Proof.
  destruct (par_cells_prog 3 2 (fun i x => x + i) ltac:(lia)) as [p [E [R [S _]]]].
  destruct (steps_to_end p [5;5;5]) as [m' H]. exists p, m'. split; [auto|]. split; [auto|].
  apply race_free_deterministic in H; auto. subst. now rewrite S.
Qed.

Lemma mirrors_exists_unique : forall k i, i < 2 ^ k -> exists! r, mirrors k i r.
Proof.
  intros k i H. exists (brev k i). split; [now apply mirrors_brev|].
  intros r Hr. eapply mirrors_unique; eauto using mirrors_brev.
Qed.

Lemma split_cpus : forall cpu stage, 1 <= cpu -> stage < maxSplits_of cpu -> 1 <= cpu / 2 ^ stage.
Proof.
  intros cpu s Hc Hs. unfold maxSplits_of in Hs.
  assert (1 < cpu)%nat by (destruct (Nat.eq_dec cpu 1) as [->|]; [cbn in Hs; lia|lia]).
  assert (2 ^ s <= cpu)%nat.
  { pose proof (Nat.log2_up_spec cpu ltac:(lia)) as [B _].
    apply Nat.le_trans with (2 ^ Nat.pred (Nat.log2_up cpu))%nat; [|lia].
    apply Nat.pow_le_mono_r; lia. }
  apply Nat.div_le_lower_bound; [apply Nat.pow_nonzero; lia|lia].
Qed.

Lemma fft_no_fault : forall (K : Fld) k (winv : K) cpu,
  1 <= cpu -> k < 64 -> k = 0 \/ (winv ^ (2 ^ (k - 1)) = - (1))%F ->
  exists p, convert_prog cpu (mk_domain k winv) (2 ^ k) = Some p /\ (forall i, fprint p i -> i < 2 ^ k) /\
   forall a, length a = 2 ^ k -> convert cpu (mk_domain k winv) a <> None.
Proof.
  intros K k winv cpu Hc Hk Hw.
  destruct (convert_dft K k winv cpu (repeat 0%F (2 ^ k)) Hc Hk Hw) as [p [E [[_ F] _]]]; [apply repeat_length|].
  exists p. split; [auto|]. split; [intros i Hi; apply F in Hi; lia|].
  intros a La. destruct (convert_dft K k winv cpu a Hc Hk Hw La) as [q [_ [_ [E2 _]]]]. congruence.
Qed.

Lemma fft_case : (f17 3 * f17 6 = 1 :> F17)%F /\ (f17 3 ^ (2 ^ (4 - 1)) = - (1) :> F17)%F /\
  (fnat (2 ^ 4) : F17) <> 0%F /\
  option_map (map (zv 17)) (convert 3 (mk_domain 4 (f17 6)) (pows 16 (f17 3))) =
    Some [0;1;0;0;0;0;0;0;0;0;0;0;0;0;0;0]%Z.
Proof.
  split; [now apply feqb_ok|]. split; [now apply feqb_ok|]. split; [now apply feqb_neq|].
  vm_compute. reflexivity.
Qed.
