(* LiveProps.v -- C18, C51, C52, C55, C56 in the form of Prop5.v. *)
From Coq Require String.
From Verif Require Import Base Fld Conc Parallel IO Ext Spec1 Phase1 Gob Circuit Spec2 Phase2 Fs Init2 Spec4 Keys Phase1Io
  Phase1Verify Live LiveLemmas Sok LiveFail SokPrograms LiveCmd LiveClaims LiveMore LiveAgree LiveTwin Spec5.

Lemma confine {X} ps (c : lcmd X) : lonly ps c -> confined ps c.
Proof.
  intros L f q N. destruct (lonly_safe ps c f q L N) as [A B]. split; [exact A|]. intros g [l [D ->]]. now apply B.
Qed.
Section OneFile.
Context {E : Ext}.
Variable dev : device.
Lemma c18_contribute bs (w : @rnd1 E) ip op : confined [op] (l_contribute dev bs w ip op).
Proof. apply confine. exact (only_one dev (contribute bs w) ip op). Qed.
Lemma c18_transform a b ip op : confined [op] (l_transform (E := E) dev a b ip op).
Proof. apply confine. exact (only_one dev (transform (E := E) a b) ip op). Qed.
Lemma c18_initialize pw op : confined [op] (l_initialize (E := E) dev pw op).
Proof. apply confine, only_initialize. Qed.
End OneFile.
Lemma c18_contribute2 {E : Ext2} dev bs (d s : E) ip op : confined [op] (l_contribute2 dev bs d s ip op).
Proof. apply confine. exact (only_one dev (contribute2 bs d s) ip op). Qed.
Lemma c18_same {E : Ext} dev bs (w : @rnd1 E) p f : can_create dev 0 p = true -> f p <> None ->
  result_of (l_contribute dev bs w p p) f = Err EEof /\ after (l_contribute dev bs w p p) f p = Some [].
Proof. intros C H. destruct (contribute_alias dev bs w p f C H) as [w' [A B]]. unfold result_of, after. rewrite A. auto. Qed.
Lemma c18_same2 {E : Ext2} dev bs (d s : E) p f : can_create dev 0 p = true -> f p <> None ->
  result_of (l_contribute2 dev bs d s p p) f = Err EEof /\ after (l_contribute2 dev bs d s p p) f p = Some [].
Proof. intros C H. destruct (contribute2_alias dev bs d s p f C H) as [w' [A B]]. unfold result_of, after. rewrite A. auto. Qed.
Lemma c18_same_transform {E : Ext} dev a b p f : can_create dev 0 p = true -> f p <> None ->
  (exists e, result_of (l_transform (E := E) dev a b p p) f = Err e) /\
  exists n, after (l_transform (E := E) dev a b p p) f p = Some (firstn n [b; x00; x00]).
Proof. intros C H. destruct (transform_alias dev (E := E) a b p f C H) as [e [w' [n [A B]]]]. unfold result_of, after. rewrite A. split; [exists e; reflexivity|exists n; exact B]. Qed.

(* ---- C51 ---- *)
Lemma thr1 (O : bytes) C : 3 + fl defBuf (length O - 643) <= C <->
  (3 + 4096 * ((N.of_nat (length O) - 644) / 4096) <= N.of_nat C)%N.
Proof.
  pose proof (fl_N (length O - 643)) as H. rewrite Nat2N.inj_sub in H.
  replace (N.of_nat (length O) - N.of_nat 643 - 1)%N with (N.of_nat (length O) - 644)%N in H by lia. rewrite <- H. lia.
Qed.
Lemma thr2 (O : bytes) C : fl defBuf (length O - 192) <= C <->
  (4096 * ((N.of_nat (length O) - 193) / 4096) <= N.of_nat C)%N.
Proof.
  pose proof (fl_N (length O - 192)) as H. rewrite Nat2N.inj_sub in H.
  replace (N.of_nat (length O) - N.of_nat 192 - 1)%N with (N.of_nat (length O) - 193)%N in H by lia. rewrite <- H. lia.
Qed.
Lemma c51_contribute {E : Ext} bs (w : @rnd1 E) ip op f F h O C : ip <> op -> f ip = Some F ->
  exec (contribute bs w) F F = (Ok h, O) ->
  after (l_contribute (disk C) bs w ip op) f op = Some (firstn C O) /\
  ((3 + 4096 * ((N.of_nat (length O) - 644) / 4096) <= N.of_nat C)%N -> result_of (l_contribute (disk C) bs w ip op) f = Ok h) /\
  ((N.of_nat C < 3 + 4096 * ((N.of_nat (length O) - 644) / 4096))%N -> exists e, result_of (l_contribute (disk C) bs w ip op) f = Err e).
Proof.
  intros N HF X. destruct (contribute_disk C bs w ip op f F h O N HF X) as [r [w' [A [B [G L]]]]].
  unfold result_of, after. rewrite A. cbn [fst snd]. split; [exact B|]. split.
  - intros H. apply G, thr1, H.
  - intros H. apply L. destruct (le_lt_dec (3 + fl defBuf (length O - 643)) C) as [K|K]; [|exact K]. apply thr1 in K. lia.
Qed.
Lemma c51_contribute2 {E : Ext2} bs (d s : E) ip op f F h O C : ip <> op -> f ip = Some F ->
  exec (contribute2 bs d s) F F = (Ok h, O) ->
  after (l_contribute2 (disk C) bs d s ip op) f op = Some (firstn C O) /\
  ((4096 * ((N.of_nat (length O) - 193) / 4096) <= N.of_nat C)%N -> result_of (l_contribute2 (disk C) bs d s ip op) f = Ok h) /\
  ((N.of_nat C < 4096 * ((N.of_nat (length O) - 193) / 4096))%N -> exists e, result_of (l_contribute2 (disk C) bs d s ip op) f = Err e).
Proof.
  intros N HF X. destruct (contribute2_disk C bs d s ip op f F h O N HF X) as [r [w' [A [B [G L]]]]].
  unfold result_of, after. rewrite A. cbn [fst snd]. split; [exact B|]. split.
  - intros H. apply G, thr2, H.
  - intros H. apply L. destruct (le_lt_dec (fl defBuf (length O - 192)) C) as [K|K]; [|exact K]. apply thr2 in K. lia.
Qed.
Lemma short_neq (O : bytes) C : C < length O -> firstn C O <> O.
Proof. intros H X. apply (f_equal (@length _)) in X. rewrite firstn_length in X. lia. Qed.
Lemma c51_refuted {E : Ext} bs (w : @rnd1 E) ip op f F h O : ip <> op -> f ip = Some F ->
  exec (contribute bs w) F F = (Ok h, O) -> (643 < length O) ->
  exists C, C < length O /\ result_of (l_contribute (disk C) bs w ip op) f = Ok h /\
    after (l_contribute (disk C) bs w ip op) f op <> Some O.
Proof.
  intros N HF X L. assert (B : N.to_nat (3 + 4096 * ((N.of_nat (length O) - 644) / 4096)) < length O).
  { pose proof (N.mul_div_le (N.of_nat (length O) - 644) 4096 ltac:(lia)). lia. }
  exists (N.to_nat (3 + 4096 * ((N.of_nat (length O) - 644) / 4096))). split; [exact B|].
  destruct (c51_contribute bs w ip op f F h O (N.to_nat (3 + 4096 * ((N.of_nat (length O) - 644) / 4096))) N HF X) as [A [G _]].
  split; [apply G; rewrite N2Nat.id; lia|]. rewrite A. intros Y. injection Y as Y. revert Y. now apply short_neq.
Qed.
Lemma c51_refuted2 {E : Ext2} bs (d s : E) ip op f F h O : ip <> op -> f ip = Some F ->
  exec (contribute2 bs d s) F F = (Ok h, O) -> (192 < length O) ->
  exists C, C < length O /\ result_of (l_contribute2 (disk C) bs d s ip op) f = Ok h /\
    after (l_contribute2 (disk C) bs d s ip op) f op <> Some O.
Proof.
  intros N HF X L. assert (B : N.to_nat (4096 * ((N.of_nat (length O) - 193) / 4096)) < length O).
  { pose proof (N.mul_div_le (N.of_nat (length O) - 193) 4096 ltac:(lia)). lia. }
  exists (N.to_nat (4096 * ((N.of_nat (length O) - 193) / 4096))). split; [exact B|].
  destruct (c51_contribute2 bs d s ip op f F h O (N.to_nat (4096 * ((N.of_nat (length O) - 193) / 4096))) N HF X) as [A [G _]].
  split; [apply G; rewrite N2Nat.id; lia|]. rewrite A. intros Y. injection Y as Y. revert Y. now apply short_neq.
Qed.
(* any device: the returned hash is the hash of the contribution a working device would have stored *)
Lemma c51_hash {E : Ext} dev bs (w : @rnd1 E) ip op f F h : ip <> op -> f ip = Some F ->
  result_of (l_contribute dev bs w ip op) f = Ok h -> exists O, exec (contribute bs w) F F = (Ok h, O).
Proof.
  intros N HF R. unfold result_of in R. destruct (l_contribute dev bs w ip op (start f)) as [r w'] eqn:X. cbn [fst] in R. subst r.
  eapply contribute_honest; eauto.
Qed.
Lemma c51_hash2 {E : Ext2} dev bs (d s : E) ip op f F h : ip <> op -> f ip = Some F ->
  result_of (l_contribute2 dev bs d s ip op) f = Ok h -> exists O, exec (contribute2 bs d s) F F = (Ok h, O).
Proof.
  intros N HF R. unfold result_of in R. destruct (l_contribute2 dev bs d s ip op (start f)) as [r w'] eqn:X. cbn [fst] in R. subst r.
  eapply contribute2_honest; eauto.
Qed.

(* ---- C52 ---- *)
Lemma c52_one {X} dev (p : io X) ip op f F O g : f ip = Some F ->
  (exists n, after (l_one dev p ip op) f op = Some (firstn n O)) ->
  killed (l_one dev p ip op) f g ->
  (forall q, q <> op -> g q = f q) /\ (g op = f op \/ exists n, g op = Some (firstn n O)).
Proof.
  intros HF [n A] [l [D ->]]. unfold after in A.
  destruct (l_one_died dev p ip op f l (firstn n O)) as [H1 H2]; [congruence|exact A|exact D|].
  split; [exact H1|]. destruct H2 as [->|[m H2]]; [now left|]. right. exists (Nat.min m n). now rewrite H2, firstn_firstn.
Qed.
Lemma denied_one {X} dev (p : io X) ip op f F : f ip = Some F -> can_create dev 0 op = false ->
  result_of (l_one dev p ip op) f = Err ECreate /\ after (l_one dev p ip op) f = f.
Proof. intros HF C. unfold result_of, after, l_one, lbind, lopen, lcreate. cbn [start w_fs w_ops length]. rewrite HF, C. split; reflexivity. Qed.
Lemma killed_denied {X} dev (p : io X) ip op f g : can_create dev 0 op = false -> killed (l_one dev p ip op) f g -> g = f.
Proof.
  intros C [l [D ->]]. rewrite l_one_denied in D by exact C. cbn [start w_ops] in D.
  destruct D as [[l2 D]|[l1 [q [d [t [l2 [D _]]]]]]]; [|now destruct l1]. destruct l; [reflexivity|discriminate].
Qed.
Lemma c52_contribute {E : Ext} dev bs (w : @rnd1 E) ip op f F r O : ip <> op -> f ip = Some F ->
  exec (contribute bs w) F F = (r, O) ->
  (can_create dev 0 op = true -> exists n, after (l_contribute dev bs w ip op) f op = Some (firstn n O)) /\
  (can_create dev 0 op = false -> result_of (l_contribute dev bs w ip op) f = Err ECreate /\ after (l_contribute dev bs w ip op) f = f) /\
  forall g, killed (l_contribute dev bs w ip op) f g ->
    (forall q, q <> op -> g q = f q) /\ (g op = f op \/ exists n, g op = Some (firstn n O)).
Proof.
  intros N HF X. pose proof (fun CR => contribute_prefix dev bs w ip op f F r O CR N HF X) as A. split; [exact A|].
  split; [apply (denied_one dev (contribute bs w) ip op f F HF)|]. intros g K. destruct (can_create dev 0 op) eqn:CR.
  - eapply (c52_one dev (contribute bs w)); eauto.
  - apply (killed_denied dev (contribute bs w)) in K; [|exact CR]. rewrite K. split; [reflexivity|now left].
Qed.
Lemma c52_contribute2 {E : Ext2} dev bs (d s : E) ip op f F r O : ip <> op -> f ip = Some F ->
  exec (contribute2 bs d s) F F = (r, O) ->
  (can_create dev 0 op = true -> exists n, after (l_contribute2 dev bs d s ip op) f op = Some (firstn n O)) /\
  (can_create dev 0 op = false -> result_of (l_contribute2 dev bs d s ip op) f = Err ECreate /\ after (l_contribute2 dev bs d s ip op) f = f) /\
  forall g, killed (l_contribute2 dev bs d s ip op) f g ->
    (forall q, q <> op -> g q = f q) /\ (g op = f op \/ exists n, g op = Some (firstn n O)).
Proof.
  intros N HF X. pose proof (fun CR => contribute2_prefix dev bs d s ip op f F r O CR N HF X) as A. split; [exact A|].
  split; [apply (denied_one dev (contribute2 bs d s) ip op f F HF)|]. intros g K. destruct (can_create dev 0 op) eqn:CR.
  - eapply (c52_one dev (contribute2 bs d s)); eauto.
  - apply (killed_denied dev (contribute2 bs d s)) in K; [|exact CR]. rewrite K. split; [reflexivity|now left].
Qed.

(* ---- C55 ---- *)
Lemma c55_1 {E : Ext} bs (w : @rnd1 E) ip op f F r O : ip <> op -> f ip = Some F -> exec (contribute bs w) F F = (r, O) ->
  result_of (l_contribute no_limit bs w ip op) f = r /\ after (l_contribute no_limit bs w ip op) f op = Some O.
Proof.
  intros N HF X. pose proof (c55_contribute bs w ip op f F r O N HF X) as A. unfold result_of, after.
  destruct (l_contribute no_limit bs w ip op (start f)) as [r' w']. cbn [fst snd]. tauto.
Qed.
Lemma c55_2 {E : Ext2} bs (d s : E) ip op f F r O : ip <> op -> f ip = Some F -> exec (contribute2 bs d s) F F = (r, O) ->
  result_of (l_contribute2 no_limit bs d s ip op) f = r /\ after (l_contribute2 no_limit bs d s ip op) f op = Some O.
Proof.
  intros N HF X. pose proof (c55_contribute2 bs d s ip op f F r O N HF X) as A. unfold result_of, after.
  destruct (l_contribute2 no_limit bs d s ip op (start f)) as [r' w']. cbn [fst snd]. tauto.
Qed.
Lemma c55_t {E : Ext} a b ip op f F r O : ip <> op -> f ip = Some F -> exec (transform (E := E) a b) F F = (r, O) ->
  result_of (l_transform (E := E) no_limit a b ip op) f = r /\ after (l_transform (E := E) no_limit a b ip op) f op = Some O.
Proof.
  intros N HF X. pose proof (c55_transform a b ip op f F r O N HF X) as A. unfold result_of, after.
  destruct (l_transform (E := E) no_limit a b ip op (start f)) as [r' w']. cbn [fst snd]. tauto.
Qed.
Lemma c55_i {E : Ext} pw op f r O : op <> String.EmptyString -> exec (initialize (E := E) pw) [] [] = (r, O) ->
  result_of (l_initialize (E := E) no_limit pw op) f = r /\ after (l_initialize (E := E) no_limit pw op) f op = Some O.
Proof.
  intros N X. pose proof (c55_initialize pw op f r O N X) as A. unfold result_of, after.
  destruct (l_initialize (E := E) no_limit pw op (start f)) as [r' w']. cbn [fst snd]. tauto.
Qed.
Section Phase2.
Context {E : Ext2}.
Lemma c55_n p1 r1 p2 f : p1 <> p2 -> p1 <> lag_path -> p1 <> evals_path -> p2 <> lag_path -> p2 <> evals_path ->
  result_of (l_p2n (E := E) no_limit p1 r1 p2) f = fst (p2n (E := E) p1 r1 p2 f) /\
  forall q, after (l_p2n (E := E) no_limit p1 r1 p2) f q = snd (p2n (E := E) p1 r1 p2 f) q.
Proof.
  intros A B C D F. pose proof (c55_p2n (E := E) p1 r1 p2 f A B C D F) as Z. unfold result_of, after.
  destruct (l_p2n (E := E) no_limit p1 r1 p2 (start f)) as [r w]. exact Z.
Qed.
Lemma c55_np (cs : r1cs E) p1 p2 n f : p1 <> p2 -> p1 <> lag_path -> p1 <> evals_path -> p2 <> lag_path -> p2 <> evals_path ->
  result_of (l_p2np (E := E) no_limit cs p1 p2 n) f = fst (p2np (E := E) cs p1 p2 n f) /\
  forall q, after (l_p2np (E := E) no_limit cs p1 p2 n) f q = snd (p2np (E := E) cs p1 p2 n f) q.
Proof.
  intros A B C D F. pose proof (c55_p2np (E := E) cs p1 p2 n f A B C D F) as Z. unfold result_of, after.
  destruct (l_p2np (E := E) no_limit cs p1 p2 n (start f)) as [r w]. exact Z.
Qed.
Lemma c55_k wr (g sg : E) p f : p <> pk_path -> p <> vk_path ->
  result_of (l_keys no_limit wr g sg p) f = fst (extract_keys wr g sg p f) /\
  forall q, after (l_keys no_limit wr g sg p) f q = snd (extract_keys wr g sg p f) q.
Proof.
  intros A B. pose proof (c55_keys wr g sg p f A B) as Z. unfold result_of, after.
  destruct (l_keys no_limit wr g sg p (start f)) as [r w]. exact Z.
Qed.
Lemma c55_sk wr (g sg : E) p s f : ~ In p (split_names s) -> p <> vks_path s ->
  result_of (l_split_keys no_limit wr g sg p s) f = fst (extract_split_keys wr g sg p s f) /\
  forall q, after (l_split_keys no_limit wr g sg p s) f q = snd (extract_split_keys wr g sg p s f) q.
Proof.
  intros A B. pose proof (c55_split_keys wr g sg p s f A B) as Z. unfold result_of, after.
  destruct (l_split_keys no_limit wr g sg p s (start f)) as [r w]. exact Z.
Qed.

(* ---- C56 ---- *)
Lemma c56_p2n dev p1 r1 p2 : confined [p2; lag_path; evals_path] (l_p2n (E := E) dev p1 r1 p2).
Proof. apply confine, only_p2n. Qed.
Lemma c56_p2np dev (cs : r1cs E) p1 p2 n : confined [p2; lag_path; evals_path] (l_p2np (E := E) dev cs p1 p2 n).
Proof. apply confine, only_p2np. Qed.
Lemma c56_keys dev wr (g sg : E) p : confined [pk_path; vk_path] (l_keys dev wr g sg p).
Proof. apply confine, only_keys. Qed.
Lemma c56_split_keys dev wr (g sg : E) p s : confined (split_names s ++ [vks_path s; ckey_path s]) (l_split_keys dev wr g sg p s).
Proof. apply confine, only_split_keys. Qed.
End Phase2.
Local Open Scope io_scope.

(* ---- Initialize on a full disk ---- *)
Lemma cat_some f p a b : f p = Some a -> fset f p (contents f p ++ b) p = Some (a ++ b).
Proof. intros H. rewrite fset_same. unfold contents. now rewrite H. Qed.
Lemma lrun_header C op f pw : exists r hs w,
  lrun (disk C) (try (write_header 0 pw 0)) (fresh String.EmptyString String.EmptyString [op]) (created f op) = (Ok r, hs, w) /\
  w_used w = Nat.min 3 C /\ w_fs w op = Some (firstn C [pw; x00; x00]) /\
  h_a hs = mkI String.EmptyString 0 0 [] /\ h_b hs = mkI String.EmptyString 0 0 [] /\ paths hs 0 = Some op.
Proof.
  rewrite lrun_try. unfold write_header, write. cbn [bind lrun fresh h_out nth_error h_write o_cap].
  unfold h_write. cbn [o_cap o_path fresh h_out nth_error]. unfold os_write at 1. cbn [created w_used w_calls w_fs w_ops length].
  change (disk C 0 0 1) with (C - 0). rewrite Nat.sub_0_r.
  destruct C as [|C].
  - cbn [Nat.min Nat.eqb firstn]. eexists _, _, _. split; [reflexivity|]. cbn [w_used w_fs]. split; [reflexivity|].
    split; [|repeat split; reflexivity]. rewrite fset_same, contents_same. reflexivity.
  - cbn [Nat.min Nat.eqb firstn bind lrun seto h_out]. cbn [o_cap].
    unfold os_write. cbn [o_path w_used w_calls w_fs w_ops length be16].
    destruct C as [|[|C]].
    + eexists _, _, _. split; [reflexivity|]. cbn [w_used w_fs]. split; [reflexivity|]. split; [|repeat split; reflexivity].
      rewrite fset_same. unfold contents at 1. rewrite fset_same, contents_same. reflexivity.
    + eexists _, _, _. split; [reflexivity|]. cbn [w_used w_fs]. split; [reflexivity|]. split; [|repeat split; reflexivity].
      rewrite fset_same. unfold contents at 1. rewrite fset_same, contents_same. reflexivity.
    + eexists _, _, _. split; [reflexivity|]. cbn [w_used w_fs]. split; [reflexivity|]. split; [|repeat split; reflexivity].
      rewrite fset_same. unfold contents at 1. rewrite fset_same, contents_same. cbn [disk takes Nat.sub Nat.min firstn app be16]. rewrite !firstn_nil. reflexivity.
Qed.
Section InitDisk.
Context {E : Ext}.
Variable C : nat.
Lemma small0_big : forall d, length d <= 256 -> small0 bigBuf 0 d.
Proof. intros d H. split; [reflexivity|]. rewrite bigBuf_N. lia. Qed.
Lemma lrun_write_ dev o d hs w : lrun dev (write_ o d) hs w = lrun dev (bind (try (write o d)) (fun _ => Ret tt)) hs w.
Proof. rewrite lrun_bind, lrun_try. unfold write_, write. cbn [lrun]. destruct (h_write dev d (h_out hs o) w) as [[[|] x] w1]; reflexivity. Qed.
Lemma run_write_try o d s : run (write_ o d) s = run (bind (try (write o d)) (fun _ => Ret tt)) s.
Proof. reflexivity. Qed.
Lemma init_tail cap p base u0 d : cap <> 0 -> length d <= cap -> tailcap C cap p base u0 (length d) (write_ 0 d).
Proof.
  intros N L. destruct (tailcap_end C cap N p base u0 (length d) (write 0 d) tt) as [T1 T2].
  - apply sok_write. split; [reflexivity|exact L].
  - intros s. exists [(0, d)]. split; [reflexivity|]. cbn. now rewrite app_nil_r.
  - split.
    + intros s a s' W R. destruct a. rewrite run_write_try in R. exact (T1 _ _ _ _ R).
    + intros L0 hs w a s' W G R. rewrite run_write_try in R. rewrite lrun_write_. destruct a. exact (T2 L0 hs w tt s' W G R).
Qed.
Lemma init_body pw p base u0 : tailcap C bigBuf p base u0 64 (
    repeat_write 0 (g1c (1 : E)%F) (wrap64 (2 * pow2 pw - 1)) ;;;
    repeat_write 0 (g1c (1 : E)%F) (pow2 pw) ;;;
    repeat_write 0 (g1c (1 : E)%F) (pow2 pw) ;;;
    repeat_write 0 (g2c (1 : E)%F) (pow2 pw) ;;;
    write_ 0 (g2c (1 : E)%F)).
Proof.
  assert (S : forall b n, length b <= 256 -> sok true (small0 bigBuf) any (repeat_write 0 b n)).
  { intros b n H. unfold repeat_write. apply sok_encodes; [exact small0_big|]. apply Forall_forall. intros x I. apply repeat_spec in I as ->. exact H. }
  do 3 (eapply tailcap_bind; [exact bigBuf_pos|apply S; rewrite g1c_len; lia|intros _ _]).
  eapply tailcap_bind; [exact bigBuf_pos|apply S; rewrite g2c_len; lia|intros _ _].
  rewrite <- (g2c_len E 1%F). apply init_tail; [exact bigBuf_pos|]. rewrite g2c_len, bigBuf_N. lia.
Qed.
Lemma init_disk pw op f O : op <> String.EmptyString -> exec (initialize (E := E) pw) [] [] = (Ok tt, O) ->
  exists r w', l_initialize (E := E) (disk C) pw op (start f) = (r, w') /\ w_fs w' op = Some (firstn C O) /\
    (Nat.min 3 C + fl bigBuf (length O - 67) <= C -> r = Ok tt) /\
    (C < Nat.min 3 C + fl bigBuf (length O - 67) -> exists e, r = Err e).
Proof.
  intros N X. unfold l_initialize, lbind, lcreate, lstage. cbn [can_create disk start w_fs w_used w_calls w_ops app].
  change (mkW (fset f op []) 0 0 [OTrunc op]) with (created f op).
  unfold initialize in *. cbv zeta in *. rewrite lrun_bind.
  destruct (lrun_header C op f pw) as [r [hs [w [-> [U [HF [HA [HB HP]]]]]]]].
  set (body := (repeat_write 0 (g1c (1 : E)%F) (wrap64 (2 * pow2 pw - 1)) ;;; _)) in *.
  assert (B : exists Wb, forall s, run body s = (Ok tt, s, Wb)).
  { eexists. intros s. unfold body, repeat_write. do 4 (rewrite run_bind, run_encodes'). unfold write_. cbn [run]. reflexivity. }
  destruct B as [Wb B].
  assert (EO : O = [pw; x00; x00] ++ out 0 Wb).
  { unfold exec in X. rewrite run_bind, run_try in X. unfold write_header, write in X. cbn [run bind app] in X.
    rewrite run_with_flush, B in X. injection X as <-. reflexivity. }
  assert (AP : apart op hs).
  { split; [split; intros _; [rewrite HA|rewrite HB]; reflexivity|]. rewrite HA, HB. cbn [i_path]. split; [congruence|]. split; [congruence|]. exact HP. }
  destruct (section_cap C bigBuf body 64 op hs w (firstn C [pw; x00; x00]) tt (abss (w_fs w) hs) Wb bigBuf_pos ltac:(lia)
    (init_body pw op (firstn C [pw; x00; x00]) (w_used w)) AP HF (B _)) as [r' [hs' [w' [L [F' [R1 R2]]]]]].
  rewrite L. exists r', w'. split; [reflexivity|]. rewrite U in *. subst O. rewrite app_length. cbn [length].
  replace (3 + length (out 0 Wb) - 67) with (length (out 0 Wb) - 64) by lia. split; [|split; assumption].
  rewrite F', firstn_app. cbn [length]. f_equal. f_equal. f_equal. lia.
Qed.
End InitDisk.
Lemma thr0 (O : bytes) : N.of_nat (fl bigBuf (length O - 67)) = (1048576 * ((N.of_nat (length O) - 68) / 1048576))%N.
Proof.
  rewrite fl_div, bigBuf_N, Nat2N.inj_mul, Nat2N.inj_div, N2Nat.id, !Nat2N.inj_sub.
  now replace (N.of_nat (length O) - N.of_nat 67 - N.of_nat 1)%N with (N.of_nat (length O) - 68)%N by lia.
Qed.
Lemma c51_initialize {E : Ext} pw op f O C : op <> String.EmptyString -> exec (initialize (E := E) pw) [] [] = (Ok tt, O) ->
  after (l_initialize (E := E) (disk C) pw op) f op = Some (firstn C O) /\
  ((N.min 3 (N.of_nat C) + 1048576 * ((N.of_nat (length O) - 68) / 1048576) <= N.of_nat C)%N -> result_of (l_initialize (E := E) (disk C) pw op) f = Ok tt) /\
  ((N.of_nat C < N.min 3 (N.of_nat C) + 1048576 * ((N.of_nat (length O) - 68) / 1048576))%N -> exists e, result_of (l_initialize (E := E) (disk C) pw op) f = Err e).
Proof.
  intros N X. destruct (init_disk C pw op f O N X) as [r [w' [A [B [G L]]]]].
  unfold result_of, after. rewrite A. cbn [fst snd]. split; [exact B|]. rewrite <- thr0. split; intros H; [apply G|apply L]; lia.
Qed.
Lemma c51_init {E : Ext} pw op f O : op <> String.EmptyString -> exec (initialize (E := E) pw) [] [] = (Ok tt, O) -> 3 < length O ->
  exists C, C < length O /\ result_of (l_initialize (E := E) (disk C) pw op) f = Ok tt /\
    after (l_initialize (E := E) (disk C) pw op) f op <> Some O.
Proof.
  intros N X L. set (c := (3 + 1048576 * ((N.of_nat (length O) - 68) / 1048576))%N).
  assert (B : N.to_nat c < length O).
  { pose proof (N.mul_div_le (N.of_nat (length O) - 68) 1048576 ltac:(lia)). lia. }
  exists (N.to_nat c). split; [exact B|]. destruct (c51_initialize pw op f O (N.to_nat c) N X) as [A [G _]].
  split; [apply G; rewrite N2Nat.id; unfold c; lia|]. rewrite A. intros Y. injection Y as Y. revert Y. now apply short_neq.
Qed.
