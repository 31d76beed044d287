(* Prop8.v -- properties C61 to C63: files that end early.  E ranges over all interpretations of the
   external functions (Ext.v, Circuit.v); exec p a b runs program p on input files a and b and gives its
   result and the contents of its output file; the notions are in Spec1.v, Spec2.v and Spec7.v. *)
From Verif Require Import Base Fld IO Ext Spec1 Phase1 Phase1Io Phase1Verify Phase1Facts Phase1Inv Phase1Claims Toy Toy1 Gob GobLemmas Circuit Spec2 Phase2
  Phase2Lemmas Phase2Claims Toy2 Spec7 Cut1 Cut3 Cut5.
Local Open Scope fld_scope.
Local Open Scope io_scope.

(* C61 *)
Theorem C61_truncated : forall (E : Ext) bs bs' (rho rho' : nat -> nat -> nat -> E) trans g p (s : srs E) l hs k hs',
  1 <= bs -> 1 <= bs' -> p <= 62 -> length l < N.to_nat 65536 -> sized p s -> hashed32 l ->
  fst (exec (verify bs rho trans) (file1 p s l) g) = Ok hs -> k < length (file1 p s l) ->
  fst (exec (verify bs' rho' trans) (firstn k (file1 p s l)) g) = Ok hs' ->
  (exists z, z <= 32 /\ file1 p s l = firstn k (file1 p s l) ++ repeat x00 z /\ hs' = hs) \/
  (exists c, In c l /\ follows_itself c) \/ stale_collision l.
Proof. exact @truncated. Qed.
Print Assumptions C61_truncated.

(* follows_itself excluded for keys with kSX other than the identity *)
Theorem C61_truncated_live : forall (E : Ext) bs bs' (rho rho' : nat -> nat -> nat -> E) trans g p (s : srs E) l hs k hs',
  1 <= bs -> 1 <= bs' -> p <= 62 -> length l < N.to_nat 65536 -> sized p s -> hashed32 l ->
  (forall c, In c l -> kSX (c_kt c) <> 0 /\ kSX (c_ka c) <> 0 /\ kSX (c_kb c) <> 0) ->
  fst (exec (verify bs rho trans) (file1 p s l) g) = Ok hs -> k < length (file1 p s l) ->
  fst (exec (verify bs' rho' trans) (firstn k (file1 p s l)) g) = Ok hs' ->
  (exists z, z <= 32 /\ file1 p s l = firstn k (file1 p s l) ++ repeat x00 z /\ hs' = hs) \/
  (exists l1 c l2, l = l1 ++ c :: l2 /\ same_challenges (last_hash l1) c) \/ stale_collision l.
Proof. exact @truncated_live. Qed.
Print Assumptions C61_truncated_live.

(* the file names n contributions, holds length l + 1, and is accepted with n hashes *)
Theorem C61_missing_records_refuted : forall (E : Ext) bs (rho : nat -> nat -> nat -> E) trans g p (s : srs E) l (o : contrib E) hs n t2 b2,
  mexp_strict E -> 1 <= bs -> 1 <= p <= 62 -> (n < 65536)%N -> length l < N.to_nat n -> sized p s -> hashed32 l -> origin_is trans g o ->
  fst (exec (verify bs rho trans) (file1 p s l) g) = Ok hs ->
  exists (c : contrib E) f, length (rec_bytes c) = 640%nat /\ c_tau1 c = 0 /\ c_tau2 c = t2 /\ c_beta2 c = b2 /\
    f = b8 (N.of_nat p) :: be16 n ++ srs_bytes (set_beta2 s b2) ++ recs_bytes l ++ rec_bytes c /\
    fst (exec (verify bs rho trans) f g) = Ok (hs ++ repeat (c_hash c) (N.to_nat n - length l)) /\
    (1 < N.to_nat n - length l -> forall bs' (w : @rnd1 E), 2 <= bs' -> fst (exec (contribute bs' w) f g) = Err EEof).
Proof. exact @phantom. Qed.
Print Assumptions C61_missing_records_refuted.

(* the hashes of the toy records end in 30 zero bytes *)
Example C61_case : let f := tfile true in let n := length f in
  let v b := fst (exec (verify 2 (trho true) None) b []) in
  (exists (s : srs (Toy true)) l, f = file1 1 s l /\ sized 1 s /\ hashed32 l /\ length l = 2%nat) /\ n = (N.to_nat 1699) /\
  v (firstn (n - 1) f) = Ok (thashes true) /\ v (firstn (n - 30) f) = Ok (thashes true) /\ v (firstn (n - 31) f) = Err EHash /\
  v (firstn (n - 32) f) = Err EHash /\ v (firstn (n - 33) f) = Err EKnowBeta.
Proof.
  cbv zeta. split.
  { exists (srs_of 1 (z17 true 6) (z17 true 25) (z17 true 63)), trecs. split; [exact tfile_is|]. split; [apply srs_of_sized|].
    split; [intros c [<-|[<-|[]]]; reflexivity|reflexivity]. }
  repeat split; vm_compute; reflexivity.
Qed.
Example C61_missing_case : let c := @idle_rec (Toy true) 0 0 0 (z17 true 3) 0 0 0 0 in
  let f := b8 1 :: be16 7 ++ srs_bytes (set_beta2 (tsrs true) 0) ++ skipn 419 (tfile true) ++ rec_bytes c in
  mexp_strict (Toy true) /\ length f = (N.to_nat (419 + 3 * 640)) /\
  fst (exec (verify 2 (trho true) None) f []) = Ok (thashes true ++ repeat (c_hash c) 5) /\
  fst (exec (contribute 2 (tw1 true)) f []) = Err EEof.
Proof. split; [exact toy_strict|]. vm_compute. auto. Qed.

(* C62 *)
Theorem C62_accepts : forall (E : Ext) bs (w : @rnd1 E) f g, 2 <= bs ->
  ((exists h, fst (exec (contribute bs w) f g) = Ok h) <->
   (exists p (s : srs E) l z, 1 <= p <= 62 /\ length l < N.to_nat 65536 /\ z < 32 /\ (l = [] -> z = 0%nat) /\ is_file1 (f ++ repeat x00 z) p s l)).
Proof. exact @contribute_iff. Qed.
Print Assumptions C62_accepts.
Theorem C62_padded : forall (E : Ext) bs (w : @rnd1 E) f g p (s : srs E) l z, 2 <= bs -> 1 <= p <= 62 -> length l < N.to_nat 65536 ->
  z < 32 -> (l = [] -> z = 0%nat) -> is_file1 (f ++ repeat x00 z) p s l ->
  exec (contribute bs w) f g = exec (contribute bs w) (f ++ repeat x00 z) g.
Proof. exact @contribute_pad. Qed.
Print Assumptions C62_padded.
Theorem C62_cut : forall (E : Ext) bs (w : @rnd1 E) g p (s : srs E) l k,
  2 <= bs -> 1 <= p <= 62 -> length l < N.to_nat 65536 -> sized p s -> hashed32 l -> k < length (file1 p s l) ->
  ((exists h, fst (exec (contribute bs w) (firstn k (file1 p s l)) g) = Ok h) <-> l <> [] /\ length (file1 p s l) < k + 32).
Proof. exact @contribute_cut. Qed.
Print Assumptions C62_cut.
(* p1c reports success on a file whose last bytes are missing; what it writes is never accepted *)
Theorem C62_cut_noticed_refuted : forall (E : Ext) bs (w : @rnd1 E) trans g p (s : srs E) l c k,
  2 <= bs -> 1 <= p <= 62 -> length l < N.to_nat 65534 -> sized p s -> hashed32 (l ++ [c]) -> c_hash c = sha E (enc_vals (rec_vals c)) ->
  let f := file1 p s (l ++ [c]) in
  k < length f -> length f < k + 32 -> skipn k f <> repeat x00 (length f - k) ->
  exists h out, exec (contribute bs w) (firstn k f) g = (Ok h, out) /\
    forall bs' (rho : nat -> nat -> nat -> E) hs, 1 <= bs' -> fst (exec (verify bs' rho trans) out g) <> Ok hs.
Proof. exact @cut_in_hash. Qed.
Print Assumptions C62_cut_noticed_refuted.

Example C62_case : let f := tfile true in let n := length f in let r b := exec (contribute 2 (tw1 true)) b [] in
  r (firstn (n - 30) f) = r f /\ fst (r (firstn (n - 32) f)) = Err EEof /\ fst (r (firstn (N.to_nat 419) f)) = Err EEof /\
  skipn (n - 31) f <> repeat x00 31 /\ (exists h, fst (r (firstn (n - 31) f)) = Ok h) /\
  fst (exec (verify 2 (trho true) None) (snd (r (firstn (n - 31) f))) []) = Err EHash /\
  length (snd (r (firstn (n - 31) f))) = (n + N.to_nat 640)%nat.
Proof.
  cbv zeta. split; [vm_compute; reflexivity|]. split; [vm_compute; reflexivity|]. split; [vm_compute; reflexivity|].
  split; [vm_compute; discriminate|]. split; [eexists; vm_compute; reflexivity|]. split; vm_compute; reflexivity.
Qed.

(* C63; unsplit asks for hashes that do not straddle a 4096-byte boundary (see C36) *)
Theorem C63_truncated : forall (E : Ext2) bs bs' (rho rho' : nat -> nat -> nat -> E) g h ho (q qo : par2 E) l lo hs k hs',
  1 <= bs -> 1 <= bs' -> hdr_ok h -> hdr_ok ho -> sized2 h q -> h_contribs h = Z.of_nat (length l) -> hashed2 l -> unsplit h q (length l) ->
  is_file2 g ho qo lo -> fst (exec (verify2 bs rho) (file2 h q l) g) = Ok hs -> k < length (file2 h q l) ->
  fst (exec (verify2 bs' rho') (firstn k (file2 h q l)) g) = Ok hs' ->
  exists z, z <= 31 /\ file2 h q l = firstn k (file2 h q l) ++ repeat x00 z /\ hs' = hs.
Proof. exact @truncated2. Qed.
Print Assumptions C63_truncated.
Theorem C63_contribute : forall (E : Ext2) bs (d s : E) g h (q : par2 E) l k, 1 <= bs -> hdr_ok h -> (0 <= h_contribs h < 9223372036854775807)%Z ->
  sized2 h q -> h_contribs h = Z.of_nat (length l) -> hashed2 l -> unsplit h q (length l) -> k < length (file2 h q l) ->
  ((exists r, fst (exec (contribute2 bs d s) (firstn k (file2 h q l)) g) = Ok r) <-> l <> [] /\ length (file2 h q l) < k + 32).
Proof. exact @contribute2_cut. Qed.
Print Assumptions C63_contribute.
Theorem C63_cut_noticed_refuted : forall (E : Ext2) bs bs' (d s : E) (rho : nat -> nat -> nat -> E) g h ho (q qo : par2 E) l lo c k,
  1 <= bs -> 1 <= bs' -> hdr_ok h -> hdr_ok ho -> (0 <= h_contribs h < 9223372036854775807)%Z -> sized2 h q ->
  h_contribs h = Z.of_nat (length (l ++ [c])) -> hashed2 (l ++ [c]) -> hash_good2 c ->
  unsplit h q (length (l ++ [c])) -> unsplit (set_contribs h (h_contribs h + 1)) q (length (l ++ [c]) + 1) -> is_file2 g ho qo lo ->
  let f := file2 h q (l ++ [c]) in
  k < length f -> length f < k + 32 -> skipn k f <> repeat x00 (length f - k) ->
  exists r out, exec (contribute2 bs d s) (firstn k f) g = (Ok r, out) /\ forall hs, fst (exec (verify2 bs' rho) out g) <> Ok hs.
Proof. exact @cut_in_hash2. Qed.
Print Assumptions C63_cut_noticed_refuted.

Example C63_case : let n := length tf2 in let v b := fst (exec (verify2 2 trho2) b tf0) in let r b := exec (contribute2 2 (u 2) (u 5)) b [] in
  tf2 = file2 th2 tq2 trecs2 /\ hdr_ok th2 /\ sized2 th2 tq2 /\ hashed2 trecs2 /\ unsplit th2 tq2 2 /\ unsplit (set_contribs th2 3) tq2 3 /\
  v tf2 = Ok ths2 /\ v (firstn (n - 1) tf2) = Err EHash /\ v (firstn (n - 31) tf2) = Err EHash /\ v (firstn (n - 32) tf2) = Err EEof /\
  skipn (n - 31) tf2 <> repeat x00 31 /\ fst (r (firstn (n - 32) tf2)) = Err EEof /\ (exists h, fst (r (firstn (n - 31) tf2)) = Ok h) /\
  v (snd (r (firstn (n - 31) tf2))) = Err EHash.
Proof.
  cbv zeta. split; [exact tf2_bytes|]. split; [exact th2_ok|]. split; [split; reflexivity|].
  split; [intros c [<-|[<-|[]]]; reflexivity|].
  split; [intros i Hi; destruct i as [|[|i]]; [vm_compute; lia|vm_compute; lia|lia]|].
  split; [intros i Hi; destruct i as [|[|[|i]]]; [vm_compute; lia|vm_compute; lia|vm_compute; lia|lia]|].
  split; [vm_compute; reflexivity|]. split; [vm_compute; reflexivity|]. split; [vm_compute; reflexivity|]. split; [vm_compute; reflexivity|].
  split; [vm_compute; discriminate|]. split; [vm_compute; reflexivity|]. split; [eexists; vm_compute; reflexivity|]. vm_compute; reflexivity.
Qed.
