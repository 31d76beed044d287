(* Prop32.v -- property C92: every hash that p1v and p2v show stands for all hashes before it.  clash1, clash2, own_clash1,
   own_clash2, point_clash, records1: Spec26.v; sha_clash: Spec18.v; sha_clash1: Spec25.v; a position counts from 0. *)
From Verif Require Import Base Fld IO Ext Toy Spec1 Phase1 Phase1Io Phase1Verify Phase1Facts Phase1Claims Toy1 Gob GobLemmas Circuit Spec2 Phase2 Phase2Lemmas Phase2Claims Spec4 Spec18 Spec25 Spec26 Origin2 Binds Toy2 Toy4.
Local Open Scope fld_scope.

(* if the last hash of an accepted file F' without identity keys is shown at place i of another one, then the records up to
   there are those of F', or the pair of records a, b shows a collision.  Origins, batch sizes and scalars may differ. *)
Theorem C92_phase2 : forall (E : Ext2) bs bs' (rho rho' : nat -> nat -> nat -> E) F G F' G' h ho h' ho' (q qo q' qo' : par2 E) l l' hs hs' i, 1 <= bs -> 1 <= bs' ->
  hdr_ok h -> is_file2 F h q l -> ph2 G ho qo -> fst (exec (verify2 bs rho) F G) = Ok hs ->
  hdr_ok h' -> is_file2 F' h' q' l' -> ph2 G' ho' qo' -> fst (exec (verify2 bs' rho') F' G') = Ok hs' ->
  (forall c, In c l' -> kS (d_key c) <> 0 /\ kSX (d_key c) <> 0) ->
  nth_error hs i = Some (last hs' []) ->
  firstn (S i) l = l' \/ exists a b, clash2 l l' a b.
Proof. exact @history2. Qed.
Print Assumptions C92_phase2.

(* F two contributions, F' the first of them *)
Example C92_phase2_case : let r := ceremony2 2 tf0 [(u 3, u 5)] in exists h1 h2,
  fst (exec (verify2 2 trho2) tf2 tf0) = Ok [h1; h2] /\ fst (exec (verify2 3 trho2) (cer_file r) tf0) = Ok [h1] /\
  (exists l, is_file2 (cer_file r) (set_contribs th 1) (upd_par2 (u 3) tq) l /\ length l = 1%nat /\
    forall c, In c l -> kS (d_key c) <> 0 /\ kSX (d_key c) <> 0) /\
  is_file2 tf2 th2 tq2 trecs2 /\ hdr_ok th2 /\
  hdr_ok (set_contribs th 1) /\ ph2 tf0 th tq /\ bytes_eqb h1 h2 = false.
Proof.
  cbv zeta. do 2 eexists. split; [vm_compute; reflexivity|]. split; [vm_compute; reflexivity|]. split.
  { destruct (ceremony2_result 2 tf0 th tq [(u 3, u 5)]) as [R [F _]]; [lia|exact th_ok|reflexivity|exact tf0_is|cbn; lia|discriminate| |].
    - intros j J. apply t_unsplit. cbn in J. lia.
    - rewrite R. exists (snd (honest2 tq [] [(u 3, u 5)])). split; [exact F|]. split; [reflexivity|].
      intros c [<-|[]]. split; fld_neq. }
  split; [exact tf2_is|]. split; [exact th2_ok|]. split; [apply hdr_ok_set; [exact th_ok|unfold int64; lia]|]. split; [exact (is_file2_ph2 _ _ _ _ th_ok tf0_is)|].
  vm_compute. reflexivity.
Qed.

(* whoever contributed to a readable file X and finds their hash at place i finds the last hash of X before it, whatever the
   other records are *)
Theorem C92_phase2_own : forall (E : Ext2) bs bs' (rho : nat -> nat -> nat -> E) F G h0 ho (q0 qo : par2 E) l hs X g h (q : par2 E) lx (d s : E) hc O i, 1 <= bs ->
  hdr_ok h0 -> is_file2 F h0 q0 l -> ph2 G ho qo -> fst (exec (verify2 bs rho) F G) = Ok hs ->
  1 <= bs' -> hdr_ok h -> (0 <= h_contribs h < 9223372036854775807)%Z -> is_file2 X h q lx -> d <> 0 -> s <> 0 ->
  exec (contribute2 bs' d s) X g = (Ok hc, O) -> nth_error hs i = Some hc ->
  last (firstn i hs) [] = last (map d_hash lx) [] \/ own_clash2 l lx i (new_rec2 d s (d * p_d1 q) (last_hash2 lx)).
Proof. exact @predecessor2. Qed.
Print Assumptions C92_phase2_own.

(* a third contribution to tf2; the hash before it is the second *)
Example C92_phase2_own_case : exists h1 h2 h3 O, exec (contribute2 2 (u 6) (u 2)) tf2 [] = (Ok h3, O) /\ is_file2 tf2 th2 tq2 trecs2 /\ hdr_ok th2 /\
  fst (exec (verify2 2 trho2) (O ++ [b8 9]) tf0) = Ok [h1; h2; h3] /\ last (firstn 2 [h1; h2; h3]) [] = h2 /\ last (map d_hash trecs2) [] = h2 /\
  u 6 <> 0 /\ u 2 <> 0.
Proof.
  do 4 eexists. split; [vm_compute; reflexivity|]. split; [exact tf2_is|]. split; [exact th2_ok|]. split; [vm_compute; reflexivity|].
  split; [reflexivity|]. split; [vm_compute; reflexivity|]. split; fld_neq.
Qed.

(* the same for phase 1 and for all bytes F that p1v accepts; trans: with (p1vt) or without (p1v) a transformed file as origin, not necessarily the same *)
Theorem C92_phase1 : forall (E : Ext) bs bs' (rho rho' : nat -> nat -> nat -> E) trans trans' F g F' g' p (s : srs E) l' (o : contrib E) hs hs' i,
  mexp_strict E -> 1 <= bs -> 1 <= bs' ->
  fst (exec (verify bs rho trans) F g) = Ok hs ->
  p <= 62 -> length l' < N.to_nat 65536 -> is_file1 F' p s l' -> origin_is trans' g' o -> fst (exec (verify bs' rho' trans') F' g') = Ok hs' ->
  (forall c, In c l' -> kS (c_kt c) <> 0 /\ kSX (c_kt c) <> 0) ->
  nth_error hs i = Some (last hs' []) ->
  exists l, records1 F l /\ hs = map c_hash l /\ (firstn (S i) l = l' \/ exists a b, clash1 l l' a b).
Proof. exact @history1. Qed.
Print Assumptions C92_phase1.

Theorem C92_phase1_own : forall (E : Ext) bs bs' (rho : nat -> nat -> nat -> E) trans F g hs X g' p (s : srs E) lx (w : @rnd1 E) hc O i, 1 <= bs ->
  fst (exec (verify bs rho trans) F g) = Ok hs ->
  2 <= bs' -> 1 <= p <= 62 -> length lx < N.to_nat 65535 -> is_file1 X p s lx -> firsts_ok bs' s -> r_tau w <> 0 -> r_st w <> 0 ->
  exec (contribute bs' w) X g' = (Ok hc, O) -> nth_error hs i = Some hc ->
  last (firstn i hs) [] = last (map c_hash lx) [] \/ exists l, records1 F l /\
  own_clash1 l lx i (new_rec (r_tau w) (r_alpha w) (r_beta w) (r_st w) (r_sa w) (r_sb w) (upd_srs (r_tau w) (r_alpha w) (r_beta w) s) (last_hash lx)).
Proof. exact @predecessor1. Qed.
Print Assumptions C92_phase1_own.

(* two contributions, and a third to their file *)
Example C92_phase1_case : exists h1 h2 h3 O, fst (exec (verify 2 (trho true) None) (tfile true) []) = Ok [h1; h2] /\
  is_file1 (tfile true) 1 (srs_of 1 (z17 true 6) (z17 true 25) (z17 true 63)) trecs /\
  firsts_ok 2 (srs_of 1 (z17 true 6) (z17 true 25) (z17 true 63)) /\
  (forall c, In c trecs -> kS (c_kt c) <> 0 /\ kSX (c_kt c) <> 0) /\
  exec (contribute 2 (tw1 true)) (tfile true) [] = (Ok h3, O) /\ r_tau (tw1 true) <> 0 /\ r_st (tw1 true) <> 0 /\
  fst (exec (verify 2 (trho true) None) (O ++ [b8 9]) []) = Ok [h1; h2; h3] /\ bytes_eqb h2 h3 = false.
Proof.
  do 4 eexists. split; [vm_compute; reflexivity|]. split.
  { rewrite tfile_is. apply file1_is0; [apply srs_of_sized|]. intros c [<-|[<-|[]]]; reflexivity. }
  split.
  { repeat split; left; cbn; fld_neq. }
  split; [intros c [<-|[<-|[]]]; split; fld_neq|]. split; [vm_compute; reflexivity|]. split; [fld_neq|]. split; [fld_neq|].
  split; vm_compute; reflexivity.
Qed.

(* keys at infinity are needed to be excluded: this record (points at infinity only) may follow any accepted chain *)
Theorem C92_dead_refuted : forall (E : Ext) bs (rho : nat -> nat -> nat -> E) trans f g p (s : srs E) l (o : contrib E) hs,
  mexp_strict E -> 1 <= bs -> p <= 62 ->
  length l < N.to_nat 65535 -> is_file1 f p s l -> hashed32 l -> origin_is trans g o ->
  fst (exec (verify bs rho trans) f g) = Ok hs ->
  let dead := idle_rec 0 0 0 0 0 0 0 0 in
  fst (exec (verify bs rho trans) (file1 p (set_beta2 s 0) (l ++ [dead])) g) = Ok (hs ++ [c_hash dead]).
Proof. exact @dead_follows. Qed.
Print Assumptions C92_dead_refuted.

(* after one and after two contributions *)
Example C92_dead_case : let dead := idle_rec 0 0 0 0 0 0 0 0 in exists h1 h2 h,
  fst (exec (verify 2 (trho true) None) (file1 1 (set_beta2 (tsrs true) 0) (trecs ++ [dead])) []) = Ok [h1; h2; h] /\
  fst (exec (verify 2 (trho true) None) (file1 1 (set_beta2 (tsrs true) 0) (firstn 1 trecs ++ [dead])) []) = Ok [h1; h] /\
  h = c_hash dead.
Proof. cbv zeta. do 3 eexists. split; [vm_compute; reflexivity|]. split; vm_compute; reflexivity. Qed.
