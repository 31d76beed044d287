(* Prop33.v -- property C93: nobody is shown twice, and of two contributions to the same file at most one is shown.  clash1,
   clash2, own_clash1, own_clash2, records1: Spec26.v. *)
From Verif Require Import Base Fld IO Ext Toy Spec1 Phase1 Phase1Io Phase1Verify Phase1Facts Phase1Claims Toy1 Gob GobLemmas Circuit Spec2 Phase2 Phase2Lemmas Phase2Claims Spec4 Spec18 Spec25 Spec26 Origin2 Binds Toy2 Toy4.
Local Open Scope fld_scope.

(* phase 2: a hash at places i and j *)
Theorem C93_once_phase2 : forall (E : Ext2) bs (rho : nat -> nat -> nat -> E) F G h ho (q qo : par2 E) l hs i j x, 1 <= bs ->
  hdr_ok h -> is_file2 F h q l -> ph2 G ho qo -> fst (exec (verify2 bs rho) F G) = Ok hs ->
  (forall c, In c l -> kS (d_key c) <> 0 /\ kSX (d_key c) <> 0) ->
  nth_error hs i = Some x -> nth_error hs j = Some x -> i = j \/ exists a b, clash2 l l a b.
Proof. exact @once2. Qed.
Print Assumptions C93_once_phase2.

(* phase 2: two contributions to X, both of them shown for F *)
Theorem C93_fork_phase2 : forall (E : Ext2) bs bs1 bs2 (rho : nat -> nat -> nat -> E) F G h0 ho (q0 qo : par2 E) l hs
    X g1 g2 h (q : par2 E) lx (d1 s1 d2 s2 : E) x1 x2 O1 O2 i j, 1 <= bs ->
  hdr_ok h0 -> is_file2 F h0 q0 l -> ph2 G ho qo -> fst (exec (verify2 bs rho) F G) = Ok hs ->
  (forall c, In c l -> kS (d_key c) <> 0 /\ kSX (d_key c) <> 0) ->
  1 <= bs1 -> 1 <= bs2 -> hdr_ok h -> (0 <= h_contribs h < 9223372036854775807)%Z -> is_file2 X h q lx -> d1 <> 0 -> s1 <> 0 -> d2 <> 0 -> s2 <> 0 ->
  exec (contribute2 bs1 d1 s1) X g1 = (Ok x1, O1) -> exec (contribute2 bs2 d2 s2) X g2 = (Ok x2, O2) ->
  nth_error hs i = Some x1 -> nth_error hs j = Some x2 ->
  x1 = x2 \/ (exists a b, clash2 l l a b) \/ own_clash2 l lx i (new_rec2 d1 s1 (d1 * p_d1 q) (last_hash2 lx)) \/
    own_clash2 l lx j (new_rec2 d2 s2 (d2 * p_d1 q) (last_hash2 lx)).
Proof. exact @fork2. Qed.
Print Assumptions C93_fork_phase2.

(* two contributions to the file tf0 of p2n: the file tf2 continues the first one and shows its hash, but not the second one's *)
Example C93_phase2_case : exists x1 x2 y O1 O2,
  fst (exec (verify2 2 trho2) tf2 tf0) = Ok [x1; y] /\ is_file2 tf2 th2 tq2 trecs2 /\ hdr_ok th2 /\ ph2 tf0 th tq /\
  (forall c, In c trecs2 -> kS (d_key c) <> 0 /\ kSX (d_key c) <> 0) /\ is_file2 tf0 th tq [] /\ hdr_ok th /\
  exec (contribute2 2 (u 3) (u 5)) tf0 [] = (Ok x1, O1) /\ exec (contribute2 3 (u 6) (u 2)) tf0 [] = (Ok x2, O2) /\
  u 3 <> 0 /\ u 5 <> 0 /\ u 6 <> 0 /\ u 2 <> 0 /\
  bytes_eqb x1 y = false /\ bytes_eqb x1 x2 = false /\ bytes_eqb y x2 = false.
Proof.
  do 5 eexists. split; [vm_compute; reflexivity|]. split; [exact tf2_is|]. split; [exact th2_ok|].
  split; [exact (is_file2_ph2 _ _ _ _ th_ok tf0_is)|]. split; [exact tkeys2|]. split; [exact tf0_is|]. split; [exact th_ok|].
  split; [vm_compute; reflexivity|]. split; [vm_compute; reflexivity|].
  split; [fld_neq|]. split; [fld_neq|]. split; [fld_neq|]. split; [fld_neq|]. repeat split; vm_compute; reflexivity.
Qed.

(* phase 1, for all bytes that p1v or p1vt accepts *)
Theorem C93_once_phase1 : forall (E : Ext) bs (rho : nat -> nat -> nat -> E) trans F g hs, 1 <= bs -> fst (exec (verify bs rho trans) F g) = Ok hs ->
  exists l : list (contrib E), records1 F l /\ hs = map c_hash l /\ ((forall c, In c l -> kS (c_kt c) <> 0 /\ kSX (c_kt c) <> 0) ->
    forall i j x, nth_error hs i = Some x -> nth_error hs j = Some x -> i = j \/ exists a b, clash1 l l a b).
Proof. exact @once1. Qed.
Print Assumptions C93_once_phase1.

Theorem C93_fork_phase1 : forall (E : Ext) bs (rho : nat -> nat -> nat -> E) trans F g hs, 1 <= bs -> fst (exec (verify bs rho trans) F g) = Ok hs ->
  exists l : list (contrib E), records1 F l /\ hs = map c_hash l /\ ((forall c, In c l -> kS (c_kt c) <> 0 /\ kSX (c_kt c) <> 0) ->
    forall bs1 bs2 X g1 g2 p (s : srs E) lx (w1 w2 : @rnd1 E) x1 x2 O1 O2 i j,
    2 <= bs1 -> 2 <= bs2 -> 1 <= p <= 62 -> length lx < N.to_nat 65535 -> is_file1 X p s lx -> firsts_ok bs1 s -> firsts_ok bs2 s ->
    r_tau w1 <> 0 -> r_st w1 <> 0 -> r_tau w2 <> 0 -> r_st w2 <> 0 ->
    exec (contribute bs1 w1) X g1 = (Ok x1, O1) -> exec (contribute bs2 w2) X g2 = (Ok x2, O2) ->
    nth_error hs i = Some x1 -> nth_error hs j = Some x2 ->
    let rec w := new_rec (r_tau w) (r_alpha w) (r_beta w) (r_st w) (r_sa w) (r_sb w) (upd_srs (r_tau w) (r_alpha w) (r_beta w) s) (last_hash lx) in
    x1 = x2 \/ (exists a b, clash1 l l a b) \/ own_clash1 l lx i (rec w1) \/ own_clash1 l lx j (rec w2)).
Proof. exact @fork1. Qed.
Print Assumptions C93_fork_phase1.

(* two third contributions to the same file: the file of the first one shows three different hashes, none of
   them the second one's *)
Example C93_phase1_case : exists x1 x2 h1 h2 O1 O2,
  is_file1 (tfile true) 1 (srs_of 1 (z17 true 6) (z17 true 25) (z17 true 63)) trecs /\
  firsts_ok 2 (srs_of 1 (z17 true 6) (z17 true 25) (z17 true 63)) /\
  exec (contribute 2 (tw1 true)) (tfile true) [] = (Ok x1, O1) /\ exec (contribute 2 (tw2 true)) (tfile true) [] = (Ok x2, O2) /\
  r_tau (tw1 true) <> 0 /\ r_st (tw1 true) <> 0 /\ r_tau (tw2 true) <> 0 /\ r_st (tw2 true) <> 0 /\
  fst (exec (verify 2 (trho true) None) O1 []) = Ok [h1; h2; x1] /\
  forallb (fun y => negb (bytes_eqb y x2)) [h1; h2; x1] = true /\ bytes_eqb h1 h2 = false /\ bytes_eqb h1 x1 = false /\ bytes_eqb h2 x1 = false.
Proof.
  do 6 eexists. split.
  { rewrite tfile_is. apply file1_is0; [apply srs_of_sized|]. intros c [<-|[<-|[]]]; reflexivity. }
  split.
  { repeat split; left; cbn; fld_neq. }
  split; [vm_compute; reflexivity|]. split; [vm_compute; reflexivity|]. split; [fld_neq|]. split; [fld_neq|]. split; [fld_neq|]. split; [fld_neq|].
  split; [vm_compute; reflexivity|]. repeat split; vm_compute; reflexivity.
Qed.

(* with keys at infinity a record may be shown twice *)
Theorem C93_dead_twice_refuted : forall (E : Ext) bs (rho : nat -> nat -> nat -> E) trans f g p (s : srs E) l (o : contrib E) hs,
  mexp_strict E -> 1 <= bs -> p <= 62 ->
  length l < N.to_nat 65534 -> is_file1 f p s l -> hashed32 l -> origin_is trans g o ->
  fst (exec (verify bs rho trans) f g) = Ok hs ->
  let dead := idle_rec 0 0 0 0 0 0 0 0 in
  fst (exec (verify bs rho trans) (file1 p (set_beta2 s 0) (l ++ [dead; dead])) g) = Ok (hs ++ [c_hash dead; c_hash dead]).
Proof. exact @dead_twice. Qed.
Print Assumptions C93_dead_twice_refuted.

Example C93_dead_twice_case : let dead := idle_rec 0 0 0 0 0 0 0 0 in exists h1 h2 h,
  fst (exec (verify 2 (trho true) None) (file1 1 (set_beta2 (tsrs true) 0) (trecs ++ [dead; dead])) []) = Ok [h1; h2; h; h] /\ h = c_hash dead.
Proof. cbv zeta. do 3 eexists. split; vm_compute; reflexivity. Qed.
