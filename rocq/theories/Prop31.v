(* Prop31.v -- property C91: the file that p2v is given as origin.  ceremony2 bs f ws runs p2c once for every pair (secret,
   key base) of ws, starting with the file f; ph2 G h q: G is a readable phase-2 file with header h and parameters q, whatever
   follows (Spec4.v). *)
From Verif Require Import Base Fld IO Ext Spec1 Phase1 Phase1Io Phase1Verify Toy1 Gob GobLemmas Circuit Spec2 Phase2 Phase2Lemmas Phase2Claims Spec4 Origin2 Toy2 Toy4.
Local Open Scope fld_scope.

(* nothing of the origin counts but the header without its counter, and the parameters: not the number of its contributions
   and not its records *)
Theorem C91_origin_records_refuted : forall (E : Ext2) bs (rho : nat -> nat -> nat -> E) F G G' h ho ho' (q qo : par2 E), 1 <= bs ->
  ph2 F h q -> ph2 G ho qo -> ph2 G' ho' qo -> set_contribs ho 0 = set_contribs ho' 0 ->
  exec (verify2 bs rho) F G = exec (verify2 bs rho) F G'.
Proof. exact @origin_bytes. Qed.
Print Assumptions C91_origin_records_refuted.

(* the origin of two contributions with the counter set to 9, bytes instead of records *)
Example C91_origin_records_case : ph2 tf2 th2 tq2 /\ ph2 tf0 th tq /\ ph2 (file2 (set_contribs th 9) tq [] ++ [b8 1; b8 2]) (set_contribs th 9) tq /\
  exec (verify2 2 trho2) tf2 (file2 (set_contribs th 9) tq [] ++ [b8 1; b8 2]) = (Ok ths2, []) /\ length ths2 = 2%nat.
Proof.
  split; [exact (is_file2_ph2 _ _ _ _ th2_ok tf2_is)|]. split; [exact (is_file2_ph2 _ _ _ _ th_ok tf0_is)|]. split.
  { split; [apply hdr_ok_set; [exact th_ok|unfold int64; lia]|]. split; [split; reflexivity|].
    exists (par2_bytes tq), [b8 1; b8 2]. split; [unfold file2, head2; now rewrite <- !app_assoc|apply par2_is]. }
  vm_compute. auto.
Qed.

(* an earlier file of the same ceremony as origin: refused, unless the secrets before it multiply to 1 *)
Theorem C91_earlier_file : forall (E : Ext2) bs f1 h (q : par2 E) (d s : E) ws1 ws2,
  let ws := ((d, s) :: ws1) ++ ws2 in
  1 <= bs -> hdr_ok h -> h_contribs h = 0%Z -> is_file2 f1 h q [] ->
  (Z.of_nat (length ws) < 9223372036854775808)%Z ->
  (forall j, (1 <= j <= length ws)%nat -> unsplit (set_contribs h (Z.of_nat j)) q j) ->
  (forall w, In w ws -> fst w <> 0) -> p_d1 q <> 0 -> chal s (d * s) [] 1 <> 0 ->
  exists m hs1 f hs, ceremony2 bs f1 ((d, s) :: ws1) = Ok (m, hs1) /\ ceremony2 bs f1 ws = Ok (f, hs) /\
    forall bs' (rho : nat -> nat -> nat -> E), 1 <= bs' ->
      (prodf ((d, s) :: ws1) = 1 -> exec (verify2 bs' rho) f m = (Ok hs, [])) /\
      (prodf ((d, s) :: ws1) <> 1 -> exec (verify2 bs' rho) f m = (Err EUpdDelta, [])).
Proof. exact @intermediate. Qed.
Print Assumptions C91_earlier_file.

(* secrets 3, 7 with the file after 3 as origin; secrets 3, 6, 7 with the file after 3 * 6 = 1 as origin *)
Example C91_earlier_case : is_file2 tf0 th tq [] /\ hdr_ok th /\ p_d1 tq <> 0 /\ chal (u 5) (u 3 * u 5) [] 1 <> 0 /\
  (forall j, (1 <= j <= 3)%nat -> unsplit (set_contribs th (Z.of_nat j)) tq j) /\
  prodf [(u 3, u 5)] <> 1 /\ prodf [(u 3, u 5); (u 6, u 2)] = 1 /\
  let m1 := cer_file (ceremony2 2 tf0 [(u 3, u 5)]) in
  exec (verify2 2 trho2) tf2 m1 = (Err EUpdDelta, []) /\
  let m2 := cer_file (ceremony2 2 tf0 [(u 3, u 5); (u 6, u 2)]) in
  let r := ceremony2 2 tf0 [(u 3, u 5); (u 6, u 2); (u 7, u 2)] in
  exec (verify2 2 trho2) (cer_file r) m2 = (Ok (cer_hashes r), []) /\ length (cer_hashes r) = 3%nat.
Proof.
  split; [exact tf0_is|]. split; [exact th_ok|]. split; [fld_neq|]. split; [fld_neq|]. split.
  { intros j J i I. apply Nat.leb_le. destruct j as [|[|[|[|j]]]]; try lia; destruct i as [|[|[|i]]]; try lia; vm_compute; reflexivity. }
  split; [fld_neq|]. split; [by17|]. cbv zeta. split; [vm_compute; reflexivity|]. split; vm_compute; reflexivity.
Qed.

(* an earlier file m as origin of contributions that were made to its parameters alone: accepted, and the contributors before m
   are not shown; with the file of p2n as origin it is refused *)
Theorem C91_restart_refuted : forall (E : Ext2) bs f1 h (q : par2 E) ws1 (d s : E) ws2,
  1 <= bs -> hdr_ok h -> h_contribs h = 0%Z -> is_file2 f1 h q [] -> ws1 <> [] ->
  (Z.of_nat (length ws1) < 9223372036854775808)%Z -> (Z.of_nat (length ((d, s) :: ws2)) < 9223372036854775808)%Z ->
  (forall j, (1 <= j <= length ws1)%nat -> unsplit (set_contribs h (Z.of_nat j)) q j) ->
  (forall j, (1 <= j <= length ((d, s) :: ws2))%nat -> unsplit (set_contribs h (Z.of_nat j)) q j) ->
  (forall w, In w (ws1 ++ (d, s) :: ws2) -> fst w <> 0) -> p_d1 q <> 0 -> chal s (d * s) [] 1 <> 0 ->
  exists m hs1 f hs2, ceremony2 bs f1 ws1 = Ok (m, hs1) /\
    ceremony2 bs (file2 h (upd_par2 (prodf ws1) q) []) ((d, s) :: ws2) = Ok (f, hs2) /\ length hs2 = S (length ws2) /\
    (exists l, f = file2 (set_contribs h (Z.of_nat (S (length ws2)))) (upd_par2 (prodf (ws1 ++ (d, s) :: ws2)) q) l) /\
    forall bs' (rho : nat -> nat -> nat -> E), 1 <= bs' -> exec (verify2 bs' rho) f m = (Ok hs2, []) /\
      (prodf ws1 <> 1 -> exec (verify2 bs' rho) f f1 = (Err EUpdDelta, [])).
Proof. exact @restart. Qed.
Print Assumptions C91_restart_refuted.

(* 3 and 7 contributed; records taken away, then 2 and 5 *)
Example C91_restart_case : is_file2 tf0 th tq [] /\ hdr_ok th /\ (forall w, In w (tws ++ [(u 2, u 3); (u 5, u 5)]) -> fst w <> 0) /\
  p_d1 tq <> 0 /\ chal (u 3) (u 2 * u 3) [] 1 <> 0 /\ prodf tws <> 1 /\
  let r := ceremony2 2 (file2 th (upd_par2 (prodf tws) tq) []) [(u 2, u 3); (u 5, u 5)] in
  exec (verify2 2 trho2) (cer_file r) tf2 = (Ok (cer_hashes r), []) /\ length (cer_hashes r) = 2%nat /\
  exec (verify2 2 trho2) (cer_file r) tf0 = (Err EUpdDelta, []).
Proof.
  split; [exact tf0_is|]. split; [exact th_ok|]. split; [intros w [<-|[<-|[<-|[<-|[]]]]]; fld_neq|].
  do 3 (split; [fld_neq|]). cbv zeta. split; [vm_compute; reflexivity|]. split; vm_compute; reflexivity.
Qed.
