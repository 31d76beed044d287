(* Prop19.v -- property C51, continued: a disk that has room for all a command writes, and one that lacks a single byte.
   ops_bytes: the bytes handed to the files; bytes_in ps f: the sizes of the files ps; one_short ps f g: g is f but for
   the last byte of one of the files ps (Spec15.v); result_of, after: Spec5.v. *)
From Coq Require Import String.
From Verif Require Import Base Fld IO Ext Spec1 Phase1 Gob Circuit Spec2 Phase2 Fs Spec3 Init2 Spec4 Keys Live LiveCmd Spec5 Spec6 Cli Spec15 Short
  Toy Toy1 Toy2 Toy3 Toy4 Toy5 Toy6 Toy7 Toy12.

(* with room for what is written, every command line does the same as on a disk without limits *)
Theorem C51_enough : forall (E : Ext2) C bs (v : inv E) n a f, ops_bytes (w_ops (snd (tool no_limit bs v n a (start f)))) <= C ->
  tool (disk C) bs v n a (start f) = tool no_limit bs v n a (start f).
Proof. exact @c51_enough. Qed.
Print Assumptions C51_enough.
Example C51_case_enough :
  let c dev := tool dev 2 i0 "p2n" ["p1b"; "r1cs"; "p2"]%string (start cf) in
  N.of_nat (ops_bytes (w_ops (snd (c no_limit)))) = 2093%N /\ ires (fst (c no_limit)) = 0.
Proof. split; vm_compute; reflexivity. Qed.

(* with one byte less p2n, p2np, key and keys succeed all the same and a file lacks its last byte, whatever the input *)
Theorem C51_p2n_short_refuted : forall (E : Ext2) C p1 r1 p2 f, p2 <> lag_path -> p2 <> evals_path -> r1 <> p2 -> r1 <> lag_path -> r1 <> evals_path ->
  (forall cs, parse_r1cs (e := E) (contents f r1) = Some cs -> 1 <= length (cmt_bytes (e := E) (r_cmt cs)) <= N.to_nat 4096) ->
  let c dev := l_p2n (E := E) dev p1 r1 p2 in
  result_of (c no_limit) f = Ok tt -> bytes_in [p2; lag_path; evals_path] (after (c no_limit) f) = S C ->
  result_of (c (disk C)) f = Ok tt /\ one_short [evals_path; p2] (after (c no_limit) f) (after (c (disk C)) f).
Proof. exact @c51_p2n_short. Qed.
Print Assumptions C51_p2n_short_refuted.
Theorem C51_p2np_short_refuted : forall (E : Ext2) C (cs : r1cs E) p1 p2 n f, p2 <> lag_path -> p2 <> evals_path ->
  1 <= length (cmt_bytes (e := E) (r_cmt cs)) <= N.to_nat 4096 ->
  let c dev := l_p2np dev cs p1 p2 n in
  result_of (c no_limit) f = Ok tt -> bytes_in [p2; lag_path; evals_path] (after (c no_limit) f) = S C ->
  result_of (c (disk C)) f = Ok tt /\ one_short [evals_path; p2] (after (c no_limit) f) (after (c (disk C)) f).
Proof. exact @c51_p2np_short. Qed.
Print Assumptions C51_p2np_short_refuted.
Theorem C51_keys_short_refuted : forall (E : Ext2) C wr (g sg : E) p f, 1 <= length (empty_info (E := E)) <= N.to_nat 4096 ->
  let c dev := l_keys dev wr g sg p in
  result_of (c no_limit) f = Ok tt -> bytes_in [pk_path; vk_path] (after (c no_limit) f) = S C ->
  result_of (c (disk C)) f = Ok tt /\ one_short [vk_path] (after (c no_limit) f) (after (c (disk C)) f).
Proof. exact @c51_keys_short. Qed.
Print Assumptions C51_keys_short_refuted.
Theorem C51_split_keys_short_refuted : forall (E : Ext2) C wr (g sg : E) p s f, 1 <= length (empty_info (E := E)) <= N.to_nat 4096 ->
  let c dev := l_split_keys dev wr g sg p s in
  result_of (c no_limit) f = Ok tt -> bytes_in (split_names s ++ [vks_path s; ckey_path s]) (after (c no_limit) f) = S C ->
  result_of (c (disk C)) f = Ok tt /\ one_short [vks_path s] (after (c no_limit) f) (after (c (disk C)) f).
Proof. exact @c51_split_short. Qed.
Print Assumptions C51_split_keys_short_refuted.

(* the bytes of the files written with one byte missing, per file: 2093 in all for p2n, 1760 for key, 2887 for keys *)
Example C51_case_short :
  (p2n' <> lag_path /\ p2n' <> evals_path /\ r1n <> p2n' /\ r1n <> lag_path /\ r1n <> evals_path /\
   (forall cs, parse_r1cs (e := Toy2) (contents (tfs 0) r1n) = Some cs -> length (cmt_bytes (e := Toy2) (r_cmt cs)) = 3) /\
   (let c dev := l_p2n (E := Toy2) dev p1n r1n p2n' in
    ires (result_of (c no_limit) (tfs 0)) = 0 /\ bytes_in [p2n'; lag_path; evals_path] (after (c no_limit) (tfs 0)) = S (N.to_nat 2092) /\
    map (ilen (after (c no_limit) (tfs 0))) [p2n'; lag_path; evals_path] = [454; 656; 983]%N /\
    map (ilen (after (c (disk (N.to_nat 2092))) (tfs 0))) [p2n'; lag_path; evals_path] = [453; 656; 983]%N) /\
   (let c dev := l_p2np dev (tcs 0) p1n p2n' 3 in
    ires (result_of (c no_limit) (tfs 0)) = 0 /\ bytes_in [p2n'; lag_path; evals_path] (after (c no_limit) (tfs 0)) = S (N.to_nat 2092) /\
    map (ilen (after (c (disk (N.to_nat 2092))) (tfs 0))) [p2n'; lag_path; evals_path] = [453; 656; 983]%N)) /\
  length (empty_info (E := Toy2)) = 3 /\
  (let c dev := l_keys (E := Toy2) dev wrap64 (u 2) (u 6) pzn in
   ires (result_of (c no_limit) kfs) = 0 /\ bytes_in [pk_path; vk_path] (after (c no_limit) kfs) = S (N.to_nat 1759) /\
   map (ilen (after (c (disk (N.to_nat 1759))) kfs)) [pk_path; vk_path] = [921; 838]%N) /\
  (let c dev := l_split_keys (E := Toy2) dev wrap64 (u 2) (u 6) pzn "s"%string in
   ires (result_of (c no_limit) kfs) = 0 /\ bytes_in (split_names "s" ++ [vks_path "s"; ckey_path "s"]) (after (c no_limit) kfs) = S (N.to_nat 2886) /\
   map (ilen (after (c no_limit) kfs)) [vks_path "s"; ckey_path "s"] = [839; 256]%N /\
   map (ilen (after (c (disk (N.to_nat 2886))) kfs)) [vks_path "s"; ckey_path "s"] = [838; 256]%N).
Proof.
  split; [|split; [reflexivity|split; cbv zeta; repeat split; vm_compute; reflexivity]].
  do 5 (split; [discriminate|]). split; [|split; cbv zeta; repeat split; vm_compute; reflexivity].
  assert (H : parse_r1cs (e := Toy2) (contents (tfs 0) r1n) = Some (tcs 0)) by reflexivity. intros cs P. rewrite H in P. injection P as <-. reflexivity.
Qed.
