(* Prop25.v -- property C86: the sizes of the files, as docs/Format.md gives them.  int_len and fields_len (Spec20.v) are the
   sizes of integers and of the header's fields in a gob stream. *)
From Coq Require Import String.
From Verif Require Import Base Fld IO Ext Spec1 Phase1 Phase1Io Phase1Verify Phase1Facts Toy1 Gob GobLemmas Circuit Spec2 Phase2
  Phase2Claims Fs Spec3 Init2 Spec20 Sizes Toy2 Toy6 Toy3.
Local Open Scope fld_scope.

(* docs/Format.md:2-28 *)
Theorem C86_phase1 : forall (E : Ext) bs p (ws : list (@rnd1 E)), 2 <= bs -> 1 <= p <= 62 -> length ws <= N.to_nat 65535 ->
  exists f hs, ceremony1 bs p ws = Ok (f, hs) /\ length f = (3 + (192 * 2 ^ p + 32) + 640 * length ws)%nat.
Proof. exact @size1. Qed.
Print Assumptions C86_phase1.

(* the sections as docs/Format.md:9-13 lists them *)
Theorem C86_phase1_sections_refuted : forall (E : Ext) bs p (ws : list (@rnd1 E)), 2 <= bs -> 2 <= p <= 62 -> length ws <= N.to_nat 65535 ->
  exists f hs, ceremony1 bs p ws = Ok (f, hs) /\
    (length f < 3 + (32 * (2 ^ (2 * p) - 1) + 32 * 2 ^ p + 32 * 2 ^ p + 64 * 2 ^ p + 64) + 640 * length ws)%nat.
Proof. exact @size1_doc. Qed.
Print Assumptions C86_phase1_sections_refuted.

Example C86_phase1_case : length (tfile true) = 1699%nat /\ length (cer_file (ceremony1 2 2 [tw1 true])) = 1443%nat /\
  (3 + (32 * (2 ^ (2 * 2) - 1) + 32 * 2 ^ 2 + 32 * 2 ^ 2 + 64 * 2 ^ 2 + 64) + 640 * 1 = 1699)%nat.
Proof. vm_compute. auto. Qed.

(* the header of phase 2 (docs/Format.md:32-41) *)
Theorem C86_header : forall h, hdr_ok h -> length (gob_hdr h) = (124 + fields_len h)%nat.
Proof. exact gob_hdr_len. Qed.
Print Assumptions C86_header.

Example C86_header_case : hdr_ok th /\ fields_len th = 10%nat /\ length (gob_hdr th) = 134%nat /\
  fields_len (mkHdr 100000 70000 64 0 90000 131072 300) = 27%nat /\ length (gob_hdr (mkHdr 100000 70000 64 0 90000 131072 300)) = 151%nat.
Proof. split; [exact th_ok|]. vm_compute. auto. Qed.

(* the three files p2n makes (docs/Format.md:32-47, 66-93) *)
Theorem C86_initialization : forall (E : Ext2) p S0 (cs : r1cs E) f p1 r1 p2,
  init_input p S0 cs f p1 r1 p2 -> no_cmt cs -> (N.of_nat (wires cs) < 4294967296)%N ->
  exists f' k bl be b2, p2n (E := E) p1 r1 p2 f = (Ok tt, f') /\ is_dom (length (r_cons cs)) k /\ k <= p /\
    f' lag_path = Some bl /\ f' evals_path = Some be /\ f' p2 = Some b2 /\
    length bl = (3 * (32 * 2 ^ k + 4) + (64 * 2 ^ k + 4))%nat /\
    length be = (32 + 32 + 64 + 2 * (32 * wires cs + 4) + (64 * wires cs + 4) + (32 * nb_public cs + 4) + 4 + length (cmt_bytes (e := E) (r_cmt cs)))%nat /\
    length b2 = (124 + fields_len (hdr_of cs k) + 32 + 64 + 32 * (2 ^ k - 1) + 32 * (nb_secret cs + nb_internal cs))%nat.
Proof. exact @size_init. Qed.
Print Assumptions C86_initialization.

(* srs.lag has the size of the circuit's domain, not that of the phase-1 file (docs/Format.md:72-75) *)
Theorem C86_lagrange_refuted : forall (E : Ext2) p S0 (cs : r1cs E) f p1 r1 p2,
  init_input p S0 cs f p1 r1 p2 -> no_cmt cs -> (N.of_nat (wires cs) < 4294967296)%N ->
  2 <= p -> length (r_cons cs) <= 2 ^ (p - 1) ->
  exists f' b, p2n (E := E) p1 r1 p2 f = (Ok tt, f') /\ f' lag_path = Some b /\ (length b < 3 * (32 * 2 ^ p + 4) + (64 * 2 ^ p + 4))%nat.
Proof. exact @size_lag_doc. Qed.
Print Assumptions C86_lagrange_refuted.

Example C86_initialization_case : init_input 2 tsrs (tcs 1) (tfs 1) p1n r1n p2n' /\ no_cmt (tcs 1) /\ length (r_cons (tcs 1)) <= 2 ^ (2 - 1) /\
  map (fun q => option_map (@length _) (snd (p2n (E := Toy2) p1n r1n p2n' (tfs 1)) q)) [lag_path; evals_path; p2n'] =
    [Some 336; Some 983; Some 390]%nat /\ (3 * (32 * 2 ^ 2 + 4) + (64 * 2 ^ 2 + 4) = 656)%nat.
Proof. split; [apply tfs_input; lia|]. split; [split; reflexivity|]. split; [vm_compute; lia|]. vm_compute. auto. Qed.

(* the phase-2 file after a ceremony (docs/Format.md:42-58) *)
Theorem C86_phase2 : forall (E : Ext2) bs f0 h (q : par2 E) ws,
  1 <= bs -> hdr_ok h -> h_contribs h = 0%Z -> is_file2 f0 h q [] ->
  (Z.of_nat (length ws) < 9223372036854775808)%Z -> ws <> [] ->
  (forall j, (1 <= j <= length ws)%nat -> unsplit (set_contribs h (Z.of_nat j)) q j) ->
  exists f hs, ceremony2 (E := E) bs f0 ws = Ok (f, hs) /\
    Z.of_nat (length f) = (124 + Z.of_nat (fields_len (set_contribs h (Z.of_nat (length ws)))) + 96 + 32 * (h_domain h - 1) +
      32 * h_witness h + 192 * Z.of_nat (length ws))%Z.
Proof. exact @size2. Qed.
Print Assumptions C86_phase2.

Example C86_phase2_case : is_file2 tf0 th tq [] /\ hdr_ok th /\ (forall j, 1 <= j <= 2 -> unsplit (set_contribs th (Z.of_nat j)) tq j) /\
  length tf2 = 808%nat /\ fields_len (set_contribs th 2) = 12%nat.
Proof. split; [exact tf0_is|]. split; [exact th_ok|]. split; [exact t_unsplit|]. vm_compute. auto. Qed.

(* one contribution *)
Theorem C86_contribution : forall (E : Ext2) bs (d s : E) h (q : par2 E) l g,
  1 <= bs -> hdr_ok h -> (0 <= h_contribs h < 9223372036854775807)%Z -> is_file2 (file2 h q l) h q l ->
  exists hh g', exec (contribute2 bs d s) (file2 h q l) g = (Ok hh, g') /\
    (Z.of_nat (length g') = Z.of_nat (length (file2 h q l)) + 192 +
      (Z.of_nat (fields_len (set_contribs h (h_contribs h + 1))) - Z.of_nat (fields_len h)))%Z.
Proof. exact @size2_grow. Qed.
Print Assumptions C86_contribution.

(* so it adds more than the 192 bytes of its record when the counter in the header grows *)
Theorem C86_growth_refuted : forall (E : Ext2) bs (d s : E) h (q : par2 E) l g, 1 <= bs -> hdr_ok h -> is_file2 (file2 h q l) h q l ->
  (length l = 0%nat -> exists hh g', exec (contribute2 bs d s) (file2 h q l) g = (Ok hh, g') /\ length g' = (length (file2 h q l) + 194)%nat) /\
  (length l = 63%nat -> exists hh g', exec (contribute2 bs d s) (file2 h q l) g = (Ok hh, g') /\ length g' = (length (file2 h q l) + 193)%nat).
Proof. exact @grow_by. Qed.
Print Assumptions C86_growth_refuted.

Example C86_growth_case : let h := set_contribs th 63 in let l := snd (honest2 tq [] (repeat (u 2, u 3) 63)) in
  hdr_ok h /\ is_file2 (file2 h tq l) h tq l /\ length l = 63%nat /\
  length (snd (exec (contribute2 2 (u 2) (u 5)) tf0 [])) = (length tf0 + 194)%nat /\
  length (snd (exec (contribute2 2 (u 2) (u 5)) (file2 h tq l) [])) = (length (file2 h tq l) + 193)%nat.
Proof.
  intros h l. split; [apply hdr_ok_set; [exact th_ok|apply int_small; lia]|].
  assert (L : length l = 63%nat) by apply (honest2_len (repeat (u 2, u 3) 63) tq []). split.
  { rewrite <- (app_nil_r (file2 _ _ _)). apply file2_is; [split; reflexivity|now rewrite L| |].
    - apply Phase2More.honest2_hashed. intros c [].
    - rewrite L. intros i Hi. unfold hash_off. replace (length (head2 h tq)) with 424%nat by (vm_compute; reflexivity).
      apply tle. assert (X : forallb (fun i => (424 + 192 * i + 160) mod N.to_nat 4096 <=? N.to_nat 4064) (seq 0 63) = true) by (vm_compute; reflexivity).
      rewrite forallb_forall in X. apply X, in_seq. lia. }
  split; [exact L|]. split; vm_compute; reflexivity.
Qed.
