(* Prop35.v -- property C95: what p2c makes of any file that starts with a header.  seen2 is in Spec27.v. *)
From Verif Require Import Base Fld IO Ext Spec1 Phase1 Phase1Verify Gob GobLemmas Circuit Spec2 Phase2 Phase2Lemmas Phase2Claims Spec27 Torn Toy1 Toy2.
Local Open Scope fld_scope.

(* for all bytes t behind the header: which are accepted, and what is written for them.  The last record may lack up
   to 31 bytes, any hash may be cut by the end of a block *)
Theorem C95_accepts : forall (E : Ext2) bs (d s : E) g h t x out,
  1 <= bs -> hdr_ok h -> (- 2 ^ 63 < h_domain h)%Z -> (h_contribs h < 9223372036854775807)%Z ->
  (exec (contribute2 bs d s) (gob_hdr h ++ t) g = (Ok x, out) <->
   exists pb (q : par2 E) u (l : list (contrib2 E)), t = pb ++ u /\ is_par2 pb q /\ sized2 h q /\ length l = Z.to_nat (h_contribs h) /\
     seen2 (length (gob_hdr h) + length pb) u l /\
     let r := new_rec2 d s (d * p_d1 q) (last_hash2 l) in
     x = d_hash r /\ out = file2 (set_contribs h (h_contribs h + 1)) (upd_par2 d q) (l ++ [r])).
Proof. exact @seen_iff. Qed.
Print Assumptions C95_accepts.

(* the records of a readable file are seen as they are *)
Theorem C95_readable : forall (E : Ext2) off b (l : list (contrib2 E)) junk, recs2_at off b l -> seen2 off (b ++ junk) l.
Proof. exact @readable_seen. Qed.
Print Assumptions C95_readable.

(* with a negative number of contributions any parameters will do, and no record is read *)
Theorem C95_negative_refuted : forall (E : Ext2) bs (d s : E) g h t,
  1 <= bs -> hdr_ok h -> (- 2 ^ 63 < h_domain h)%Z -> (h_contribs h < 0)%Z ->
  ((exists x, fst (exec (contribute2 bs d s) (gob_hdr h ++ t) g) = Ok x) <->
   exists pb (q : par2 E) u, t = pb ++ u /\ is_par2 pb q /\ sized2 h q).
Proof. exact @negative_iff. Qed.
Print Assumptions C95_negative_refuted.

(* two records, the last five bytes are missing: the second hash ends in zeros *)
Example C95_case : exists c1 c2 : contrib2 Toy2, let l := [c1; c2] in
  let t := par2_bytes tq2 ++ firstn 379 (recs2_bytes trecs2) in
  firstn (length tf2 - 5) tf2 = gob_hdr th2 ++ t /\ hdr_ok th2 /\ is_par2 (par2_bytes tq2) tq2 /\ sized2 th2 tq2 /\
  length l = Z.to_nat (h_contribs th2) /\ seen2 (length (gob_hdr th2) + length (par2_bytes tq2)) (firstn 379 (recs2_bytes trecs2)) l /\
  bytes_eqb (d_hash c2) (nth 1 ths2 []) = false /\ is_ok (fst (exec (contribute2 2 (u 2) (u 5)) (gob_hdr th2 ++ t) [])) = true /\
  is_ok (fst (exec (contribute2 2 (u 2) (u 5)) (gob_hdr th2 ++ firstn (length t - 27) t) [])) = false.
Proof.
  destruct trecs2 as [|c1 [|c2 [|c3 l]]] eqn:T; try discriminate T.
  exists c1, (mkC2 (d_delta c2) (d_key c2) (padded32 (firstn 27 (d_hash c2)))). cbv zeta. rewrite <- T.
  injection T as <- <-.
  split; [apply bytes_eqb_true; vm_compute; reflexivity|]. split; [exact th2_ok|]. split; [apply par2_is|]. split; [split; reflexivity|].
  split; [reflexivity|]. split.
  { match goal with |- seen2 ?o ?b [?a; ?c] =>
      assert (B : b = enc_vals (rec2_vals a) ++ d_hash a ++ enc_vals (rec2_vals c) ++ firstn 27 (d_hash c)) by (apply bytes_eqb_true; vm_compute; reflexivity) end.
    rewrite B. clear B. constructor; [apply are_vals_enc|discriminate|apply bytes_eqb_true; vm_compute; reflexivity|].
    match goal with |- seen2 ?o ?b [?c] => assert (B : b = enc_vals (rec2_vals c) ++ firstn 27 (d_hash c)) by (apply bytes_eqb_true; vm_compute; reflexivity) end.
    rewrite B. clear B. constructor; [apply are_vals_enc|discriminate|apply bytes_eqb_true; vm_compute; reflexivity|]. constructor. }
  repeat split; vm_compute; reflexivity.
Qed.

(* one record whose hash straddles byte 4096: 21 bytes of it are seen *)
Example C95_torn_case : exists c : contrib2 Toy2, let h := set_contribs bh 1 in let q := upd_par2 (u 3) bq in
  exists t, bf1 = gob_hdr h ++ par2_bytes q ++ t /\ hdr_ok h /\ sized2 h q /\ length t = 192%nat /\
  seen2 (length (gob_hdr h) + length (par2_bytes q)) t [c] /\ bytes_eqb (d_hash c) (padded32 (firstn 21 (skipn 160 t))) = true /\
  is_ok (fst (exec (contribute2 2 (u 7) (u 2)) bf1 [])) = true.
Proof.
  set (c0 := hd (zero_contrib2 (E := Toy2)) (snd (honest2 bq [] bw))).
  exists (mkC2 (d_delta c0) (d_key c0) (padded32 (firstn 21 (d_hash c0)))). cbv zeta. exists (enc_vals (rec2_vals c0) ++ d_hash c0).
  split; [apply bytes_eqb_true; vm_compute; reflexivity|].
  split; [apply hdr_ok_set; [exact bh_ok|apply int_small; lia]|]. split; [split; reflexivity|]. split; [vm_compute; reflexivity|].
  split; [|split; vm_compute; reflexivity].
  constructor; [apply are_vals_enc|intros Q; apply (f_equal (@length _)) in Q; revert Q; vm_compute; discriminate|apply bytes_eqb_true; vm_compute; reflexivity|constructor].
Qed.

(* -1 contributions and nothing behind the parameters *)
Example C95_negative_case : let h := set_contribs th (-1) in hdr_ok h /\ sized2 h tq /\
  is_ok (fst (exec (contribute2 2 (u 2) (u 5)) (gob_hdr h ++ par2_bytes tq) [])) = true.
Proof. split; [apply hdr_ok_set; [exact th_ok|unfold int64; lia]|]. split; [split; reflexivity|vm_compute; reflexivity]. Qed.
