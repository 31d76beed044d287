(* Prop2.v -- properties C35-C43 and C54: phase 2.  E ranges over all interpretations of the external
   functions (Ext.v, Circuit.v); exec p a b runs program p on input files a and b and gives its
   result and the contents of its output file. *)
From Verif Require Import Base Fld IO Ext Spec1 Phase1 Phase1Io Phase1Verify Phase1Facts Toy1 Gob GobLemmas Circuit Spec2 Phase2
  Phase2Lemmas Phase2Claims Phase2More Phase2Bad Toy2.
Local Open Scope fld_scope.
Local Open Scope io_scope.

(* C35; is_file2 asks for hashes that do not straddle a 4096-byte boundary *)
Theorem C35_contribute : forall (E : Ext2) bs (d s : E) f g h (q : par2 E) l,
  1 <= bs -> hdr_ok h -> (0 <= h_contribs h < 9223372036854775807)%Z -> is_file2 f h q l ->
  let q' := mkPar2 (d * p_d1 q) (d * p_d2 q) (map (fun x => x / d) (p_Z q)) (map (fun x => x / d) (p_K q)) in
  let r := new_rec2 d s (d * p_d1 q) (last_hash2 l) in
  exec (contribute2 bs d s) f g =
    (Ok (d_hash r), gob_hdr (set_contribs h (h_contribs h + 1)) ++ par2_bytes q' ++ recs2_bytes l ++ rec2_bytes r).
Proof. exact @c35_bytes. Qed.
Print Assumptions C35_contribute.

Example C35_case : is_file2 tf2 th2 tq2 trecs2 /\ hdr_ok th2 /\ length trecs2 = 2%nat /\
  let r := exec (contribute2 2 (u 2) (u 5)) tf2 [] in
  bytes_eqb (firstn (length (gob_hdr th2) + 96 + 96) (snd r))
    (gob_hdr (set_contribs th 3) ++ g1c (u 8) ++ g2c (u 8) ++ enc1 [u 9; u 16; u 15]) = true /\
  length (snd r) = (length tf2 + 192)%nat.
Proof. split; [exact tf2_is|]. split; [exact th2_ok|]. vm_compute. auto. Qed.

(* C36: straddles f h q l c j 0 -- the last record c of f has its hash cut after j bytes by a 4096-byte boundary *)
Theorem C36_contribute_corrupts_refuted : forall (E : Ext2) bs (d s : E) f g h (q : par2 E) l c j,
  1 <= bs -> hdr_ok h -> count_ok (h_contribs h) -> straddles f h q l c j 0 ->
  let c' := cut_hash j c in
  let r := new_rec2 d s (d * p_d1 q) (d_hash c') in
  exec (contribute2 bs d s) f g =
    (Ok (d_hash r), file2 (set_contribs h (h_contribs h + 1)) (upd_par2 d q) (l ++ [c'; r])).
Proof. exact @c36_contribute. Qed.
Print Assumptions C36_contribute_corrupts_refuted.

Theorem C36_verify_rejects_refuted : forall (E : Ext2) bs (rho : nat -> nat -> nat -> E) f g h ho (q qo : par2 E) l lo c j m,
  1 <= bs -> hdr_ok h -> hdr_ok ho -> straddles f h q l c j m -> is_file2 g ho qo lo -> hash_good2 c ->
  skipn j (d_hash c) <> repeat (b8 0) (32 - j) ->
  exists e, exec (verify2 bs rho) f g = (Err e, []) /\
    forall hs, verdict2 bs rho (set_contribs h (Z.of_nat (length l + 1))) ho q qo (l ++ [c]) = Ok hs -> e = EHash.
Proof. exact @c36_verify. Qed.
Print Assumptions C36_verify_rejects_refuted.

(* an honest ceremony whose last record straddles: p2v rejects, and the next p2c corrupts *)
Theorem C36_honest_ceremony_refuted : forall (E : Ext2) bs f1 h (q : par2 E) ws,
  1 <= bs -> hdr_ok h -> h_contribs h = 0%Z -> is_file2 f1 h q [] ->
  (Z.of_nat (length ws) < 9223372036854775807)%Z -> ws <> [] ->
  (forall j, 1 <= j < length ws -> unsplit (set_contribs h (Z.of_nat j)) q j) ->
  let k := (length ws - 1)%nat in
  let h' := set_contribs h (Z.of_nat (length ws)) in
  unsplit h' q k -> (N.to_nat 4064 < hash_off h' q k mod N.to_nat 4096)%nat ->
  (forall w, In w ws -> fst w <> 0) ->
  let j := (N.to_nat 4096 - hash_off h' q k mod N.to_nat 4096)%nat in
  exists f hs, ceremony2 bs f1 ws = Ok (f, hs) /\ length hs = length ws /\
    (skipn j (last hs []) <> repeat (b8 0) (32 - j) ->
     (forall bs' (rho : nat -> nat -> nat -> E), 1 <= bs' -> exec (verify2 bs' rho) f f1 = (Err EHash, [])) /\
     (forall bs' (d s : E), 1 <= bs' -> exists hh f' (l : list (contrib2 E)) c',
        exec (contribute2 bs' d s) f f1 = (Ok hh, f') /\
        f' = file2 (set_contribs h (Z.of_nat (length ws) + 1)) (upd_par2 (d * prodf ws) q) (l ++ [c']) /\
        map d_hash l <> hs /\ length l = length ws /\ d_hash c' = hh)).
Proof. exact @c36_ceremony. Qed.
Print Assumptions C36_honest_ceremony_refuted.

(* whenever the records start at an unlucky offset, one of the first 64 hashes straddles *)
Theorem C36_within_64_records_refuted : forall (E : Ext2) h (q : par2 E),
  (32 < (length (head2 h q) + 160) mod 64)%nat ->
  exists k, (k < 64)%nat /\ (N.to_nat 4064 < hash_off h q k mod N.to_nat 4096)%nat.
Proof. exact @c36_period. Qed.
Print Assumptions C36_within_64_records_refuted.

Example C36_case : is_file2 bf0 bh bq [] /\ hdr_ok bh /\
  length bf1 = 4107%nat /\ (hash_off (set_contribs bh 1) bq 0 mod 4096 = 4075)%nat /\
  fst (exec (verify2 2 trho2) bf1 bf0) = Err EHash /\
  (let r := exec (contribute2 2 (u 7) (u 2)) bf1 [] in
   exists h, fst r = Ok h /\ bytes_eqb (firstn 32 (skipn 4075 (snd r))) (hd [] bhs1) = false /\
     bytes_eqb (firstn 32 (skipn 4075 bf1)) (hd [] bhs1) = true).
Proof. split; [exact bf0_is|]. split; [exact bh_ok|]. vm_compute. repeat split. eexists. repeat split. Qed.

(* C37 *)
Theorem C37_honest_ceremony_verifies : forall (E : Ext2) bs f1 h (q : par2 E) ws,
  1 <= bs -> hdr_ok h -> h_contribs h = 0%Z -> is_file2 f1 h q [] ->
  (Z.of_nat (length ws) < 9223372036854775808)%Z -> ws <> [] ->
  (forall j, 1 <= j <= length ws -> unsplit (set_contribs h (Z.of_nat j)) q j) ->
  (forall w, In w ws -> fst w <> 0) ->
  exists f hs, ceremony2 bs f1 ws = Ok (f, hs) /\ length hs = length ws /\
    (exists l, f = file2 (set_contribs h (Z.of_nat (length ws))) (upd_par2 (prodf ws) q) l) /\
    forall bs' (rho : nat -> nat -> nat -> E), 1 <= bs' -> exec (verify2 bs' rho) f f1 = (Ok hs, []).
Proof. exact @c37. Qed.
Print Assumptions C37_honest_ceremony_verifies.

Example C37_case : is_file2 tf0 th tq [] /\ hdr_ok th /\
  (forall j, 1 <= j <= 2 -> unsplit (set_contribs th (Z.of_nat j)) tq j) /\ (forall w, In w tws -> fst w <> 0) /\
  exec (verify2 2 trho2) tf2 tf0 = (Ok ths2, []) /\ length ths2 = 2%nat /\ length tws = 2%nat.
Proof.
  split; [exact tf0_is|]. split; [exact th_ok|]. split; [exact t_unsplit|]. split; [exact tw_nz|]. vm_compute. auto.
Qed.

(* C38: the scalar of entry k of section sec is the value of rho at the point given *)
Theorem C38_wrong_parameters_caught : forall (E : Ext2) bs (rho rho' : nat -> nat -> nat -> E) f g h ho (q qo : par2 E) l lo sec k hs hs',
  1 <= bs -> hdr_ok h -> hdr_ok ho -> is_file2 f h q l -> is_file2 g ho qo lo -> sec <= 1 ->
  (k < length (section2 sec q))%nat -> nth k (section2 sec q) 0 * p_d2 q <> nth k (section2 sec qo) 0 * p_d2 qo ->
  let n := length (section2 sec q) in
  (forall a b c, (a, b, c) <> (sec, (n - bs * (k / bs))%nat, (k mod bs)%nat) -> rho a b c = rho' a b c) ->
  fst (exec (verify2 bs rho) f g) = Ok hs -> fst (exec (verify2 bs rho') f g) = Ok hs' ->
  rho sec (n - bs * (k / bs))%nat (k mod bs)%nat = rho' sec (n - bs * (k / bs))%nat (k mod bs)%nat.
Proof. exact @c38. Qed.
Print Assumptions C38_wrong_parameters_caught.

(* among any distinct values of that scalar at most one is accepted *)
Theorem C38_at_most_one_scalar : forall (E : Ext2) bs (rho : nat -> nat -> nat -> E) f g h ho (q qo : par2 E) l lo sec k (els : list E),
  1 <= bs -> hdr_ok h -> hdr_ok ho -> is_file2 f h q l -> is_file2 g ho qo lo -> sec <= 1 ->
  (k < length (section2 sec q))%nat -> nth k (section2 sec q) 0 * p_d2 q <> nth k (section2 sec qo) 0 * p_d2 qo -> NoDup els ->
  (length (filter (fun x => is_ok (fst (exec (verify2 bs
     (put3 rho sec (length (section2 sec q) - bs * (k / bs)) (k mod bs) x)) f g))) els) <= 1)%nat.
Proof. exact @c38_count. Qed.
Print Assumptions C38_at_most_one_scalar.

Example C38_case : is_file2 xf2 th2 xq2 trecs2 /\ is_file2 tf0 th tq [] /\
  nth 1 (section2 0 xq2) 0 * p_d2 xq2 <> nth 1 (section2 0 tq) 0 * p_d2 tq /\
  length (filter (fun x => is_ok (fst (exec (verify2 2 (put3 trho2 0 3 1 x)) xf2 tf0)))
     (map (fun i => u (Z.of_nat i)) (seq 0 17))) = 1%nat.
Proof. split; [exact xf2_is|]. split; [exact tf0_is|]. split; [fld_neq|]. vm_compute. reflexivity. Qed.

(* C39: forged h o1 o2 d s b -- header with count 1, delta times d, sections that start with the
   undecodable point b, one honest record *)
Theorem C39_undecodable_accepted_refuted : forall (E : Ext2) bs (rho : nat -> nat -> nat -> E) h n0 (o1 o2 d s : E) b junk,
  1 <= bs -> hdr_ok h -> int64 n0 -> (2 <= h_domain h)%Z -> (1 <= h_witness h)%Z -> @bad1 E b ->
  fst (exec (verify2 bs rho) (forged h o1 o2 d s b) (gob_hdr (set_contribs h n0) ++ g1c o1 ++ g2c o2 ++ junk)) =
    Ok [d_hash (new_rec2 d s (d * o1) [])].
Proof. exact @c39_accept. Qed.
Print Assumptions C39_undecodable_accepted_refuted.

Theorem C39_ceremony_stuck_refuted : forall (E : Ext2) bs h (o1 o2 d s d' s' : E) b g,
  1 <= bs -> hdr_ok h -> (2 <= h_domain h)%Z -> (1 <= h_witness h)%Z -> @bad1 E b ->
  fst (exec (contribute2 bs d' s') (forged h o1 o2 d s b) g) = Err EDecode.
Proof. exact @c39_stuck. Qed.
Print Assumptions C39_ceremony_stuck_refuted.

(* with a negative count not even a record is needed *)
Theorem C39_negative_count_refuted : forall (E : Ext2) bs (rho : nat -> nat -> nat -> E) h n n0 (o1 o2 : E) b tail junk,
  1 <= bs -> hdr_ok h -> int64 n0 -> int64 n -> (n < 0)%Z -> (2 <= h_domain h)%Z -> (1 <= h_witness h)%Z -> @bad1 E b ->
  fst (exec (verify2 bs rho) (gob_hdr (set_contribs h n) ++ g1c (0 : E) ++ g2c (0 : E) ++ b ++ b ++ tail)
         (gob_hdr (set_contribs h n0) ++ g1c o1 ++ g2c o2 ++ junk)) = Ok [].
Proof. exact @c39_negative. Qed.
Print Assumptions C39_negative_count_refuted.

Example C39_case : @bad1 Toy2 ffb /\ hdr_ok th /\ (2 <= h_domain th)%Z /\ (1 <= h_witness th)%Z /\
  let f := forged th (u 1) (u 1) (u 3) (u 5) ffb in
  (exists h, fst (exec (verify2 2 trho2) f tf0) = Ok [h]) /\ fst (exec (contribute2 2 (u 7) (u 2)) f []) = Err EDecode /\
  fst (exec (verify2 2 trho2) (gob_hdr (set_contribs th (-1)) ++ g1c (u 0) ++ g2c (u 0) ++ ffb ++ ffb) tf0) = Ok [].
Proof.
  split; [exact ffb_bad|]. split; [exact th_ok|]. split; [vm_compute; discriminate|]. split; [vm_compute; discriminate|].
  split; [eexists; vm_compute; reflexivity|]. vm_compute. auto.
Qed.

(* C40 on readable files *)
Theorem C40_accepted_chain : forall (E : Ext2) bs (rho : nat -> nat -> nat -> E) f g h ho (q qo : par2 E) l lo hs,
  1 <= bs -> hdr_ok h -> hdr_ok ho -> is_file2 f h q l -> is_file2 g ho qo lo ->
  fst (exec (verify2 bs rho) f g) = Ok hs ->
  l <> [] /\ hs = map d_hash l /\ set_contribs h 0 = set_contribs ho 0 /\
  p_d1 qo * p_d2 q = p_d1 q * p_d2 qo /\ p_d1 q = last (map d_delta l) (p_d1 qo) /\ chain_facts (p_d1 qo) l /\
  ((forall i c, nth_error l i = Some c -> live2 c (prev_hash l i)) ->
   exists x : E, p_d1 q = x * p_d1 qo /\ (p_d1 qo <> 0 -> p_d2 q = x * p_d2 qo)).
Proof. exact @c40. Qed.
Print Assumptions C40_accepted_chain.

(* on arbitrary bytes; prefix2 = header, [delta]_1, [delta]_2 *)
Theorem C40_accepted_bytes : forall (E : Ext2) bs (rho : nat -> nat -> nat -> E) f g hs,
  fst (exec (verify2 bs rho) f g) = Ok hs ->
  exists cur org (d1 d2 g1 g2 : E) l,
    fst (exec (prefix2 false) f g) = Ok (cur, d1, d2) /\ fst (exec (prefix2 true) f g) = Ok (org, g1, g2) /\
    h_contribs cur <> 0%Z /\ set_contribs cur 0 = set_contribs org 0 /\ g1 * d2 = d1 * g2 /\
    length l = Z.to_nat (h_contribs cur) /\ chain_facts g1 l /\ d1 = last (map d_delta l) 0 /\ hs = map d_hash l.
Proof. exact @c40_any. Qed.
Print Assumptions C40_accepted_bytes.

Theorem C40_rejections : forall (E : Ext2) bs (rho : nat -> nat -> nat -> E) f g h ho (q qo : par2 E) l lo,
  1 <= bs -> hdr_ok h -> hdr_ok ho -> is_file2 f h q l -> is_file2 g ho qo lo ->
  (l = [] -> exec (verify2 bs rho) f g = (Err ENoContrib, [])) /\
  (l <> [] -> set_contribs h 0 <> set_contribs ho 0 -> exec (verify2 bs rho) f g = (Err EHeader, [])).
Proof. exact @c40_reject. Qed.
Print Assumptions C40_rejections.

Example C40_case : is_file2 tf2 th2 tq2 trecs2 /\ fst (exec (verify2 2 trho2) tf2 tf0) = Ok ths2 /\
  (forall i c, nth_error trecs2 i = Some c -> live2 c (prev_hash trecs2 i)) /\
  fst (exec (verify2 2 trho2) tf0 tf0) = Err ENoContrib /\ fst (exec (verify2 2 trho2) tf2 bf0) = Err EHeader.
Proof.
  split; [exact tf2_is|]. split; [vm_compute; reflexivity|]. split; [|vm_compute; auto].
  exact tlive2.
Qed.

(* C41 *)
Theorem C41_hash_commits : forall (E : Ext2) bs bs' (rho rho' : nat -> nat -> nat -> E) f f' g h h' ho (q q' qo : par2 E) l l' lo hs hs',
  1 <= bs -> 1 <= bs' -> hdr_ok h -> hdr_ok h' -> hdr_ok ho -> is_file2 f h q l -> is_file2 f' h' q' l' -> is_file2 g ho qo lo ->
  length l = length l' -> fst (exec (verify2 bs rho) f g) = Ok hs -> fst (exec (verify2 bs' rho') f' g) = Ok hs' ->
  (forall c, In c l -> kS (d_key c) <> 0 /\ kSX (d_key c) <> 0) -> last hs [] = last hs' [] ->
  l = l' \/ exists i, collision2_at l l' i.
Proof. exact @c41. Qed.
Print Assumptions C41_hash_commits.

Example C41_case : is_file2 tf2 th2 tq2 trecs2 /\ fst (exec (verify2 2 trho2) tf2 tf0) = Ok ths2 /\
  (forall c, In c trecs2 -> kS (d_key c) <> 0 /\ kSX (d_key c) <> 0).
Proof. split; [exact tf2_is|]. split; [vm_compute; reflexivity|exact tkeys2]. Qed.

(* C42 *)
Theorem C42_tau_proof_reused_refuted : forall (E : Ext2) (c : contrib E), verify_contrib c origin_gen = None ->
  let d h := mkC2 (c_tau1 c) (c_kt c) h in
  verify_contrib2 (d (sha E (enc_vals (rec2_vals (d []))))) 1 [] = None.
Proof. exact @c42. Qed.
Print Assumptions C42_tau_proof_reused_refuted.

Example C42_case : verify_contrib trec1 origin_gen = None /\ zv 17 (kSX (c_kt trec1)) = 6%Z.
Proof. vm_compute. auto. Qed.

(* C43: at_ f cap p rest -- reader over f with buffer size cap, p bytes consumed, rest to come *)
Theorem C43_header_round_trip : forall (E : Ext2) cap h t g, cap = 0%nat \/ (136 < cap)%nat -> hdr_ok h ->
  exec (write_hdr 0 h) [] [] = (Ok tt, gob_hdr h) /\
  run (NewRd false cap (read_hdr2 (E := E) false)) (opened (gob_hdr h ++ t), opened g) =
    (Ok h, (at_ (gob_hdr h ++ t) cap (length (gob_hdr h)) t, opened g), []).
Proof. exact @c43. Qed.
Print Assumptions C43_header_round_trip.

Example C43_case : hdr_ok whdr /\ length (gob_hdr whdr) = 157%nat /\
  fst (exec (read_hdr2 (E := Toy2) false) (gob_hdr whdr ++ [xff]) []) = Ok whdr.
Proof. split; [exact whdr_ok|]. vm_compute. auto. Qed.

(* C54 *)
Theorem C54_zero_secret : forall (E : Ext2) bs f1 h (q : par2 E) (ws : list (E * E)) w,
  1 <= bs -> hdr_ok h -> h_contribs h = 0%Z -> is_file2 f1 h q [] -> (Z.of_nat (length ws) < 9223372036854775808)%Z ->
  In w ws -> fst w = 0 -> (forall j, 1 <= j <= length ws -> unsplit (set_contribs h (Z.of_nat j)) q j) ->
  exists f hs (l : list (contrib2 E)), ceremony2 bs f1 ws = Ok (f, hs) /\
    f = file2 (set_contribs h (Z.of_nat (length ws)))
          (mkPar2 (0 : E) 0 (repeat 0 (length (p_Z q))) (repeat 0 (length (p_K q)))) l /\
    forall bs' (rho : nat -> nat -> nat -> E), 1 <= bs' -> exec (verify2 bs' rho) f f1 =
      (if negb (feqb (agg bs' (rho 0%nat) (p_Z q) * p_d2 q) 0) then Err EInconsZ
       else if negb (feqb (agg bs' (rho 1%nat) (p_K q) * p_d2 q) 0) then Err EInconsPKK else Ok hs, []).
Proof. exact @c54. Qed.
Print Assumptions C54_zero_secret.

Example C54_case : let f := cer_file (ceremony2 2 tf0 [(u 3, u 5); (u 0, u 2)]) in
  length f = length tf2 /\ fst (exec (verify2 2 trho2) f tf0) = Err EInconsZ /\
  is_ok (fst (exec (verify2 2 (fun _ _ _ => u 0)) f tf0)) = true.
Proof. vm_compute. auto. Qed.
