(* Prop1.v -- properties C01-C17, C19, C20: phase 1.  E ranges over all interpretations of the
   external functions (Ext.v); exec p a b runs program p on input files a and b and gives its result
   and the contents of its output file. *)
From Coq Require Import Permutation.
From Verif Require Import Base Fld IO Ext Toy Spec1 Phase1 Phase1Io Phase1Verify Phase1Trans Phase1Facts Phase1Inv Phase1More Phase1Claims Spec12 Phase1Lenient Toy1.
Local Open Scope fld_scope.
Local Open Scope io_scope.

(* C01 *)
Theorem C01_initialize : forall (E : Ext) p f g, p <= 62 ->
  let N := (2 ^ p)%nat in
  let out := hdr1 p 0 ++ concat (repeat (g1c (1 : E)) (2 * N - 1)) ++ concat (repeat (g1c (1 : E)) N) ++
    concat (repeat (g1c (1 : E)) N) ++ concat (repeat (g2c (1 : E)) N) ++ g2c (1 : E) in
  exec (initialize (E := E) (b8 (N.of_nat p))) f g = (Ok tt, out) /\ length out = (3 + 192 * N + 32)%nat.
Proof. exact @c01. Qed.
Print Assumptions C01_initialize.

Example C01_case : let r := exec (initialize (E := Toy true) (b8 2)) [] [] in
  fst r = Ok tt /\ length (snd r) = 803%nat /\ firstn 3 (snd r) = [b8 2; b8 0; b8 0].
Proof. vm_compute. auto. Qed.

(* C02: sections [tau1 alpha1 beta1 tau2 beta2] of s' are those of s times the right powers *)
Theorem C02_contribute_parameters : forall (E : Ext) bs (w : @rnd1 E) f g p (s : srs E) l,
  2 <= bs -> 1 <= p <= 62 -> length l < N.to_nat 65535 -> is_file1 f p s l ->
  let s' := upd_srs (r_tau w) (r_alpha w) (r_beta w) s in
  exists c, exec (contribute bs w) f g = (Ok (c_hash c), file1 p s' (l ++ [c])) /\ sized p s'.
Proof. exact @c02. Qed.
Print Assumptions C02_contribute_parameters.

Example C02_case : is_file1 (file1 1 (tsrs true) [trec true]) 1 (tsrs true) [trec true] /\
  let out := snd (exec (contribute 2 (tw1 true)) (file1 1 (tsrs true) [trec true]) []) in
  firstn 3 out = [b8 1; b8 0; b8 2] /\
  bytes_eqb (firstn 416 (skipn 3 out))
    (srs_bytes (mkSrs [z17 true 4; z17 true 27; z17 true 9] [z17 true 40; z17 true 120] [z17 true 14; z17 true 231]
                  [z17 true 5; z17 true 3] (z17 true 84))) = true.
Proof. split; [apply tfile1|]. vm_compute. auto. Qed.

(* C03; firsts_ok: the four entries copied into the record are not the identity, or the section fits
   one batch, or it is the identity from there on (holds for all powers-of-tau sections) *)
Theorem C03_contribute_record : forall (E : Ext) bs (w : @rnd1 E) f g p (s : srs E) l,
  2 <= bs -> 1 <= p <= 62 -> length l < N.to_nat 65535 -> is_file1 f p s l -> firsts_ok bs s ->
  let s' := upd_srs (r_tau w) (r_alpha w) (r_beta w) s in
  let c := new_rec (r_tau w) (r_alpha w) (r_beta w) (r_st w) (r_sa w) (r_sb w) s' (last_hash l) in
  exec (contribute bs w) f g =
    (Ok (c_hash c), hdr1 p (length l + 1) ++ srs_bytes s' ++ recs_bytes l ++ rec_bytes c).
Proof. exact @c03. Qed.
Print Assumptions C03_contribute_record.

Example C03_case : firsts_ok 2 (tsrs true) /\
  let f := file1 1 (tsrs true) [trec true] in
  let out := snd (exec (contribute 2 (tw1 true)) f []) in
  bytes_eqb (firstn 640 (skipn 419 out)) (skipn 419 f) = true /\ length out = (419 + 640 + 640)%nat.
Proof.
  split; [|vm_compute; auto]. unfold firsts_ok, first_ok.
  repeat split; left; (intros H; apply (f_equal (zv 17)) in H; vm_compute in H; discriminate H).
Qed.

(* C03 without the side condition: the record's [tau]_1 need not be the file's *)
Theorem C03_degenerate_file_refuted : forall (E : Ext) bs (w : @rnd1 E) p g,
  2 <= bs -> 1 <= p <= 62 -> bs + 2 <= 2 ^ p -> r_tau w <> 0 ->
  exists f (s : srs E) h (t : E) rest, is_file1 f p s [] /\
    exec (contribute bs w) f g =
      (Ok h, hdr1 p 1 ++ srs_bytes (upd_srs (r_tau w) (r_alpha w) (r_beta w) s) ++ g1c t ++ rest) /\
    t <> 0 /\ nth 1 (tau1 (upd_srs (r_tau w) (r_alpha w) (r_beta w) s)) 0 = 0.
Proof. exact @c03_refuted. Qed.
Print Assumptions C03_degenerate_file_refuted.

Example C03_degenerate_case : 2 <= 2 /\ 2 + 2 <= 2 ^ 2 /\ feqb (r_tau (tw1 true)) 0 = false.
Proof. repeat split; try (cbn; lia); vm_compute; reflexivity. Qed.

(* C04 *)
Theorem C04_srs_is_product : forall (E : Ext) bs p (ws : list (@rnd1 E)),
  2 <= bs -> 1 <= p <= 62 -> length ws <= N.to_nat 65535 ->
  exists l, ceremony1 bs p ws =
      Ok (file1 p (srs_of p (prodl (map (fun w => r_tau w) ws)) (prodl (map (fun w => r_alpha w) ws))
                            (prodl (map (fun w => r_beta w) ws))) l, map c_hash l) /\
    length l = length ws.
Proof. exact @c04. Qed.
Print Assumptions C04_srs_is_product.

(* header and parameters do not depend on the order of the contributors *)
Theorem C04_order_independent : forall (E : Ext) bs p (ws ws' : list (@rnd1 E)),
  2 <= bs -> 1 <= p <= 62 -> length ws <= N.to_nat 65535 -> Permutation ws ws' ->
  exists sb r r' hs hs', length sb = (3 + 192 * 2 ^ p + 32)%nat /\
    ceremony1 bs p ws = Ok (sb ++ r, hs) /\ ceremony1 bs p ws' = Ok (sb ++ r', hs').
Proof. exact @c04_order. Qed.
Print Assumptions C04_order_independent.

Example C04_case : bytes_eqb (firstn 419 (tfile true))
    (hdr1 1 2 ++ srs_bytes (srs_of 1 (z17 true 6) (z17 true 25) (z17 true 63))) = true /\
  bytes_eqb (firstn 419 (cer_file (ceremony1 2 1 [tw2 true; tw1 true]))) (firstn 419 (tfile true)) = true.
Proof. vm_compute. auto. Qed.

(* C05 *)
Theorem C05_honest_ceremony_verifies : forall (E : Ext) bs p (ws : list (@rnd1 E)),
  mexp_strict E -> 2 <= bs -> 1 <= p <= 62 -> ws <> [] -> length ws <= N.to_nat 65535 ->
  exists f hs, ceremony1 bs p ws = Ok (f, hs) /\ length hs = length ws /\
    forall bs' (rho : nat -> nat -> nat -> E) g, 1 <= bs' -> exec (verify bs' rho None) f g = (Ok hs, []).
Proof. exact @c05. Qed.
Print Assumptions C05_honest_ceremony_verifies.

Example C05_case : mexp_strict (Toy true) /\ exec (verify 2 (trho true) None) (tfile true) [] = (Ok (thashes true), []) /\
  length (thashes true) = 2%nat.
Proof. split; [exact toy_strict|]. vm_compute. auto. Qed.

(* C06 *)
Theorem C06_counter_wraps_refuted : forall (E : Ext) bs p (ws : list (@rnd1 E)),
  2 <= bs -> 1 <= p <= 62 -> length ws = N.to_nat 65536 ->
  exists f hs, ceremony1 bs p ws = Ok (f, hs) /\ length hs = length ws /\
    (mexp_strict E -> (forall w, In w ws -> r_beta w <> 0) ->
       forall bs' (rho : nat -> nat -> nat -> E) g, 1 <= bs' -> exec (verify bs' rho None) f g = (Err EBetaG2, [])).
Proof. exact @c06_ceremony. Qed.
Print Assumptions C06_counter_wraps_refuted.

(* the step that wraps, on any well-formed file *)
Theorem C06_contribution_65536_refuted : forall (E : Ext) bs (w : @rnd1 E) f g p (s : srs E) l,
  2 <= bs -> 1 <= p <= 62 -> length l = N.to_nat 65535 -> is_file1 f p s l ->
  exists h f', exec (contribute bs w) f g = (Ok h, hdr1 p 0 ++ f') /\
    (mexp_strict E -> r_beta w * beta2 s <> 0 -> forall bs' (rho : nat -> nat -> nat -> E) g', 1 <= bs' ->
       exec (verify bs' rho None) (hdr1 p 0 ++ f') g' = (Err EBetaG2, [])).
Proof. exact @c06. Qed.
Print Assumptions C06_contribution_65536_refuted.

Example C06_case : length (repeat (tw1 true) (N.to_nat 65536)) = N.to_nat 65536 /\ feqb (r_beta (tw1 true)) 0 = false.
Proof. split; [apply repeat_length|vm_compute; reflexivity]. Qed.

(* C07: the parameter sections never influence the verdict *)
Theorem C07_parameters_unchecked_refuted : forall (E : Ext) bs (rho : nat -> nat -> nat -> E) trans g p n (s s' : srs E) sb sb' tail,
  mexp_strict E -> 1 <= bs -> p <= 62 -> (n < 65536)%N ->
  sized p s -> is_srs sb s -> sized p s' -> is_srs sb' s' -> beta2 s = beta2 s' ->
  exec (verify bs rho trans) (b8 (N.of_nat p) :: be16 n ++ sb ++ tail) g =
  exec (verify bs rho trans) (b8 (N.of_nat p) :: be16 n ++ sb' ++ tail) g.
Proof. exact @c07. Qed.
Print Assumptions C07_parameters_unchecked_refuted.

(* an honest ceremony's file with all four sections replaced is accepted *)
Theorem C07_garbage_accepted_refuted : forall (E : Ext) bs bs' p (ws : list (@rnd1 E)) (rho : nat -> nat -> nat -> E) g,
  mexp_strict E -> 2 <= bs -> 1 <= bs' -> 1 <= p <= 62 -> ws <> [] -> length ws <= N.to_nat 65535 ->
  exists (s : srs E) l, ceremony1 bs p ws = Ok (file1 p s l, map c_hash l) /\
    forall s' : srs E, sized p s' -> beta2 s' = beta2 s ->
      exec (verify bs' rho None) (file1 p s' l) g = (Ok (map c_hash l), []).
Proof. exact @c07_garbage. Qed.
Print Assumptions C07_garbage_accepted_refuted.

Example C07_case : let f := firstn 3 (tfile true) ++ srs_bytes (set_beta2 (tsrs true) (z17 true 63)) ++ skipn 419 (tfile true) in
  bytes_eqb f (tfile true) = false /\ fst (exec (verify 2 (trho true) None) f []) = Ok (thashes true).
Proof. vm_compute. auto. Qed.

(* C08: if MultiExp combined the common prefix; pairs, scalar: Spec12.v (entries i and i+1 of the tauG2
   section are compared if they are in one batch, with their own random scalar) *)
Theorem C08_tauG2_check_refuted : forall (E : Ext) bs bs' p (ws : list (@rnd1 E)) (rho : nat -> nat -> nat -> E) g,
  mexp_lenient E -> 2 <= bs -> 1 <= p <= 62 -> 1 <= bs' -> ws <> [] -> length ws <= N.to_nat 65535 ->
  let T := prodl (map (fun w => r_tau w) ws) in
  let comb := fsum (map (fun i => T ^ i * scalar (rho 3%nat) bs' (2 ^ p) i) (pairs bs' (2 ^ p))) in
  exists f hs, ceremony1 bs p ws = Ok (f, hs) /\
    (fst (exec (verify bs' rho None) f g) = Ok hs \/ fst (exec (verify bs' rho None) f g) = Err EPairing) /\
    (fst (exec (verify bs' rho None) f g) = Ok hs <-> T * T = 1 \/ comb = 0).
Proof. exact @c08_all. Qed.
Print Assumptions C08_tauG2_check_refuted.

Example C08_case : mexp_lenient (Toy false) /\ fst (exec (verify 4 (trho false) None) (tfile false) []) = Err EPairing.
Proof. split; [exact toy_lenient|]. vm_compute. auto. Qed.

(* C09 *)
Theorem C09_accepted_chain : forall (E : Ext) bs (rho : nat -> nat -> nat -> E) trans f g p (s : srs E) l o hs,
  mexp_strict E -> 1 <= bs -> p <= 62 -> length l < N.to_nat 65536 -> is_file1 f p s l -> origin_is trans g o ->
  fst (exec (verify bs rho trans) f g) = Ok hs -> all_live o l ->
  hs = map c_hash l /\ all_linked o l /\ beta2 s = c_beta2 (last l zero_contrib) /\
  exists xt xa xb, linked o (last l o) xt xa xb.
Proof. exact @c09. Qed.
Print Assumptions C09_accepted_chain.

(* for arbitrary bytes; take_chain n c b decodes n records the way readFrom with ignored errors does *)
Theorem C09_accepted_bytes : forall (E : Ext) bs (rho : nat -> nat -> nat -> E) trans f g hs, 1 <= bs ->
  fst (exec (verify bs rho trans) f g) = Ok hs ->
  exists p n (s : srs E) sb tail o, p <= 62 /\ (n < 65536)%N /\ f = b8 (N.of_nat p) :: be16 n ++ sb ++ tail /\
    sized p s /\ is_srs sb s /\ origin_is trans g o /\
    let cs := take_chain (N.to_nat n) zero_contrib tail in
    hs = map c_hash cs /\ beta2 s = c_beta2 (last cs zero_contrib) /\
    (all_live o cs -> all_linked o cs /\ exists xt xa xb, linked o (last cs o) xt xa xb).
Proof. exact @c09_bytes. Qed.
Print Assumptions C09_accepted_bytes.

(* the origins that occur *)
Theorem C09_origins : forall (E : Ext) g q c0 c1 (s0 : srs E) t, 1 <= q <= 55 -> sized q s0 ->
  origin_is None g (@origin_gen E) /\
  origin_is (Some true) (b8 (N.of_nat q) :: c0 :: c1 :: srs_bytes s0 ++ t) (origin_of s0).
Proof. intros E g q c0 c1 s0 t H1 H2. exact (conj (origin_is_none g) (origin_is_file q c0 c1 s0 t H1 H2)). Qed.
Print Assumptions C09_origins.

Example C09_case : exists l, tfile true = file1 1 (srs_of 1 (z17 true 6) (z17 true 25) (z17 true 63)) l /\
  length l = 2%nat /\ all_live origin_gen l /\ fst (exec (verify 2 (trho true) None) (tfile true) []) = Ok (map c_hash l).
Proof. exact toy_live. Qed.

(* C10 *)
Theorem C10_identity_keys_refuted : forall (E : Ext) bs (rho : nat -> nat -> nat -> E) trans f g p (s : srs E) l o hs,
  mexp_strict E -> 1 <= bs -> p <= 62 -> length l < N.to_nat 65535 -> is_file1 f p s l -> hashed32 l ->
  origin_is trans g o -> l <> [] -> fst (exec (verify bs rho trans) f g) = Ok hs ->
  forall xt xa xb t2 b2, exists c,
    c_tau1 c = xt * c_tau1 (last l o) /\ c_alpha1 c = xa * c_alpha1 (last l o) /\ c_beta1 c = xb * c_beta1 (last l o) /\
    c_tau2 c = t2 /\ c_beta2 c = b2 /\
    fst (exec (verify bs rho trans) (file1 p (set_beta2 s b2) (l ++ [c])) g) = Ok (hs ++ [c_hash c]).
Proof. exact @c10. Qed.
Print Assumptions C10_identity_keys_refuted.

(* one link: xt, xa, xb scale the G1 points; the G2 points are arbitrary *)
Theorem C10_idle_record_refuted : forall (E : Ext) (prev : contrib E) xt xa xb t2 b2,
  verify_contrib (idle_rec (xt * c_tau1 prev) (xa * c_alpha1 prev) (xb * c_beta1 prev) t2 b2
    (xt * chal 0 0 (c_hash prev) 1) (xa * chal 0 0 (c_hash prev) 2) (xb * chal 0 0 (c_hash prev) 3)) prev = None.
Proof. exact @idle_ok. Qed.
Print Assumptions C10_idle_record_refuted.

Example C10_case : let c := @idle_rec (Toy true) 0 0 0 (z17 true 3) 0 0 0 0 in
  let f := b8 1 :: be16 3 ++ srs_bytes (set_beta2 (tsrs true) 0) ++ skipn 419 (tfile true) ++ rec_bytes c in
  fst (exec (verify 2 (trho true) None) f []) = Ok (thashes true ++ [c_hash c]).
Proof. vm_compute. auto. Qed.

(* C11 *)
Theorem C11_hash_commits : forall (E : Ext) bs bs' (rho rho' : nat -> nat -> nat -> E) trans f f' g p p' (s s' : srs E) l l' o hs hs',
  mexp_strict E -> 1 <= bs -> 1 <= bs' -> p <= 62 -> p' <= 62 -> length l < N.to_nat 65536 -> length l' = length l ->
  is_file1 f p s l -> is_file1 f' p' s' l' -> origin_is trans g o ->
  fst (exec (verify bs rho trans) f g) = Ok hs -> fst (exec (verify bs' rho' trans) f' g) = Ok hs' ->
  (forall c, In c l -> kS (c_kt c) <> 0 /\ kSX (c_kt c) <> 0) ->
  last hs [] = last hs' [] -> l = l' \/ exists i, collision_at o l l' i.
Proof. exact @c11. Qed.
Print Assumptions C11_hash_commits.

Example C11_case : exists l, is_file1 (tfile true) 1 (srs_of 1 (z17 true 6) (z17 true 25) (z17 true 63)) l /\ length l = 2%nat /\
  (forall c, In c l -> kS (c_kt c) <> 0 /\ kSX (c_kt c) <> 0).
Proof. exact toy_keys. Qed.

(* C12 *)
Theorem C12_no_contributions : forall (E : Ext) bs (rho : nat -> nat -> nat -> E) trans f g p (s : srs E) (o : contrib E),
  mexp_strict E -> 1 <= bs -> p <= 62 -> is_file1 f p s [] -> origin_is trans g o ->
  exec (verify bs rho trans) f g = (if feqb (beta2 s) 0 then Ok [] else Err EBetaG2, []).
Proof. exact @c12. Qed.
Print Assumptions C12_no_contributions.

Example C12_case :
  fst (exec (verify 2 (trho true) None) (out_of (exec (initialize (E := Toy true) (b8 1)) [] [])) []) = Err EBetaG2 /\
  fst (exec (verify 2 (trho true) None) (file1 1 (set_beta2 (tsrs true) 0) []) []) = Ok [].
Proof. vm_compute. auto. Qed.

(* C13: round trip; exactly 3 bytes are consumed (t is left unread) *)
Theorem C13_header_round_trip : forall p n t f g, p < 256 -> n < N.to_nat 65536 ->
  exec (write_header 0 (b8 (N.of_nat p)) (N.of_nat n)) f g = (Ok tt, hdr1 p n) /\
  run (read_header false) (opened (hdr1 p n ++ t), opened g) =
    (Ok (b8 (N.of_nat p), N.of_nat n), (mkRd (hdr1 p n ++ t) t 0 0, opened g), []).
Proof. exact c13_both. Qed.
Print Assumptions C13_header_round_trip.

Theorem C13_short_header_refuted : forall a b g, fst (exec (read_header false) [a; b] g) = Ok (a, (bN b * 256)%N).
Proof. exact c13_short. Qed.
Print Assumptions C13_short_header_refuted.

Example C13_case : fst (exec (read_header false) [b8 5; b8 1] []) = Ok (b8 5, 256%N) /\
  fst (exec (read_header false) (hdr1 5 258) []) = Ok (b8 5, 258%N).
Proof. vm_compute. auto. Qed.

(* C14: ks = the sizes of the reads done by the point decoders since the buffer was created *)
Theorem C14_hash_read_is_full : forall cap f g pw c0 c1 b h t ks, cap = defBuf \/ cap = bigBuf ->
  Forall (fun k => k = 32%nat \/ k = 64%nat) ks ->
  f = pw :: c0 :: c1 :: b ++ h ++ t -> length b = total ks -> length h = 32%nat ->
  fst (exec (read_header false ;;; NewRd false cap (reads false ks ;;; Rd false 32 (fun x => Ret x))) f g) = Ok (Some h).
Proof. exact c14. Qed.
Print Assumptions C14_hash_read_is_full.

Example C14_case : (64 < defBuf /\ defBuf mod 32 = 0%nat) /\ (64 < bigBuf /\ bigBuf mod 32 = 0%nat) /\
  fst (exec (read_header false ;;; NewRd false defBuf (reads false [32; 64; 64; 32]%nat ;;; Rd false 32 (fun x => Ret x)))
        (repeat x00 195 ++ repeat xff 32) []) = Ok (Some (repeat xff 32)).
Proof. exact c14_case. Qed.

(* C15 *)
Theorem C15_transform : forall (E : Ext) a b h (s : srs E) junk g, b <= a <= 54 -> sized a s -> length h = 64%nat ->
  exec (transform (E := E) (b8 (N.of_nat a)) (b8 (N.of_nat b))) (ppot h s junk) g = (Ok tt, file1 b (cut b s) []).
Proof. exact @c15. Qed.
Print Assumptions C15_transform.

Theorem C15_transform_powers : forall (E : Ext) a b (T A B : E), b <= a -> cut b (srs_of a T A B) = srs_of b T A B.
Proof. exact @cut_srs_of. Qed.
Print Assumptions C15_transform_powers.

Example C15_case : let f := ppot (repeat x00 64) (srs_of 2 (z17 true 3) (z17 true 5) (z17 true 7)) [] in
  bytes_eqb (out_of (exec (transform (E := Toy true) (b8 2) (b8 1)) f []))
    (file1 1 (srs_of 1 (z17 true 3) (z17 true 5) (z17 true 7)) []) = true.
Proof. vm_compute. auto. Qed.

(* C16 *)
Theorem C16_ceremony_after_transform : forall (E : Ext) bs a b h (s : srs E) junk (ws : list (@rnd1 E)),
  mexp_strict E -> 2 <= bs -> 1 <= b <= a -> a <= 54 -> sized a s -> length h = 64%nat ->
  firsts_ok bs (cut b s) -> ws <> [] -> length ws <= N.to_nat 65535 ->
  exists g f hs, exec (transform (E := E) (b8 (N.of_nat a)) (b8 (N.of_nat b))) (ppot h s junk) [] = (Ok tt, g) /\
    continue1 bs g ws = Ok (f, hs) /\ length hs = length ws /\
    forall bs' (rho : nat -> nat -> nat -> E), 1 <= bs' -> exec (verify bs' rho (Some true)) f g = (Ok hs, []).
Proof. exact @c16. Qed.
Print Assumptions C16_ceremony_after_transform.

Theorem C16_powers_qualify : forall (E : Ext) bs p (T A B : E), sized p (srs_of p T A B) /\ firsts_ok bs (srs_of p T A B).
Proof. intros E bs p T A B. exact (conj (srs_of_sized p T A B) (firsts_ok_of bs p T A B)). Qed.
Print Assumptions C16_powers_qualify.

Example C16_case : let g := out_of (exec (transform (E := Toy true) (b8 2) (b8 1))
      (ppot (repeat x00 64) (srs_of 2 (z17 true 3) (z17 true 5) (z17 true 7)) []) []) in
  let r := continue1 2 g [tw1 true; tw2 true] in
  fst (exec (verify 2 (trho true) (Some true)) (cer_file r) g) = Ok (cer_hashes r) /\ length (cer_hashes r) = 2%nat /\
  fst (exec (verify 2 (trho true) None) (cer_file r) g) <> Ok (cer_hashes r).
Proof. vm_compute. repeat split; discriminate. Qed.

(* C17 *)
Theorem C17_one_honest_contributor : forall (E : Ext) bs p (ws1 ws2 : list (@rnd1 E)) w,
  2 <= bs -> 1 <= p <= 62 -> length ws1 + length ws2 < N.to_nat 65535 ->
  (forall v, In v (ws1 ++ ws2) -> r_tau v <> 0 /\ r_alpha v <> 0 /\ r_beta v <> 0) ->
  forall T A B, T <> 0 -> A <> 0 -> B <> 0 ->
  exists! x, let '(t, a, b) := x in
    t <> 0 /\ a <> 0 /\ b <> 0 /\ ends_with bs p (ws1 ++ [with_secrets w t a b] ++ ws2) T A B.
Proof. exact @c17. Qed.
Print Assumptions C17_one_honest_contributor.

(* secret 3^-1 * 11 = 15 brings tau to 11 behind a contributor with tau = 3 *)
Example C17_case : ends_with 2 1 ([tw1 true] ++ [with_secrets (tw2 true) (z17 true 15) (z17 true 1) (z17 true 1)] ++ [])
  (z17 true 11) (z17 true 5) (z17 true 7).
Proof. exact toy_ends. Qed.

(* C19 *)
Theorem C19_good_powers : forall (E : Ext) z f g,
  ((26 < z)%Z -> exec (p1n (E := E) (Some z)) f g = (Err EPower26, [])) /\
  ((0 <= z <= 26)%Z -> exec (p1n (E := E) (Some z)) f g =
     (Ok tt, file1 (Z.to_nat z) (srs_of (Z.to_nat z) (1 : E) 1 1) [])).
Proof. intros E z f g. exact (conj (p1n_big z f g) (p1n_good z f g)). Qed.
Print Assumptions C19_good_powers.

Theorem C19_negative_powers_refuted : forall (E : Ext) z f g, (z < 0)%Z -> (63 <= z mod 256)%Z ->
  exec (p1n (E := E) (Some z)) f g = (Ok tt, b8 (Z.to_N (z mod 256)) :: be16 0 ++ g2c (1 : E)).
Proof. exact @p1n_negative. Qed.
Print Assumptions C19_negative_powers_refuted.

Example C19_case : let r := exec (p1n (E := Toy true) (Some (-1)%Z)) [] [] in
  fst r = Ok tt /\ firstn 3 (snd r) = [b8 255; b8 0; b8 0] /\ length (snd r) = 67%nat.
Proof. vm_compute. auto. Qed.

(* C20 *)
Theorem C20_power_zero_refuted : forall (E : Ext) bs (w : @rnd1 E) f g c0 c1 b (x : E) t, 1 <= bs -> is1 b x ->
  f = b8 0 :: c0 :: c1 :: b ++ t ->
  exec (contribute bs w) f g = (Panic, b8 0 :: be16 ((bN c0 * 256 + bN c1 + 1) mod 65536) ++ g1c x).
Proof. exact @contribute_power0. Qed.
Print Assumptions C20_power_zero_refuted.

Example C20_case : let r := exec (p1n (E := Toy true) (Some 0%Z)) [] [] in
  fst r = Ok tt /\ fst (exec (contribute 4 (tw1 true)) (snd r) []) = Panic.
Proof. vm_compute. auto. Qed.
