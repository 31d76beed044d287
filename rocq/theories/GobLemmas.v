(* GobLemmas.v -- the header encoding round-trips; programs that only read. *)
From Coq Require Import ZifyBool ZifyNat ZifyN.
From Verif Require Import Base IO Gob Phase1 Phase1Io.
Local Open Scope io_scope.

Definition int64 (z : Z) : Prop := (- 9223372036854775808 <= z < 9223372036854775808)%Z.
Definition hdr_ok (h : hdr) : Prop := Forall int64 (hdr_fields h).

Lemma be_min_acc fuel : forall n acc, be_min fuel n acc = be_min fuel n [] ++ acc.
Proof.
  induction fuel as [|f IH]; intros n acc; cbn [be_min]; [reflexivity|].
  destruct (n =? 0)%N; [reflexivity|]. rewrite IH, (IH (n / 256)%N [_]), <- app_assoc. reflexivity.
Qed.
Lemma be_val_app a : forall c b, be_val c (a ++ b) = be_val (be_val c a) b.
Proof. induction a as [|x a IH]; intros; cbn; auto. Qed.
Lemma be_min_val fuel : forall n, (n < 256 ^ N.of_nat fuel)%N -> be_val 0 (be_min fuel n []) = n.
Proof.
  induction fuel as [|f IH]; intros n H; cbn [be_min].
  - cbn in *. lia.
  - destruct (N.eqb_spec n 0) as [->|N0]; [reflexivity|].
    rewrite be_min_acc, be_val_app, IH.
    + cbn [be_val]. rewrite bN_b8. rewrite N.mul_comm. symmetry. apply N.div_mod. lia.
    + apply N.div_lt_upper_bound; [lia|]. rewrite <- N.pow_succ_r by lia. now replace (N.succ (N.of_nat f)) with (N.of_nat (S f)) by lia.
Qed.
Lemma be_min_len fuel : forall n, length (be_min fuel n []) <= fuel.
Proof.
  induction fuel as [|f IH]; intros n; cbn [be_min]; [cbn; lia|].
  destruct (n =? 0)%N; [cbn; lia|]. rewrite be_min_acc, app_length. specialize (IH (n / 256)%N). cbn [length]. lia.
Qed.
Lemma be_min_pos fuel n : n <> 0%N -> 1 <= length (be_min (S fuel) n []).
Proof. intros H. cbn [be_min]. destruct (N.eqb_spec n 0); [lia|]. rewrite be_min_acc, app_length. cbn [length]. lia. Qed.

Lemma gob_uint_len n : 1 <= length (gob_uint n) <= 9.
Proof. unfold gob_uint. destruct (n <? 128)%N; cbn [length]; [lia|]. pose proof (be_min_len 8 n). lia. Qed.
Lemma gob_uint_small n : (n < 128)%N -> gob_uint n = [b8 n].
Proof. intros H. unfold gob_uint. destruct (N.ltb_spec n 128); [reflexivity|lia]. Qed.

Lemma gob_uint_head n : (128 <= n < 18446744073709551616)%N ->
  exists x d, gob_uint n = x :: d /\ bN x = (256 - N.of_nat (length d))%N /\ 1 <= length d <= 8 /\ be_val 0 d = n.
Proof.
  intros H. unfold gob_uint. destruct (N.ltb_spec n 128); [lia|].
  pose proof (be_min_len 8 n) as L. pose proof (be_min_pos 7 n ltac:(lia)) as L1.
  eexists _, (be_min 8 n []). split; [reflexivity|]. split; [|split; [lia|]].
  - rewrite bN_b8. apply N.mod_small. lia.
  - apply be_min_val. change (256 ^ N.of_nat 8)%N with 18446744073709551616%N. lia.
Qed.

Lemma dec_uint_ok n t : (n < 18446744073709551616)%N -> dec_uint (gob_uint n ++ t) = Some (n, t).
Proof.
  intros H. destruct (N.lt_ge_cases n 128) as [Sm|Sm].
  - rewrite gob_uint_small by auto. cbn [app dec_uint]. rewrite bN_b8, N.mod_small by lia.
    destruct (N.ltb_spec n 128); [reflexivity|lia].
  - destruct (gob_uint_head n ltac:(lia)) as [x [d [-> [X [L V]]]]]. cbn [app dec_uint].
    destruct (N.ltb_spec (bN x) 128); [lia|].
    replace (N.to_nat (256 - bN x)) with (length d) by lia.
    destruct (Nat.ltb_spec 8 (length d)); [lia|]. rewrite app_length.
    destruct (Nat.ltb_spec (length d + length t) (length d)); [lia|].
    rewrite firstn_app_exact, skipn_app_exact, V. reflexivity.
Qed.

Lemma zigzag_lt z : int64 z -> (zigzag z < 18446744073709551616)%N.
Proof. unfold int64, zigzag. intros H. destruct (Z.ltb_spec z 0); lia. Qed.
Lemma unzig_zigzag z : unzig (zigzag z) = z.
Proof.
  unfold unzig, zigzag. destruct (Z.ltb_spec z 0) as [H|H].
  - replace (Z.to_N (2 * (- z - 1) + 1)) with (2 * Z.to_N (- z - 1) + 1)%N by lia.
    rewrite N.add_comm, N.odd_add_mul_2. change (N.odd 1) with true. cbv iota. rewrite N.add_comm.
    replace ((2 * Z.to_N (- z - 1) + 1) / 2)%N with (Z.to_N (- z - 1)); [lia|].
    apply N.div_unique with (r := 1%N); lia.
  - replace (Z.to_N (2 * z)) with (2 * Z.to_N z)%N by lia.
    rewrite N.odd_mul. change (N.odd 2) with false. cbn [andb]. rewrite N.mul_comm, N.div_mul by lia. lia.
Qed.
Lemma dec_int_ok z t : int64 z -> dec_int (gob_int z ++ t) = Some (z, t).
Proof. intros H. unfold dec_int, gob_int. rewrite dec_uint_ok by now apply zigzag_lt. now rewrite unzig_zigzag. Qed.

(* the fields already set, the rest of the fields *)
Fixpoint set_from (i : nat) (l : list Z) (h : hdr) : hdr :=
  match l with [] => h | z :: l' => set_from (S i) l' (hdr_set i z h) end.

Lemma set_same i h : nth_error (hdr_fields h) i = Some 0%Z -> hdr_set i 0 h = h.
Proof.
  destruct h. do 7 (destruct i as [|i]; [cbn; intros X; injection X as ->; reflexivity|]). cbn. now destruct i.
Qed.
Lemma set_other i j z h : i < j -> j < 7 -> nth_error (hdr_fields (hdr_set i z h)) j = nth_error (hdr_fields h) j.
Proof. intros L1 L2. destruct h. do 7 (destruct i as [|i]; [do 7 (destruct j as [|j]; [try lia; reflexivity|]); lia|]). lia. Qed.

Lemma dec_fields_ok : forall l fuel next (delta : nat) h t,
  next + delta - 1 + length l = 7 -> 1 <= delta -> Forall int64 l -> length (gob_fields (N.of_nat delta) l) <= fuel ->
  (forall j, next + delta - 1 <= j < 7 -> nth_error (hdr_fields h) j = Some 0%Z) ->
  dec_fields fuel next h (gob_fields (N.of_nat delta) l ++ t) = Some (set_from (next + delta - 1) l h).
Proof.
  induction l as [|z l IH]; intros fuel next delta h t L D F LF Z.
  - cbn [gob_fields app length] in *. destruct fuel; [lia|]. reflexivity.
  - inversion F as [|z' l' Hz Fl]; subst. cbn [gob_fields length] in *.
    destruct (Z.eqb_spec z 0) as [->|NZ].
    + replace (N.of_nat delta + 1)%N with (N.of_nat (S delta)) in * by lia.
      rewrite IH; [|lia|lia|auto|auto|intros j Hj; apply Z; lia].
      cbn [set_from]. rewrite set_same by (apply Z; lia). f_equal. f_equal. lia.
    + rewrite <- !app_assoc. rewrite !app_length in LF.
      pose proof (gob_uint_len (N.of_nat delta)) as L1. pose proof (gob_uint_len (zigzag z)) as L2. fold (gob_int z) in L2.
      destruct fuel as [|fuel]; [lia|]. cbn [dec_fields]. rewrite dec_uint_ok by lia.
      destruct (N.eqb_spec (N.of_nat delta) 0); [lia|].
      destruct (N.ltb_spec 7 (N.of_nat next + N.of_nat delta)); [lia|].
      rewrite dec_int_ok by auto. replace (N.to_nat (N.of_nat delta)) with delta by lia.
      cbn [set_from]. change 1%N with (N.of_nat 1). rewrite IH; [|lia|lia|auto| |].
      * f_equal. f_equal. lia.
      * change (N.of_nat 1) with 1%N. lia.
      * intros j Hj. rewrite set_other by lia. apply Z. lia.
Qed.

Lemma value_dec h : hdr_ok h -> exists t, dec_int (value h) = Some (65%Z, t) /\ dec_fields (length t) 0 hdr0 t = Some h.
Proof.
  intros H. exists (gob_fields 1 (hdr_fields h)). split.
  - apply dec_int_ok. unfold int64. lia.
  - pose proof (dec_fields_ok (hdr_fields h) (length (gob_fields 1 (hdr_fields h))) 0 1 hdr0 []) as D.
    change (N.of_nat 1) with 1%N in D. rewrite app_nil_r in D. rewrite D; auto.
    + now destruct h.
    + intros j Hj. do 7 (destruct j as [|j]; [reflexivity|]). lia.
Qed.

Lemma gob_fields_len : forall l d, length (gob_fields d l) <= 18 * length l + 1.
Proof.
  induction l as [|z l IH]; intros d; cbn [gob_fields length]; [lia|].
  destruct (z =? 0)%Z; [specialize (IH (d + 1)%N); lia|]. rewrite !app_length. specialize (IH 1%N).
  pose proof (gob_uint_len d). pose proof (gob_uint_len (zigzag z)). unfold gob_int. lia.
Qed.
Lemma value_len h : 1 <= length (value h) <= 136.
Proof.
  unfold value. rewrite app_length. pose proof (gob_fields_len (hdr_fields h) 1) as L.
  cbn [length hdr_fields] in L. pose proof (gob_uint_len (zigzag 65)). unfold gob_int. lia.
Qed.

Lemma typedef_len : length typedef = 119. Proof. reflexivity. Qed.

Lemma ev_rd_uint h file cap p n t s : cap = 0 \/ 136 < cap -> (n < 18446744073709551616)%N ->
  getr h s = at_ file cap p (gob_uint n ++ t) ->
  ev (rd_uint h) s (Ok n) (setr h (at_ file cap (p + length (gob_uint n)) t) s) none.
Proof.
  intros C Hn G. unfold rd_uint. destruct (N.lt_ge_cases n 128) as [Sm|Sm].
  - rewrite gob_uint_small in * by auto. cbn [length].
    eapply evb; [apply readfull_ok with (cap := cap) (b := [b8 n]) (t := t); [reflexivity|lia|exact G]|].
    cbv beta iota. rewrite bN_b8, N.mod_small by lia. destruct (N.ltb_spec n 128); [|lia]. apply ev_ret.
  - destruct (gob_uint_head n ltac:(lia)) as [x [d [E [X [L V]]]]]. rewrite E in *. cbn [length].
    eapply evb; [apply readfull_ok with (cap := cap) (b := [x]) (t := d ++ t); [reflexivity|lia|exact G]|]. cbv beta iota.
    destruct (N.ltb_spec (bN x) 128); [lia|].
    replace (N.to_nat (256 - bN x)) with (length d) by lia.
    destruct (Nat.ltb_spec 8 (length d)); [lia|].
    eapply evb; [apply readfull_ok with (cap := cap) (b := d) (t := t); [reflexivity|lia|apply getr_setr]|].
    cbv beta. rewrite V, setr_setr. replace (p + 1 + length d) with (p + S (length d)) by lia. apply ev_ret.
Qed.

Lemma ev_recv h file cap p b t s : cap = 0 \/ 136 < cap -> length b <= 136 ->
  getr h s = at_ file cap p (message b ++ t) ->
  ev (recv h) s (Ok b) (setr h (at_ file cap (p + length (message b)) t) s) none.
Proof.
  intros C L G. unfold recv, message in *. rewrite <- app_assoc in G.
  eapply evb; [apply ev_rd_uint with (cap := cap) (n := N.of_nat (length b)) (t := b ++ t); [exact C|lia|exact G]|]. cbv beta.
  destruct (N.leb_spec 1073741824 (N.of_nat (length b))); [lia|].
  apply ev_set2. rewrite Nat2N.id. rewrite app_length, Nat.add_assoc.
  apply readfull_ok; [reflexivity|lia|apply getr_setr].
Qed.

Lemma gob_hdr_len h : length (gob_hdr h) <= 400.
Proof.
  unfold gob_hdr, message. rewrite !app_length. pose proof (value_len h). pose proof (gob_uint_len (N.of_nat (length typedef))).
  pose proof (gob_uint_len (N.of_nat (length (value h)))). rewrite typedef_len in *. lia.
Qed.

Lemma ev_read_hdr alt h file cap p x t s : cap = 0 \/ 136 < cap -> hdr_ok x ->
  getr h s = at_ file cap p (gob_hdr x ++ t) ->
  ev (read_hdr alt h) s (Ok x) (setr h (at_ file cap (p + length (gob_hdr x)) t) s) none.
Proof.
  intros C H G. unfold read_hdr, gob_hdr in *. rewrite <- app_assoc in G.
  eapply evb; [apply ev_recv with (cap := cap) (b := typedef) (t := message (value x) ++ t); [exact C|rewrite typedef_len; lia|exact G]|].
  cbv beta. rewrite bytes_eqb_refl.
  eapply evb; [apply ev_recv with (cap := cap) (b := value x) (t := t); [exact C|pose proof (value_len x); lia|apply getr_setr]|].
  cbv beta. destruct (value_dec x H) as [t' [-> ->]]. cbv beta iota. rewrite setr_setr.
  rewrite app_length, Nat.add_assoc. apply ev_ret.
Qed.

Lemma ev_write_hdr o h s : ev (write_hdr o h) s (Ok tt) s (on o (gob_hdr h)).
Proof. unfold write_hdr, gob_hdr. eapply evw; apply ev_write. Qed.

(* ---- programs that only read: the reader stays in canonical form, nothing is written ---- *)
Lemma canon file rest cap av : av <= length rest -> (cap = 0 -> av = 0) -> (cap <> 0 -> av < cap) ->
  exists p, mkRd file rest cap av = at_ file cap p rest.
Proof.
  intros L H0 H1. unfold at_, avail_at. destruct (Nat.eq_dec cap 0) as [->|C].
  - exists 0. rewrite (H0 eq_refl). reflexivity.
  - specialize (H1 C). destruct (Nat.eq_dec av 0) as [->|A].
    + exists 0. rewrite Nat.mod_0_l by auto. destruct (Nat.eqb_spec cap 0); [contradiction|]. reflexivity.
    + exists (cap - av). rewrite Nat.mod_small by lia. destruct (Nat.eqb_spec cap 0); [contradiction|].
      destruct (Nat.eqb_spec (cap - av) 0); [lia|]. f_equal. lia.
Qed.

Lemma rd_read_any file cap p rest k : 0 < k ->
  exists x p' rest' pre, rd_read k (at_ file cap p rest) = (x, at_ file cap p' rest') /\ rest = pre ++ rest' /\
    (forall b, x = Some b -> length b <= k).
Proof.
  intros K.
  assert (T : forall av n, n <= k -> n <= length rest -> av <= length rest - n -> (cap = 0 -> av = 0) -> (cap <> 0 -> av < cap) ->
    exists x p' rest' pre, rd_take n av (at_ file cap p rest) = (x, at_ file cap p' rest') /\ rest = pre ++ rest' /\
      (forall b, x = Some b -> length b <= k)).
  { intros av n Ln L1 L2 C0 C1. unfold rd_take. cbn [r_rest r_file r_cap].
    destruct (canon file (skipn n rest) cap av) as [p' E]; [rewrite skipn_length; lia|auto|auto|].
    exists (Some (firstn n rest)), p', (skipn n rest), (firstn n rest). rewrite <- E. split; [reflexivity|].
    split; [now rewrite firstn_skipn|]. intros b X. injection X as <-. rewrite firstn_length. lia. }
  assert (T' : forall av n, n <= k -> length rest <= n -> av = 0 ->
    exists x p' rest' pre, rd_take n av (at_ file cap p rest) = (x, at_ file cap p' rest') /\ rest = pre ++ rest' /\
      (forall b, x = Some b -> length b <= k)).
  { intros av n Ln L ->. unfold rd_take. cbn [r_rest r_file r_cap].
    destruct (canon file (skipn n rest) cap 0) as [p' E]; [lia|auto|lia|].
    exists (Some (firstn n rest)), p', (skipn n rest), (firstn n rest). rewrite <- E. split; [reflexivity|].
    split; [now rewrite firstn_skipn|]. intros b X. injection X as <-. rewrite firstn_length. lia. }
  unfold rd_read. cbn [r_cap at_ r_avail r_rest].
  destruct (Nat.eqb_spec cap 0) as [->|C].
  - destruct rest as [|b rest0]; [exists None, p, [], []; split; [auto|split; [auto|discriminate]]|]. set (rest := b :: rest0) in *.
    destruct (Nat.le_gt_cases k (length rest)); [apply T; lia|apply T'; lia].
  - destruct (Nat.eqb_spec (avail_at cap p (length rest)) 0) as [A|A].
    + destruct rest as [|b rest0]; [exists None, p, [], []; split; [auto|split; [auto|discriminate]]|]. set (rest := b :: rest0) in *.
      assert (0 < length rest) by (cbn; lia).
      destruct (Nat.leb_spec cap k).
      * destruct (Nat.le_gt_cases k (length rest)); [apply T; lia|apply T'; lia].
      * apply T; lia.
    + assert (AV : avail_at cap p (length rest) < cap /\ avail_at cap p (length rest) <= length rest).
      { unfold avail_at in *. destruct (Nat.eqb_spec cap 0); [contradiction|].
        pose proof (Nat.mod_upper_bound p cap C). destruct (Nat.eqb_spec (p mod cap) 0); lia. }
      apply T; lia.
Qed.

Lemma only_reads_ev {X} h file cap : forall (q : io X) p rest s, only_reads h q -> getr h s = at_ file cap p rest ->
  exists r p' rest' pre, ev q s r (setr h (at_ file cap p' rest') s) none /\ rest = pre ++ rest'.
Proof.
  induction q as [a|e| |h' k c IH|h' z c IH|h' n c IH|h' n c IH|o n c IH|o c IH|o d c IH]; intros p rest s O G; cbn [only_reads] in O; try contradiction.
  - exists (Ok a), p, rest, []. rewrite <- G, setr_getr. split; [apply ev_ret|reflexivity].
  - exists (Err e), p, rest, []. rewrite <- G, setr_getr. split; [apply ev_throw|reflexivity].
  - exists Panic, p, rest, []. rewrite <- G, setr_getr. split; [apply ev_boom|reflexivity].
  - destruct O as [-> [K O]]. destruct (rd_read_any file cap p rest k K) as [x [p1 [rest1 [pre1 [E [-> LX]]]]]].
    destruct (IH x p1 rest1 (setr h (at_ file cap p1 rest1) s) (O x LX) (getr_setr _ _ _)) as [r [p2 [rest2 [pre2 [[w [Ew Hw]] ->]]]]].
    exists r, p2, rest2, (pre1 ++ pre2). split; [|now rewrite app_assoc].
    exists w. cbn [run]. rewrite G, E, Ew, setr_setr. auto.
Qed.

Lemma only_reads_bind {X Y} h (p : io X) (f : X -> io Y) : only_reads h p -> (forall x, only_reads h (f x)) -> only_reads h (bind p f).
Proof.
  intros O F. induction p as [a|e| |h' k c IH|h' z c IH|h' n c IH|h' n c IH|o n c IH|o c IH|o d c IH]; cbn [only_reads bind] in *; auto.
  destruct O as [-> [K O]]. repeat split; auto.
Qed.
Lemma only_reads_rf h : forall fuel k acc, 0 < k -> only_reads h (rf_loop fuel k h acc).
Proof.
  induction fuel as [|f IH]; intros k acc K; cbn [rf_loop only_reads]; auto. repeat split; auto.
  intros [b|] L; cbn [only_reads]; auto. specialize (L b eq_refl).
  destruct (Nat.eqb_spec (length b) k); cbn [only_reads]; auto. apply IH. lia.
Qed.
Lemma only_reads_full h k : only_reads h (readfull h k).
Proof. unfold readfull. destruct (Nat.eqb_spec k 0); [cbn; auto|]. apply only_reads_rf. lia. Qed.
Lemma only_reads_recv h : only_reads h (recv h).
Proof.
  unfold recv, rd_uint. repeat apply only_reads_bind; try apply only_reads_full.
  - intros [|x b]; [cbn; auto|]. destruct (bN x <? 128)%N; [cbn; auto|]. cbv zeta.
    destruct (Nat.ltb 8 (N.to_nat (256 - bN x))); [cbn; auto|]. apply only_reads_bind; [apply only_reads_full|]. cbn; auto.
  - intros n. destruct (1073741824 <=? n)%N; [cbn; auto|]. apply only_reads_full.
Qed.
Lemma only_reads_hdr alt h : (forall bs, only_reads h (alt h bs)) -> only_reads h (read_hdr alt h).
Proof.
  intros A. unfold read_hdr. apply only_reads_bind; [apply only_reads_recv|]. intros b.
  destruct (bytes_eqb b typedef); [|apply A]. apply only_reads_bind; [apply only_reads_recv|]. intros v.
  destruct (dec_int v) as [[z t]|]; [|apply A].
  destruct z as [|z|z]; try apply A.
  do 7 (destruct z; try apply A). destruct (dec_fields _ _ _ _); cbn; auto.
Qed.
