(* SokPrograms.v -- the tool's programs are in the class of Sok.v. *)
From Coq Require String.
From Verif Require Import Base Fld Conc Parallel IO Ext Spec1 Phase1 Gob Circuit Spec2 Phase2 Spec3 Fs Init2 Spec4 Keys Phase1Io Live LiveLemmas Sok.
Local Open Scope fld_scope.
Local Open Scope io_scope.

Lemma be_min_len : forall fuel n acc, (length (be_min fuel n acc) <= fuel + length acc)%nat.
Proof.
  induction fuel as [|f IH]; intros n acc; cbn [be_min]; [lia|]. destruct (n =? 0)%N; [lia|].
  specialize (IH (n / 256)%N (b8 n :: acc)). cbn [length] in IH. lia.
Qed.
Lemma gob_uint_len n : (length (gob_uint n) <= 9)%nat.
Proof.
  unfold gob_uint. destruct (n <? 128)%N; [cbn [length]; lia|]. pose proof (be_min_len 8 n []) as H.
  cbv zeta. cbn [length] in *. lia.
Qed.
Lemma gob_fields_len : forall l d, (length (gob_fields d l) <= 18 * length l + 1)%nat.
Proof.
  induction l as [|z l IH]; intros d; cbn [gob_fields length]; [lia|].
  destruct (z =? 0)%Z; [specialize (IH (d + 1)%N); lia|].
  rewrite !app_length. specialize (IH 1%N). pose proof (gob_uint_len d). pose proof (gob_uint_len (zigzag z)). unfold gob_int. lia.
Qed.
Lemma value_len h : (length (message (value h)) <= 256)%nat.
Proof.
  assert (V : (length (value h) <= 136)%nat).
  { unfold value. rewrite app_length. pose proof (gob_uint_len (zigzag 65)) as A. fold (gob_int 65) in A.
    pose proof (gob_fields_len (hdr_fields h) 1) as G. change (length (hdr_fields h)) with 7%nat in G. lia. }
  unfold message. rewrite app_length. pose proof (gob_uint_len (N.of_nat (length (value h)))). lia.
Qed.
Lemma typedef_len : (length (message typedef) <= 256)%nat.
Proof. apply Nat.leb_le. vm_compute. reflexivity. Qed.

Section Rules.
Context (st : bool) (P : nat -> bytes -> Prop) (o : nat) (HP : forall d, (length d <= 256)%nat -> P o d).

Lemma sok_orBoom {X Y} (Q : Y -> Prop) (a : option X) (k : X -> io Y) :
  (forall x, a = Some x -> sok st P Q (k x)) -> sok st P Q (orBoom a k).
Proof. intros H. destruct a; [now apply H|exact I]. Qed.
Lemma sok_newrd {X} (Q : X -> Prop) h n (p : io X) : sok st P Q p -> sok st P Q (NewRd h n p).
Proof. auto. Qed.
Lemma sok_only_reads {X} h (p : io X) : only_reads h p -> sok st P any p.
Proof.
  induction p as [a|e| |h' k c IH|h' z c IH|h' n c IH|h' n c IH|o' n c IH|o' c IH|o' d c IH]; cbn [only_reads sok]; intros A; try contradiction; try exact I.
  destruct A as [_ [_ A]]. intros x L. apply IH. now apply A.
Qed.
Lemma sok_readfull_len h k : sok st P (fun b => length b = k) (readfull h k).
Proof.
  unfold readfull. destruct (Nat.eqb_spec k 0) as [->|K]; [reflexivity|].
  assert (Z : forall fuel k acc n, n = (length acc + k)%nat -> sok st P (fun b => length b = n) (rf_loop fuel k h acc)).
  { clear K. induction fuel as [|fuel IH]; intros j acc n E; cbn [rf_loop sok]; [exact I|]. intros [b|] L; cbn; [|exact I].
    specialize (L b eq_refl). destruct (Nat.eqb_spec (length b) j) as [EQ|NE]; [cbn; rewrite app_length; lia|].
    apply IH. rewrite app_length. lia. }
  now apply Z.
Qed.
Lemma sok_recv h : sok st P any (recv h).
Proof.
  unfold recv, rd_uint. apply sok_seq.
  - apply sok_seq; [apply sok_readfull|]. intros [|x t]; [exact I|]. destruct (bN x <? 128)%N; [exact I|]. cbv zeta.
    destruct (8 <? N.to_nat (256 - bN x)); [exact I|]. apply sok_seq; [apply sok_readfull|]. intros; exact I.
  - intros n. destruct (1073741824 <=? n)%N; [exact I|apply sok_readfull].
Qed.
Lemma sok_read_header h : sok st P any (read_header h).
Proof.
  unfold read_header. cbn [sok]. intros [b|] _; [|exact I]. destruct b; [exact I|]. cbn [sok]. intros [c|] _; [|exact I].
  destruct (c ++ [b8 0; b8 0]) as [|c0 [|c1 t]]; exact I.
Qed.
Lemma sok_write_header pw n : sok st P any (write_header o pw n).
Proof. unfold write_header. apply sok_seq; [apply sok_write, HP; cbn [length]; lia|]. intros _. apply sok_write, HP. cbn [length be16]. lia. Qed.
Lemma sok_encodes l : Forall (fun b => (length b <= 256)%nat) l -> sok st P any (encodes o l).
Proof.
  induction 1 as [|b l L F IH]; [exact I|]. cbn [encodes]. apply sok_seq; [now apply sok_write, HP|]. intros _. exact IH.
Qed.
Lemma sok_write_hdr h : sok st P any (write_hdr o h).
Proof. unfold write_hdr. apply sok_seq; [apply sok_write, HP, typedef_len|]. intros _. apply sok_write, HP, value_len. Qed.

Section E1.
Context {E : Ext}.
Lemma sok_decode1 h : sok st P any (decode1 (E := E) h).
Proof.
  unfold decode1. apply sok_seq; [apply sok_readfull|]. intros b. destruct (compressed b); [destruct (g1dc b); exact I|].
  apply sok_seq; [apply sok_readfull|]. intros b2. destruct (g1dr (b ++ b2)); exact I.
Qed.
Lemma sok_decode2 h : sok st P any (decode2 (E := E) h).
Proof.
  unfold decode2. apply sok_seq; [apply sok_readfull|]. intros b. destruct (compressed b); [destruct (g2dc b); exact I|].
  apply sok_seq; [apply sok_readfull|]. intros b2. destruct (g2dr (b ++ b2)); exact I.
Qed.
Lemma sok_decodes1 h : forall n, sok st P any (decodes1 (E := E) h n).
Proof.
  induction n as [|n IH]; [exact I|]. cbn [decodes1]. apply sok_seq; [apply sok_decode1|]. intros x.
  apply sok_seq; [exact IH|]. intros; exact I.
Qed.
Lemma sok_decodes2 h : forall n, sok st P any (decodes2 (E := E) h n).
Proof.
  induction n as [|n IH]; [exact I|]. cbn [decodes2]. apply sok_seq; [apply sok_decode2|]. intros x.
  apply sok_seq; [exact IH|]. intros; exact I.
Qed.
Lemma enc1_small (l : list E) : Forall (fun b => (length b <= 256)%nat) (map g1c l).
Proof. apply Forall_forall. intros b I. apply in_map_iff in I as [x [<- _]]. rewrite g1c_len. lia. Qed.
Lemma enc2_small (l : list E) : Forall (fun b => (length b <= 256)%nat) (map g2c l).
Proof. apply Forall_forall. intros b I. apply in_map_iff in I as [x [<- _]]. rewrite g2c_len. lia. Qed.
Lemma raw1_small (l : list E) : Forall (fun b => (length b <= 256)%nat) (map g1r l).
Proof. apply Forall_forall. intros b I. apply in_map_iff in I as [x [<- _]]. rewrite g1r_len. lia. Qed.
Lemma raw2_small (l : list E) : Forall (fun b => (length b <= 256)%nat) (map g2r l).
Proof. apply Forall_forall. intros b I. apply in_map_iff in I as [x [<- _]]. rewrite g2r_len. lia. Qed.

Lemma sok_scale bs dec (enc : E -> bytes) N tau mul : (forall n, sok st P any (dec n)) ->
  (forall x, (length (enc x) <= 256)%nat) -> sok st P any (scale bs dec enc o N tau mul).
Proof.
  intros D L. unfold scale. destruct (N <? 0)%Z; [exact I|]. cbv zeta.
  assert (Z : forall fuel rem buff first start, sok st P any (scale_loop bs dec enc o tau mul fuel rem buff first start)).
  { induction fuel as [|fuel IH]; intros [|rem] buff first start; cbn [scale_loop]; try exact I.
    apply sok_seq; [apply D|]. intros pts. do 4 (apply sok_orBoom; intros ? _).
    apply sok_seq.
    - apply sok_encodes, Forall_forall. intros b I. apply in_map_iff in I as [y [<- _]]. apply L.
    - intros _. destruct (feqb first 0); [apply sok_orBoom; intros|]; apply IH. }
  apply Z.
Qed.
Lemma sok_scaleG1 bs h N tau (mul : option E) : sok st P any (scaleG1 bs h o N tau mul).
Proof. apply sok_scale; [apply sok_decodes1|]. intros x. rewrite g1c_len. lia. Qed.
Lemma sok_scaleG2 bs h N (tau : E) : sok st P any (scaleG2 bs h o N tau).
Proof. apply sok_scale; [apply sok_decodes2|]. intros x. rewrite g2c_len. lia. Qed.

Lemma sok_into1 h (x : E) : sok st P any (decode1_into h x).
Proof.
  unfold decode1_into. apply sok_seq; [eapply sok_any, sok_try_quiet, sok_readfull|]. intros [b|]; [|exact I].
  destruct (compressed b); [destruct (g1dc b); exact I|]. apply sok_seq; [eapply sok_any, sok_try_quiet, sok_readfull|].
  intros [b2|]; [|exact I]. destruct (g1dr (b ++ b2)); exact I.
Qed.
Lemma sok_into2 h (x : E) : sok st P any (decode2_into h x).
Proof.
  unfold decode2_into. apply sok_seq; [eapply sok_any, sok_try_quiet, sok_readfull|]. intros [b|]; [|exact I].
  destruct (compressed b); [destruct (g2dc b); exact I|]. apply sok_seq; [eapply sok_any, sok_try_quiet, sok_readfull|].
  intros [b2|]; [|exact I]. destruct (g2dr (b ++ b2)); exact I.
Qed.
Lemma sok_read_fields h : forall l (c : contrib E), sok st P any (read_fields h l c).
Proof.
  induction l as [|[g s|g s] l IH]; intros c; cbn [read_fields]; [exact I| |].
  - apply sok_seq; [apply sok_into1|]. intros [x [|]]; [apply IH|exact I].
  - apply sok_seq; [apply sok_into2|]. intros [x [|]]; [apply IH|exact I].
Qed.
Definition hash_ok (x : contrib E * bool) : Prop := snd x = true -> length (c_hash (fst x)) = 32%nat.
Lemma sok_read_contrib h (c : contrib E) : sok st P hash_ok (read_contrib h c).
Proof.
  unfold read_contrib. apply sok_seq; [apply sok_read_fields|]. intros [c' [|]]; [|discriminate].
  cbn [sok]. intros [b|] L; [|discriminate]. intros _. cbn [fst s_hash c_hash]. rewrite app_length, skipn_length.
  specialize (L b eq_refl). change (length zeros32) with 32%nat. lia.
Qed.
Lemma put_small (c : contrib E) l : Forall (fun b => (length b <= 256)%nat) (map (put c) l).
Proof.
  apply Forall_forall. intros b I. apply in_map_iff in I as [f [<- _]]. destruct f; cbn [put]; [rewrite g1c_len|rewrite g2c_len]; lia.
Qed.
Lemma sok_write_contrib (c : contrib E) : (length (c_hash c) <= 256)%nat -> sok st P any (write_contrib o c).
Proof.
  intros L. unfold write_contrib. apply sok_seq; [apply sok_encodes, put_small|]. intros _. now apply sok_write, HP.
Qed.
Lemma sok_copy h : forall n (c : contrib E), sok st P any (copy_contribs h o n c).
Proof.
  induction n as [|n IH]; intros c; cbn [copy_contribs]; [exact I|].
  eapply sok_bind; [apply sok_read_contrib|]. intros [c' [|]] H; [|exact I].
  apply sok_seq; [|intros _; apply IH]. apply sok_write_contrib. specialize (H eq_refl). cbn [fst] in H. lia.
Qed.
Lemma sok_transform_loop (dec : io E) (enc : E -> bytes) : sok st P any dec -> (forall x, (length (enc x) <= 256)%nat) ->
  forall n, sok st P any (transform_loop dec enc o n).
Proof.
  intros D L. induction n as [|n IH]; cbn [transform_loop]; [exact I|]. apply sok_seq; [exact D|]. intros x.
  apply sok_seq; [now apply sok_write, HP|]. intros _. exact IH.
Qed.
End E1.

Section E2.
Context {E : Ext2}.
Lemma sok_read_hdr2 h : sok st P any (read_hdr2 (E := E) h).
Proof.
  unfold read_hdr2, read_hdr. apply sok_seq; [apply sok_recv|]. intros b. destruct (bytes_eqb b typedef).
  - apply sok_seq; [apply sok_recv|]. intros v.
    destruct (dec_int v) as [[z t]|]; [|eapply sok_only_reads, gob_alt_reads].
    destruct (Z.eq_dec z 65) as [->|N].
    + destruct (dec_fields (length t) 0 hdr0 t); exact I.
    + destruct z as [|p|p]; try (eapply sok_only_reads, gob_alt_reads).
      do 7 (destruct p as [p|p|]; try (eapply sok_only_reads, gob_alt_reads)). elim N. reflexivity.
  - eapply sok_only_reads, gob_alt_reads.
Qed.
Lemma sok_scale2 bs h N (d : E) : sok st P any (scale2 bs h o N d).
Proof.
  unfold scale2. destruct (N <? 0)%Z; [exact I|]. cbv zeta.
  assert (Z : forall fuel rem buff, sok st P any (scale2_loop bs h o d fuel rem buff)).
  { induction fuel as [|fuel IH]; intros [|rem] buff; cbn [scale2_loop]; try exact I.
    apply sok_seq; [apply sok_decodes1|]. intros pts. apply sok_orBoom; intros ? _.
    apply sok_seq; [apply sok_encodes, enc1_small|]. intros _. apply IH. }
  apply Z.
Qed.
Lemma sok_read_contrib2 h : sok st P (fun c : contrib2 E => length (d_hash c) = 32%nat) (read_contrib2 h).
Proof.
  unfold read_contrib2. do 3 (apply sok_seq; [apply sok_decode1|]; intros ?). apply sok_seq; [apply sok_decode2|]; intros ?.
  cbn [sok]. intros [b|] L; [|exact I]. cbn [d_hash sok]. rewrite app_length, skipn_length. specialize (L b eq_refl).
  change (length zeros32) with 32%nat. lia.
Qed.
Lemma sok_write_contrib2 (c : contrib2 E) : (length (d_hash c) <= 256)%nat -> sok st P any (write_contrib2 o c).
Proof.
  intros L. unfold write_contrib2, put2. apply sok_seq; [|intros _; now apply sok_write, HP].
  apply sok_encodes, Forall_forall. intros b [<-|[<-|[<-|[<-|[]]]]]; rewrite ?g1c_len, ?g2c_len; lia.
Qed.
Lemma sok_copy2 h : forall n (c : contrib2 E), sok st P any (copy_contribs2 h o n c).
Proof.
  induction n as [|n IH]; intros c; cbn [copy_contribs2]; [exact I|].
  eapply sok_bind; [apply sok_read_contrib2|]. intros c' H. cbv beta in H.
  apply sok_seq; [|intros _; apply IH]. apply sok_write_contrib2. lia.
Qed.
Lemma sok_read_slice1 h : sok st P any (read_slice1 (E := E) h).
Proof. unfold read_slice1. apply sok_seq; [apply sok_readfull|]. intros b. apply sok_decodes1. Qed.
Lemma sok_read_slice2 h : sok st P any (read_slice2 (E := E) h).
Proof. unfold read_slice2. apply sok_seq; [apply sok_readfull|]. intros b. apply sok_decodes2. Qed.
Lemma sok_write_slice l : Forall (fun b => (length b <= 256)%nat) l -> sok st P any (write_slice o l).
Proof.
  intros F. unfold write_slice. apply sok_seq; [apply sok_write, HP; cbn [length be32]; lia|]. intros _. now apply sok_encodes.
Qed.
Lemma sok_write_slice1 (l : list E) : sok st P any (write_slice1 o l).
Proof. apply sok_write_slice, enc1_small. Qed.
Lemma sok_write_slice2 (l : list E) : sok st P any (write_slice2 o l).
Proof. apply sok_write_slice, enc2_small. Qed.
Lemma sok_write_raw1 (l : list E) : sok st P any (write_raw1 o l).
Proof. apply sok_write_slice, raw1_small. Qed.
Lemma sok_write_raw2 (l : list E) : sok st P any (write_raw2 o l).
Proof. apply sok_write_slice, raw2_small. Qed.
Lemma sok_read_n n : sok st P any (read_n (E := E) n).
Proof. unfold read_n. destruct (n <? 0)%Z; [exact I|apply sok_decodes1]. Qed.
End E2.
End Rules.
