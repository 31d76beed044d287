(* Ext.v -- what the tool takes from gnark-crypto and the Go standard library, as a record of
   functions with the laws the proofs use.  Nothing here is an axiom: every theorem quantifies over
   all such records, and Toy.v builds one. *)
From Verif Require Import Base Fld IO.
Local Open Scope io_scope.

(* first byte flags of gnark-crypto's bn254 marshal.go: top two bits 00 = uncompressed *)
Definition compressed (b : bytes) : bool :=
  match b with [] => false | x :: _ => negb ((bN x / 64 =? 0)%N) end.

Record Ext := mkExt {
  Kf :> Fld;                                   (* fr.Element; also discrete logs of points *)
  (* G1Affine/G2Affine.Bytes (compressed) and RawBytes/Marshal (uncompressed) *)
  g1c : Kf -> bytes;  g1r : Kf -> bytes;  g2c : Kf -> bytes;  g2r : Kf -> bytes;
  (* setBytes on 32/64 (G1) and 64/128 (G2) bytes, with subgroup check; None = error *)
  g1dc : bytes -> option Kf;  g1dr : bytes -> option Kf;
  g2dc : bytes -> option Kf;  g2dr : bytes -> option Kf;
  g1c_len : forall x, length (g1c x) = 32;  g1r_len : forall x, length (g1r x) = 64;
  g2c_len : forall x, length (g2c x) = 64;  g2r_len : forall x, length (g2r x) = 128;
  g1c_flag : forall x, compressed (g1c x) = true;   g1r_flag : forall x, compressed (g1r x) = false;
  g2c_flag : forall x, compressed (g2c x) = true;   g2r_flag : forall x, compressed (g2r x) = false;
  g1c_dec : forall x, g1dc (g1c x) = Some x;  g1r_dec : forall x, g1dr (g1r x) = Some x;
  g2c_dec : forall x, g2dc (g2c x) = Some x;  g2r_dec : forall x, g2dr (g2r x) = Some x;
  (* what a receiver holds after a failed setBytes (coordinates may have been overwritten).  A
     simplification: such a "point" need not be on the curve, the model gives it some logarithm. *)
  g1bad : bytes -> Kf -> Kf;  g2bad : bytes -> Kf -> Kf;
  sha : bytes -> bytes;                        (* crypto/sha256 *)
  sha_len : forall x, length (sha x) = 32;
  h2g2 : bytes -> bytes -> Kf;                 (* bn254.HashToG2(msg, dst) *)
  ncpu : nat;  ncpu_pos : 1 <= ncpu;           (* runtime.NumCPU() *)
  (* MultiExp(points, scalars): None = error, receiver untouched *)
  mexp : list Kf -> list Kf -> option Kf;
  mexp_eq : forall ps rs, length ps = length rs -> mexp ps rs = Some (dot ps rs)
}.
Arguments g1c {e}. Arguments g1r {e}. Arguments g2c {e}. Arguments g2r {e}.
Arguments g1dc {e}. Arguments g1dr {e}. Arguments g2dc {e}. Arguments g2dr {e}.
Arguments g1bad {e}. Arguments g2bad {e}.

(* gnark-crypto's MultiExp: "len(points) != len(scalars)" is an error *)
Definition mexp_strict (E : Ext) : Prop :=
  forall ps rs : list E, length ps <> length rs -> mexp E ps rs = None.
(* the reading a caller might expect: combine the common prefix *)
Definition mexp_lenient (E : Ext) : Prop :=
  forall ps rs : list E, mexp E ps rs = Some (dot ps rs).

(* b is a concatenation of encodings, in the sense of P, of the items l *)
Inductive parses {X} (P : bytes -> X -> Prop) : bytes -> list X -> Prop :=
| parses_nil : parses P [] []
| parses_cons b x t l : P b x -> parses P t l -> parses P (b ++ t) (x :: l).

Lemma parses_app_inv {X} (P : bytes -> X -> Prop) l1 : forall l2 b, parses P b (l1 ++ l2) ->
  exists b1 b2, b = b1 ++ b2 /\ parses P b1 l1 /\ parses P b2 l2.
Proof.
  induction l1 as [|x l1 IH]; intros l2 b H.
  - exists [], b. split; [auto|]. split; [constructor|auto].
  - inversion H as [|b1 x' t l' I A]; subst. destruct (IH _ _ A) as [c1 [c2 [-> [C1 C2]]]].
    exists (b1 ++ c1), c2. rewrite <- app_assoc. split; [auto|]. split; [now constructor|auto].
Qed.
Lemma parses_app {X} (P : bytes -> X -> Prop) b1 l1 b2 l2 :
  parses P b1 l1 -> parses P b2 l2 -> parses P (b1 ++ b2) (l1 ++ l2).
Proof. intros H1 H2. induction H1; [auto|]. rewrite <- app_assoc. cbn. now constructor. Qed.
Lemma parses_nil_l {X} (P : bytes -> X -> Prop) l : parses P [] l -> (forall x, ~ P [] x) -> l = [].
Proof.
  intros A N. inversion A as [|b x t l' H1 H2 H3]; auto. apply app_eq_nil in H3 as [-> ->]. destruct (N x H1).
Qed.
Lemma parses_flat {X} (P : bytes -> X -> Prop) (f : X -> bytes) l :
  (forall x, In x l -> P (f x) x) -> parses P (flat_map f l) l.
Proof. induction l as [|x l IH]; intros H; cbn; constructor; [apply H; cbn; auto|]. apply IH. intros; apply H; cbn; auto. Qed.
Lemma parses_mod {X} (P : bytes -> X -> Prop) k b l : k <> 0 -> (forall c x, P c x -> length c mod k = 0) ->
  parses P b l -> length b mod k = 0.
Proof.
  intros K H A. induction A; [now rewrite Nat.mod_0_l|]. rewrite app_length, Nat.add_mod, IHA, (H b x) by auto.
  now rewrite Nat.mod_0_l.
Qed.

Section Codec.
Context {E : Ext}.

(* gnark-crypto bn254 marshal.go, Decoder.Decode for *G1Affine: read the compressed size; if the
   flag says uncompressed read as many bytes again; then setBytes *)
Definition decode1 (h : bool) : io E :=
  b <- readfull h 32 ;;
  if compressed b then match g1dc b with Some x => Ret x | None => Throw EDecode end
  else b2 <- readfull h 32 ;;
       match g1dr (b ++ b2) with Some x => Ret x | None => Throw EDecode end.
Definition decode2 (h : bool) : io E :=
  b <- readfull h 64 ;;
  if compressed b then match g2dc b with Some x => Ret x | None => Throw EDecode end
  else b2 <- readfull h 64 ;;
       match g2dr (b ++ b2) with Some x => Ret x | None => Throw EDecode end.

(* the same, as seen by a caller that goes on after an error: the value left in the receiver *)
Definition decode1_into (h : bool) (old : E) : io (E * bool) :=
  o <- try (readfull h 32) ;;
  match o with
  | None => Ret (old, false)
  | Some b =>
    if compressed b then
      match g1dc b with Some x => Ret (x, true) | None => Ret (g1bad b old, false) end
    else
      o2 <- try (readfull h 32) ;;
      match o2 with
      | None => Ret (old, false)
      | Some b2 => match g1dr (b ++ b2) with Some x => Ret (x, true) | None => Ret (g1bad (b ++ b2) old, false) end
      end
  end.
Definition decode2_into (h : bool) (old : E) : io (E * bool) :=
  o <- try (readfull h 64) ;;
  match o with
  | None => Ret (old, false)
  | Some b =>
    if compressed b then
      match g2dc b with Some x => Ret (x, true) | None => Ret (g2bad b old, false) end
    else
      o2 <- try (readfull h 64) ;;
      match o2 with
      | None => Ret (old, false)
      | Some b2 => match g2dr (b ++ b2) with Some x => Ret (x, true) | None => Ret (g2bad (b ++ b2) old, false) end
      end
  end.

(* for i := 0; i < n; i++ { if err := dec.Decode(&buff[i]); err != nil { return err } } *)
Fixpoint decodes1 (h : bool) (n : nat) : io (list E) :=
  match n with
  | 0 => Ret []
  | S n' => x <- decode1 h ;; l <- decodes1 h n' ;; Ret (x :: l)
  end.
Fixpoint decodes2 (h : bool) (n : nat) : io (list E) :=
  match n with
  | 0 => Ret []
  | S n' => x <- decode2 h ;; l <- decodes2 h n' ;; Ret (x :: l)
  end.

(* for i := range l { if err := enc.Encode(&l[i]); err != nil { return err } } *)
Fixpoint encodes (o : nat) (l : list bytes) : io unit :=
  match l with
  | [] => Ret tt
  | b :: l' => write o b ;;; encodes o l'
  end.

(* ---- specification of what the decoder accepts ---- *)
(* b is an accepted encoding (compressed or raw) of the G1 point x *)
Definition is1 (b : bytes) (x : E) : Prop :=
  (length b = 32 /\ compressed b = true /\ g1dc b = Some x) \/
  (length b = 64 /\ compressed b = false /\ g1dr b = Some x).
Definition is2 (b : bytes) (x : E) : Prop :=
  (length b = 64 /\ compressed b = true /\ g2dc b = Some x) \/
  (length b = 128 /\ compressed b = false /\ g2dr b = Some x).
(* b is a concatenation of accepted encodings of the points l *)
Definition are1 : bytes -> list E -> Prop := parses is1.
Definition are2 : bytes -> list E -> Prop := parses is2.

Definition enc1 (l : list E) : bytes := flat_map g1c l.
Definition enc2 (l : list E) : bytes := flat_map g2c l.
Definition raw1 (l : list E) : bytes := flat_map g1r l.
Definition raw2 (l : list E) : bytes := flat_map g2r l.

Lemma is1_c x : is1 (g1c x) x.
Proof. left. rewrite g1c_len, g1c_flag, g1c_dec. auto. Qed.
Lemma is1_r x : is1 (g1r x) x.
Proof. right. rewrite g1r_len, g1r_flag, g1r_dec. auto. Qed.
Lemma is2_c x : is2 (g2c x) x.
Proof. left. rewrite g2c_len, g2c_flag, g2c_dec. auto. Qed.
Lemma is2_r x : is2 (g2r x) x.
Proof. right. rewrite g2r_len, g2r_flag, g2r_dec. auto. Qed.
Lemma are1_enc l : are1 (enc1 l) l.
Proof. apply parses_flat. intros; apply is1_c. Qed.
Lemma are2_enc l : are2 (enc2 l) l.
Proof. apply parses_flat. intros; apply is2_c. Qed.
Lemma are1_raw l : are1 (raw1 l) l.
Proof. apply parses_flat. intros; apply is1_r. Qed.
Lemma are2_raw l : are2 (raw2 l) l.
Proof. apply parses_flat. intros; apply is2_r. Qed.
Lemma enc1_length l : length (enc1 l) = 32 * length l.
Proof. unfold enc1. rewrite flat_map_length_const with (k := 32) by (intros; apply g1c_len). lia. Qed.
Lemma enc2_length l : length (enc2 l) = 64 * length l.
Proof. unfold enc2. rewrite flat_map_length_const with (k := 64) by (intros; apply g2c_len). lia. Qed.
Lemma raw1_length l : length (raw1 l) = 64 * length l.
Proof. unfold raw1. rewrite flat_map_length_const with (k := 64) by (intros; apply g1r_len). lia. Qed.
Lemma raw2_length l : length (raw2 l) = 128 * length l.
Proof. unfold raw2. rewrite flat_map_length_const with (k := 128) by (intros; apply g2r_len). lia. Qed.
Lemma enc1_app l1 l2 : enc1 (l1 ++ l2) = enc1 l1 ++ enc1 l2.
Proof. apply flat_map_app. Qed.
Lemma enc2_app l1 l2 : enc2 (l1 ++ l2) = enc2 l1 ++ enc2 l2.
Proof. apply flat_map_app. Qed.

Lemma g1c_inj (x y : E) : g1c x = g1c y -> x = y.
Proof. intros H. pose proof (g1c_dec E x) as A. rewrite H, g1c_dec in A. congruence. Qed.
Lemma g2c_inj (x y : E) : g2c x = g2c y -> x = y.
Proof. intros H. pose proof (g2c_dec E x) as A. rewrite H, g2c_dec in A. congruence. Qed.
Lemma g1r_inj (x y : E) : g1r x = g1r y -> x = y.
Proof. intros H. pose proof (g1r_dec E x) as A. rewrite H, g1r_dec in A. congruence. Qed.
Lemma g2r_inj (x y : E) : g2r x = g2r y -> x = y.
Proof. intros H. pose proof (g2r_dec E x) as A. rewrite H, g2r_dec in A. congruence. Qed.

(* buffers are larger than any single encoded point *)
Definition bigcap (cap : nat) : Prop := cap = 0 \/ 64 < cap.
Lemma bigcap_le cap k : bigcap cap -> k <= 64 -> cap = 0 \/ k < cap.
Proof. unfold bigcap. lia. Qed.
Ltac bc := apply bigcap_le; [assumption|lia].

Lemma compressed_app b t : b <> [] -> compressed (b ++ t) = compressed b.
Proof. destruct b; [congruence|auto]. Qed.

Lemma ev_decode1 h file cap p b x t s : bigcap cap -> is1 b x ->
  getr h s = at_ file cap p (b ++ t) ->
  ev (decode1 h) s (Ok x) (setr h (at_ file cap (p + length b) t) s) none.
Proof.
  intros Hc Hb G. unfold decode1. destruct Hb as [[L [C D]]|[L [C D]]].
  - eapply ev_ext; [eapply ev_bind|].
    + eapply readfull_ok; [exact L| |exact G]; bc.
    + cbv beta. rewrite C, D. rewrite <- L. apply ev_ret.
    + auto.
  - rewrite <- (firstn_skipn 32 b) in G. rewrite <- app_assoc in G.
    assert (L1 : length (firstn 32 b) = 32) by (rewrite firstn_length; lia).
    assert (L2 : length (skipn 32 b) = 32) by (rewrite skipn_length; lia).
    assert (C1 : compressed (firstn 32 b) = false).
    { rewrite <- C. rewrite <- (firstn_skipn 32 b) at 2. rewrite compressed_app; auto.
      intros X. rewrite X in L1. discriminate. }
    eapply ev_ext; [eapply ev_bind|].
    + eapply readfull_ok; [exact L1| |exact G]; bc.
    + cbv beta. rewrite C1. eapply ev_bind.
      * eapply readfull_ok; [exact L2| |apply getr_setr]; bc.
      * cbv beta. rewrite firstn_skipn, D, setr_setr.
        replace (p + 32 + 32) with (p + length b) by lia. apply ev_ret.
    + auto.
Qed.
Lemma ev_decode2 h file cap p b x t s : bigcap cap -> is2 b x ->
  getr h s = at_ file cap p (b ++ t) ->
  ev (decode2 h) s (Ok x) (setr h (at_ file cap (p + length b) t) s) none.
Proof.
  intros Hc Hb G. unfold decode2. destruct Hb as [[L [C D]]|[L [C D]]].
  - eapply ev_ext; [eapply ev_bind|].
    + eapply readfull_ok; [exact L| |exact G]; bc.
    + cbv beta. rewrite C, D. rewrite <- L. apply ev_ret.
    + auto.
  - rewrite <- (firstn_skipn 64 b) in G. rewrite <- app_assoc in G.
    assert (L1 : length (firstn 64 b) = 64) by (rewrite firstn_length; lia).
    assert (L2 : length (skipn 64 b) = 64) by (rewrite skipn_length; lia).
    assert (C1 : compressed (firstn 64 b) = false).
    { rewrite <- C. rewrite <- (firstn_skipn 64 b) at 2. rewrite compressed_app; auto.
      intros X. rewrite X in L1. discriminate. }
    eapply ev_ext; [eapply ev_bind|].
    + eapply readfull_ok; [exact L1| |exact G]; bc.
    + cbv beta. rewrite C1. eapply ev_bind.
      * eapply readfull_ok; [exact L2| |apply getr_setr]; bc.
      * cbv beta. rewrite firstn_skipn, D, setr_setr.
        replace (p + 64 + 64) with (p + length b) by lia. apply ev_ret.
    + auto.
Qed.

Lemma ev_decodes1 h file cap : bigcap cap -> forall l b p t s, are1 b l ->
  getr h s = at_ file cap p (b ++ t) ->
  ev (decodes1 h (length l)) s (Ok l) (setr h (at_ file cap (p + length b) t) s) none.
Proof.
  intros Hc l. induction l as [|x l IH]; intros b p t s A G.
  - inversion A; subst. cbn [length decodes1]. cbn [app] in G. rewrite Nat.add_0_r, <- G, setr_getr. apply ev_ret.
  - inversion A as [|b1 x' t1 l' I1 A1]; subst. cbn [length decodes1]. rewrite <- app_assoc in G.
    eapply ev_ext; [eapply ev_bind; [eapply ev_decode1; eauto|]|].
    + eapply ev_bind; [eapply IH; [eauto|apply getr_setr]|]. rewrite setr_setr.
      rewrite <- Nat.add_assoc, <- app_length. apply ev_ret.
    + auto.
Qed.
Lemma ev_decodes2 h file cap : bigcap cap -> forall l b p t s, are2 b l ->
  getr h s = at_ file cap p (b ++ t) ->
  ev (decodes2 h (length l)) s (Ok l) (setr h (at_ file cap (p + length b) t) s) none.
Proof.
  intros Hc l. induction l as [|x l IH]; intros b p t s A G.
  - inversion A; subst. cbn [length decodes2]. cbn [app] in G. rewrite Nat.add_0_r, <- G, setr_getr. apply ev_ret.
  - inversion A as [|b1 x' t1 l' I1 A1]; subst. cbn [length decodes2]. rewrite <- app_assoc in G.
    eapply ev_ext; [eapply ev_bind; [eapply ev_decode2; eauto|]|].
    + eapply ev_bind; [eapply IH; [eauto|apply getr_setr]|]. rewrite setr_setr.
      rewrite <- Nat.add_assoc, <- app_length. apply ev_ret.
    + auto.
Qed.

Lemma ev_encodes o l s : ev (encodes o l) s (Ok tt) s (on o (concat l)).
Proof.
  induction l as [|b l IH]; cbn [encodes concat].
  - eapply ev_ext; [apply ev_ret|]. intros x. unfold none, on. now destruct (o =? x).
  - eapply ev_ext; [eapply ev_bind; [apply ev_write|apply IH]|]. intros x. apply on_cat.
Qed.

(* the decoders on arbitrary input: success exactly on accepted encodings *)
Lemma decode1_cases h file cap p rest s : bigcap cap -> getr h s = at_ file cap p rest ->
  (exists b x t, rest = b ++ t /\ is1 b x /\
     ev (decode1 h) s (Ok x) (setr h (at_ file cap (p + length b) t) s) none) \/
  (exists e p' t, ev (decode1 h) s (Err e) (setr h (at_ file cap p' t) s) none /\
     (forall b x t, rest = b ++ t -> ~ is1 b x)).
Proof.
  intros Hc G. unfold decode1.
  destruct (Nat.le_gt_cases 32 (length rest)) as [L|L].
  2: { right. exists EEof, (p + length rest), []. split.
       - apply ev_bind_err. eapply readfull_eof; [exact L|bc|exact G].
       - intros b x t -> [[Lb _]|[Lb _]]; rewrite app_length in L; lia. }
  assert (R : rest = firstn 32 rest ++ skipn 32 rest) by now rewrite firstn_skipn.
  assert (L1 : length (firstn 32 rest) = 32) by (rewrite firstn_length; lia).
  set (b1 := firstn 32 rest) in *. set (t1 := skipn 32 rest) in *. rewrite R in G.
  assert (PRE : forall b t, rest = b ++ t -> 32 <= length b -> firstn 32 b = b1).
  { intros b t -> Hb. unfold b1. rewrite firstn_app. replace (32 - length b) with 0 by lia. cbn. now rewrite app_nil_r. }
  assert (CP : forall b t, rest = b ++ t -> 32 <= length b -> compressed b = compressed b1).
  { intros b t Er Hb. rewrite <- (firstn_skipn 32 b), (PRE b t Er Hb). apply compressed_app.
    intros X. rewrite X in L1. discriminate. }
  pose proof (readfull_ok h file cap p b1 t1 s 32 L1 ltac:(bc) G) as RF.
  destruct (compressed b1) eqn:C.
  - destruct (@g1dc E b1) as [x|] eqn:D.
    + left. exists b1, x, t1. split; [auto|]. split; [left; auto|].
      eapply ev_ext; [eapply ev_bind; [exact RF|]|]; [cbv beta; rewrite C, D, L1; apply ev_ret|auto].
    + right. exists EDecode, (p + 32), t1. split.
      * eapply ev_ext; [eapply ev_bind; [exact RF|]|]; [cbv beta; rewrite C, D; apply ev_throw|auto].
      * intros b x t Er [[Lb [Cb Db]]|[Lb [Cb Db]]].
        -- assert (b = b1) by (rewrite <- (PRE b t Er ltac:(lia)); symmetry; apply firstn_all2; lia). congruence.
        -- rewrite (CP b t Er) in Cb by lia. congruence.
  - destruct (Nat.le_gt_cases 32 (length t1)) as [L2|L2].
    + assert (R2 : t1 = firstn 32 t1 ++ skipn 32 t1) by now rewrite firstn_skipn.
      assert (L3 : length (firstn 32 t1) = 32) by (rewrite firstn_length; lia).
      set (b2 := firstn 32 t1) in *. set (t2 := skipn 32 t1) in *.
      pose proof (readfull_ok h file cap (p + 32) b2 t2 (setr h (at_ file cap (p + 32) t1) s) 32 L3
         ltac:(bc) ltac:(rewrite getr_setr; congruence)) as RF2.
      rewrite setr_setr in RF2.
      destruct (@g1dr E (b1 ++ b2)) as [x|] eqn:D.
      * left. exists (b1 ++ b2), x, t2. split; [rewrite <- app_assoc; congruence|].
        assert (LL : length (b1 ++ b2) = 64) by (rewrite app_length; lia). split.
        -- right. split; [auto|]. split; [|auto]. rewrite compressed_app; auto. intros X. rewrite X in L1. discriminate.
        -- eapply ev_ext; [eapply ev_bind; [exact RF|]|].
           ++ cbv beta. rewrite C. eapply ev_bind; [exact RF2|]. cbv beta. rewrite D, LL.
              replace (p + 32 + 32) with (p + 64) by lia. apply ev_ret.
           ++ auto.
      * right. exists EDecode, (p + 32 + 32), t2. split.
        -- eapply ev_ext; [eapply ev_bind; [exact RF|]|].
           ++ cbv beta. rewrite C. eapply ev_bind; [exact RF2|]. cbv beta. rewrite D. apply ev_throw.
           ++ auto.
        -- intros b x t Er [[Lb [Cb Db]]|[Lb [Cb Db]]]; [rewrite (CP b t Er) in Cb by lia; congruence|].
           assert (b = b1 ++ b2); [|congruence].
           assert (F64 : b = firstn 64 rest) by (rewrite Er, <- Lb, firstn_app_exact; auto).
           rewrite F64. rewrite <- (firstn_split 32 64) by lia. auto.
    + right. exists EEof, (p + 32 + length t1), []. split.
      * eapply ev_ext; [eapply ev_bind; [exact RF|]|].
        -- cbv beta. rewrite C. apply ev_bind_err.
           pose proof (readfull_eof h file cap (p + 32) t1 (setr h (at_ file cap (p + 32) t1) s) 32 L2
             ltac:(bc) ltac:(apply getr_setr)) as X. rewrite setr_setr in X. exact X.
        -- auto.
      * intros b x t Er [[Lb [Cb Db]]|[Lb [Cb Db]]]; [rewrite (CP b t Er) in Cb by lia; congruence|].
        assert (length rest = 64 + length t) by (rewrite Er, app_length; lia).
        unfold t1 in L2. rewrite skipn_length in L2. lia.
Qed.
Lemma decode2_cases h file cap p rest s : bigcap cap -> getr h s = at_ file cap p rest ->
  (exists b x t, rest = b ++ t /\ is2 b x /\
     ev (decode2 h) s (Ok x) (setr h (at_ file cap (p + length b) t) s) none) \/
  (exists e p' t, ev (decode2 h) s (Err e) (setr h (at_ file cap p' t) s) none /\
     (forall b x t, rest = b ++ t -> ~ is2 b x)).
Proof.
  intros Hc G. unfold decode2.
  destruct (Nat.le_gt_cases 64 (length rest)) as [L|L].
  2: { right. exists EEof, (p + length rest), []. split.
       - apply ev_bind_err. eapply readfull_eof; [exact L|bc|exact G].
       - intros b x t -> [[Lb _]|[Lb _]]; rewrite app_length in L; lia. }
  assert (R : rest = firstn 64 rest ++ skipn 64 rest) by now rewrite firstn_skipn.
  assert (L1 : length (firstn 64 rest) = 64) by (rewrite firstn_length; lia).
  set (b1 := firstn 64 rest) in *. set (t1 := skipn 64 rest) in *. rewrite R in G.
  assert (PRE : forall b t, rest = b ++ t -> 64 <= length b -> firstn 64 b = b1).
  { intros b t -> Hb. unfold b1. rewrite firstn_app. replace (64 - length b) with 0 by lia. cbn. now rewrite app_nil_r. }
  assert (CP : forall b t, rest = b ++ t -> 64 <= length b -> compressed b = compressed b1).
  { intros b t Er Hb. rewrite <- (firstn_skipn 64 b), (PRE b t Er Hb). apply compressed_app.
    intros X. rewrite X in L1. discriminate. }
  pose proof (readfull_ok h file cap p b1 t1 s 64 L1 ltac:(bc) G) as RF.
  destruct (compressed b1) eqn:C.
  - destruct (@g2dc E b1) as [x|] eqn:D.
    + left. exists b1, x, t1. split; [auto|]. split; [left; auto|].
      eapply ev_ext; [eapply ev_bind; [exact RF|]|]; [cbv beta; rewrite C, D, L1; apply ev_ret|auto].
    + right. exists EDecode, (p + 64), t1. split.
      * eapply ev_ext; [eapply ev_bind; [exact RF|]|]; [cbv beta; rewrite C, D; apply ev_throw|auto].
      * intros b x t Er [[Lb [Cb Db]]|[Lb [Cb Db]]].
        -- assert (b = b1) by (rewrite <- (PRE b t Er ltac:(lia)); symmetry; apply firstn_all2; lia). congruence.
        -- rewrite (CP b t Er) in Cb by lia. congruence.
  - destruct (Nat.le_gt_cases 64 (length t1)) as [L2|L2].
    + assert (R2 : t1 = firstn 64 t1 ++ skipn 64 t1) by now rewrite firstn_skipn.
      assert (L3 : length (firstn 64 t1) = 64) by (rewrite firstn_length; lia).
      set (b2 := firstn 64 t1) in *. set (t2 := skipn 64 t1) in *.
      pose proof (readfull_ok h file cap (p + 64) b2 t2 (setr h (at_ file cap (p + 64) t1) s) 64 L3
         ltac:(bc) ltac:(rewrite getr_setr; congruence)) as RF2.
      rewrite setr_setr in RF2.
      destruct (@g2dr E (b1 ++ b2)) as [x|] eqn:D.
      * left. exists (b1 ++ b2), x, t2. split; [rewrite <- app_assoc; congruence|].
        assert (LL : length (b1 ++ b2) = 128) by (rewrite app_length; lia). split.
        -- right. split; [auto|]. split; [|auto]. rewrite compressed_app; auto. intros X. rewrite X in L1. discriminate.
        -- eapply ev_ext; [eapply ev_bind; [exact RF|]|].
           ++ cbv beta. rewrite C. eapply ev_bind; [exact RF2|]. cbv beta. rewrite D, LL.
              replace (p + 64 + 64) with (p + 128) by lia. apply ev_ret.
           ++ auto.
      * right. exists EDecode, (p + 64 + 64), t2. split.
        -- eapply ev_ext; [eapply ev_bind; [exact RF|]|].
           ++ cbv beta. rewrite C. eapply ev_bind; [exact RF2|]. cbv beta. rewrite D. apply ev_throw.
           ++ auto.
        -- intros b x t Er [[Lb [Cb Db]]|[Lb [Cb Db]]]; [rewrite (CP b t Er) in Cb by lia; congruence|].
           assert (b = b1 ++ b2); [|congruence].
           assert (F128 : b = firstn 128 rest) by (rewrite Er, <- Lb, firstn_app_exact; auto).
           rewrite F128. rewrite <- (firstn_split 64 128) by lia. auto.
    + right. exists EEof, (p + 64 + length t1), []. split.
      * eapply ev_ext; [eapply ev_bind; [exact RF|]|].
        -- cbv beta. rewrite C. apply ev_bind_err.
           pose proof (readfull_eof h file cap (p + 64) t1 (setr h (at_ file cap (p + 64) t1) s) 64 L2
             ltac:(bc) ltac:(apply getr_setr)) as X. rewrite setr_setr in X. exact X.
        -- auto.
      * intros b x t Er [[Lb [Cb Db]]|[Lb [Cb Db]]]; [rewrite (CP b t Er) in Cb by lia; congruence|].
        assert (length rest = 128 + length t) by (rewrite Er, app_length; lia).
        unfold t1 in L2. rewrite skipn_length in L2. lia.
Qed.
End Codec.
