(* Short.v -- a disk that lacks one byte: the last bytes of a command go through writers whose last flush is not checked. *)
From Coq Require Import String.
From Verif Require Import Base Fld Conc Parallel IO Ext Spec1 Phase1 Gob Circuit Spec2 Phase2 Fs Init2 Spec3 Spec4 Keys KeysClaims Live LiveLemmas Sok LiveFail SokPrograms LiveCmd LiveClaims LiveMore LiveTwin
  Spec5 LiveGrow Spec6 Cli CliClaims Spec10 Locality Quota Spec15.
Local Open Scope lcmd_scope.

(* ---- what was handed over is what the files hold ---- *)
Lemma replay_at l : forall f g p, f p = g p -> replay l f p = replay l g p.
Proof.
  induction l as [|o l IH]; intros f g p H; [exact H|]. change (replay (o :: l)) with (fun f => replay l (op_do f o)). cbv beta. apply IH.
  destruct o as [q|q d]; cbn [op_do]; unfold fset; destruct (String.eqb_spec q p) as [->|]; auto. unfold contents. now rewrite H.
Qed.
Lemma replay_trunc l : forall f g p, In (OTrunc p) l -> replay l f p = replay l g p.
Proof.
  induction l as [|o l IH]; intros f g p I; [destruct I|]. change (replay (o :: l)) with (fun f => replay l (op_do f o)). cbv beta.
  destruct I as [->|I]; [|now apply IH]. apply replay_at. cbn [op_do]. now rewrite !fset_same.
Qed.
Lemma sizes_ext ps f g : (forall p, In p ps -> f p = g p) -> bytes_in ps f = bytes_in ps g.
Proof. intros H. unfold bytes_in. f_equal. apply map_ext_in. intros p I. unfold contents. now rewrite H. Qed.
Lemma sizes_set ps f p d : NoDup ps -> In p ps -> bytes_in ps (fset f p d) + length (contents f p) = bytes_in ps f + length d.
Proof.
  intros N. induction N as [|q ps K N IH]; intros I; [destruct I|].
  assert (U : forall g, bytes_in (q :: ps) g = length (contents g q) + bytes_in ps g) by reflexivity. rewrite !U. destruct I as [->|I].
  - rewrite contents_same. rewrite (sizes_ext ps (fset f p d) f); [lia|]. intros r R. apply fset_other. intros ->. contradiction.
  - rewrite contents_other by (intros ->; contradiction). specialize (IH I). lia.
Qed.
Lemma grows_front l l' : grows (l ++ l') -> grows l.
Proof. intros G l1 q l2 ->. apply (G l1 q (l2 ++ l')). now rewrite <- app_assoc. Qed.
Lemma sizes_replay ps f : NoDup ps -> (forall p, In p ps -> contents f p = []) -> forall l, Forall (touches ps) l -> grows l -> bytes_in ps (replay l f) = ops_bytes l.
Proof.
  intros N Z. assert (Z0 : bytes_in ps f = 0).
  { clear N. induction ps as [|p ps IH]; [reflexivity|]. change (bytes_in (p :: ps) f) with (length (contents f p) + bytes_in ps f). rewrite Z by now left.
    apply IH. intros q Q. apply Z. now right. }
  induction l as [|o l IH] using rev_ind; intros T G; [exact Z0|]. apply Forall_app in T as [T1 T2]. apply Forall_cons_iff in T2 as [T2 _].
  specialize (IH T1 (grows_front _ _ G)). rewrite replay_app, ops_bytes_app. cbn [ops_bytes]. rewrite <- IH. destruct o as [p|p d]; cbn [touches op_bytes] in *.
  - change (replay [OTrunc p] (replay l f)) with (fset (replay l f) p []). pose proof (sizes_set ps (replay l f) p [] N T2) as S.
    assert (H : contents (replay l f) p = []); [|rewrite H in S; cbn [length] in S; lia].
    unfold contents. rewrite replay_away by exact (G l p [] eq_refl). now apply Z.
  - change (replay [OApp p d] (replay l f)) with (fset (replay l f) p (contents (replay l f) p ++ d)).
    pose proof (sizes_set ps (replay l f) p (contents (replay l f) p ++ d) N T2) as S. rewrite app_length in S. lia.
Qed.
(* the bytes a command has used are the bytes_in of its outputs *)
Lemma used_sizes {X} C (c c' : lcmd X) ps l f : NoDup ps -> quo C c c' -> lta ps ps c -> local no_limit (fun _ => True) [] l c -> (forall p, In p ps -> In p l) ->
  forall x, fst (c (start f)) = Ok x -> w_used (snd (c (start f))) = bytes_in ps (w_fs (snd (c (start f)))).
Proof.
  intros N Q L M I x R. destruct (Q (start f)) as [_ [U _]]. cbn [start w_used w_ops ops_bytes] in U.
  destruct (L (start f)) as [ops [A [B [T [_ G]]]]]. cbn [start w_ops w_fs app] in A, B.
  destruct (M (start f) (start f)) as [_ [_ P]].
  { split; [reflexivity|]. split; [reflexivity|]. split; [reflexivity|]. split; [reflexivity|]. split; [intros p d []|]. intros k p K. now destruct k. }
  { intros q []. }
  rewrite R in P. assert (P' : forall p, In p ps -> In (OTrunc p) ops).
  { intros p K. specialize (P p (I p K)). unfold cut in P. now rewrite A in P. }
  set (f0 := fun q => if in_dec String.string_dec q ps then None else f q).
  rewrite (sizes_ext ps _ (replay ops f0)) by (intros p K; rewrite B; now apply replay_trunc, P').
  rewrite sizes_replay; [rewrite A in U; lia|exact N| |exact T|exact G].
  intros p K. unfold contents, f0. now destruct (in_dec String.string_dec p ps).
Qed.

(* ---- the last flush ---- *)
(* what a flush would write *)
Definition pend (x : ohandle) : bytes := match o_cap x with 0 => [] | _ => o_buf x end.
Lemma short_incl ps qs f g : incl ps qs -> one_short ps f g -> one_short qs f g.
Proof. intros I [p [O [b [A H]]]]. exists p, O, b. split; [now apply I|exact H]. Qed.
Lemma flush_idle dev x w : o_bad x = false -> pend x = [] -> snd (h_flush dev x w) = w.
Proof. unfold pend, h_flush, bw_flush. intros -> P. destruct (o_cap x); [reflexivity|]. now rewrite P. Qed.
Lemma flush_used x p w : o_path x = Some p -> o_bad x = false -> w_used (snd (h_flush no_limit x w)) = w_used w + length (pend x).
Proof.
  intros P B. unfold pend, h_flush, bw_flush. rewrite B, P. destruct (o_cap x); [cbn [snd length]; lia|]. destruct (o_buf x) as [|b l]; [cbn [snd length]; lia|].
  unfold os_write, no_limit. cbn [takes snd w_used]. lia.
Qed.
Lemma flush_short C x p w : o_path x = Some p -> o_bad x = false -> pend x <> [] -> w_used w + length (pend x) = S C ->
  one_short [p] (w_fs (snd (h_flush no_limit x w))) (w_fs (snd (h_flush (disk C) x w))).
Proof.
  intros P B N U. destruct (exists_last N) as [d [b D]]. unfold pend, h_flush, bw_flush in *. rewrite B, P. destruct (o_cap x); [congruence|].
  rewrite D in U. rewrite app_length in U. cbn [length] in U.
  destruct (o_buf x) as [|a l] eqn:BUF; [congruence|]. rewrite D. unfold os_write, no_limit, disk. cbn [takes snd w_fs]. rewrite Nat.min_id, firstn_all.
  rewrite app_length. cbn [length]. replace (Nat.min _ _) with (length d) by lia. rewrite firstn_app, firstn_all, Nat.sub_diag. cbn [firstn]. rewrite app_nil_r.
  exists p, (contents (w_fs w) p ++ d), b. split; [now left|]. split; [rewrite fset_same; now rewrite app_assoc|]. split; [apply fset_same|].
  intros q Q. now rewrite !fset_other by congruence.
Qed.
Lemma flush_fits C x p w : o_path x = Some p -> o_bad x = false -> w_used w + length (pend x) <= C -> h_flush (disk C) x w = h_flush no_limit x w.
Proof. intros P B U. destruct (quo_flush C x w) as [_ [_ Q]]. apply Q. rewrite (flush_used x p w P B). lia. Qed.
Definition flush2 dev (x y : ohandle) (w : world) : world := snd (h_flush dev y (snd (h_flush dev x w))).
Lemma flush2_used x y p q w : o_path x = Some p -> o_path y = Some q -> o_bad x = false -> o_bad y = false ->
  w_used (flush2 no_limit x y w) = w_used w + length (pend x) + length (pend y).
Proof. intros P Q B B'. unfold flush2. rewrite (flush_used y q) by assumption. now rewrite (flush_used x p) by assumption. Qed.
Lemma flush2_short C x y p q w : o_path x = Some p -> o_path y = Some q -> o_bad x = false -> o_bad y = false -> pend x <> [] ->
  w_used w + length (pend x) + length (pend y) = S C -> one_short [p; q] (w_fs (flush2 no_limit x y w)) (w_fs (flush2 (disk C) x y w)).
Proof.
  intros P Q B B' N U. unfold flush2. destruct (pend y) as [|b l] eqn:Y.
  - rewrite !(flush_idle _ y) by assumption. eapply short_incl; [|apply flush_short; try eassumption; cbn [length] in U; lia]. intros r [<-|[]]. now left.
  - rewrite (flush_fits C x p) by (try assumption; cbn [length] in U; lia).
    eapply short_incl; [|apply flush_short; try eassumption; [rewrite Y; discriminate|]]; [intros r [<-|[]]; right; now left|].
    rewrite (flush_used x p) by assumption. rewrite Y. exact U.
Qed.

(* ---- programs that leave something in a writer ---- *)
Definition sound (hs : handles) : Prop := forall k, o_bad (h_out hs k) = false.
Lemma sound_seto o x hs : sound hs -> o_bad x = false -> sound (seto o x hs).
Proof. intros S B k. rewrite h_out_seto. destruct (o =? k); auto. Qed.
Lemma sound_seti h i hs : sound hs -> sound (seti h i hs).
Proof. intros S k. rewrite h_out_seti. apply S. Qed.
Lemma free_os p d w : fst (fst (os_write no_limit p d w)) = true.
Proof. destruct p; [|reflexivity]. cbn [os_write no_limit takes fst]. rewrite Nat.min_id. apply Nat.eqb_refl. Qed.
Lemma free_bflush x w : o_bad x = false -> exists w', bw_flush no_limit x w = (true, mkO (o_path x) (o_cap x) [] false, w').
Proof.
  intros B. unfold bw_flush. rewrite B. destruct (o_buf x) as [|b l] eqn:BUF; [exists w; destruct x; cbn in *; now subst|].
  pose proof (free_os (o_path x) (b :: l) w) as F. destruct (os_write no_limit (o_path x) (b :: l) w) as [[ok n] w1]. cbn [fst] in F. subst ok. eauto.
Qed.
(* what an unlimited write leaves *)
Lemma free_write d x w : o_bad x = false -> exists x' w', h_write no_limit d x w = (true, x', w') /\ o_bad x' = false /\ o_cap x' = o_cap x /\
  (d <> [] -> length d <= o_cap x -> o_buf x' <> []).
Proof.
  intros B. unfold h_write. destruct (o_cap x) as [|cap] eqn:CAP.
  { pose proof (free_os (o_path x) d w) as F. destruct (os_write no_limit (o_path x) d w) as [[ok n] w1]. cbn [fst] in F. subst ok. exists x, w1.
    split; [reflexivity|]. split; [exact B|]. split; [exact CAP|]. intros N L. destruct d; [congruence|cbn [length] in L; lia]. }
  assert (DI : forall d y w, exists w', bw_direct no_limit d y w = (true, mkO (o_path y) (o_cap y) [] false, w')).
  { intros d0 y w0. unfold bw_direct. pose proof (free_os (o_path y) d0 w0) as F. destruct (os_write no_limit (o_path y) d0 w0) as [[ok n] w1]. cbn [fst] in F. subst ok. cbn [negb]. eauto. }
  unfold bw_write. rewrite B, CAP. destruct (Nat.leb_spec (length d) (S cap - length (o_buf x))) as [L|L].
  { eexists _, _. split; [reflexivity|]. cbn [o_bad o_cap o_buf]. split; [reflexivity|]. split; [reflexivity|]. intros N _ Q. apply app_eq_nil in Q as [_ Q]. congruence. }
  destruct (o_buf x) as [|b l] eqn:BUF.
  { destruct (DI d x w) as [w' ->]. eexists _, _. split; [reflexivity|]. cbn [o_bad o_cap o_buf]. split; [reflexivity|]. split; [exact CAP|]. cbn [length] in L. intros _ L'. lia. }
  destruct (free_bflush (mkO (o_path x) (S cap) ((b :: l) ++ firstn (S cap - length (b :: l)) d) false) w eq_refl) as [w' ->]. cbn [o_path o_cap].
  destruct (Nat.leb_spec (length (skipn (S cap - length (b :: l)) d)) (S cap)) as [M|M].
  - eexists _, _. split; [reflexivity|]. cbn [o_bad o_cap o_buf]. split; [reflexivity|]. split; [reflexivity|]. intros _ _ Q.
    apply (f_equal (@length byte)) in Q. rewrite skipn_length in Q. cbn [length] in Q, L. lia.
  - destruct (DI (skipn (S cap - length (b :: l)) d) (mkO (o_path x) (S cap) [] false) w') as [w2 ->]. eexists _, _. split; [reflexivity|]. cbn [o_bad o_cap o_buf]. split; [reflexivity|].
    split; [reflexivity|]. intros _ L'. rewrite skipn_length in M. lia.
Qed.
Lemma sound_run {X} (p : io X) : forall hs w, sound hs -> sound (snd (fst (lrun no_limit p hs w))).
Proof.
  induction p as [a|e| |h k c IH|h z c IH|h n c IH|h n c IH|o n c IH|o c IH|o d c IH]; intros hs w S; cbn [lrun]; try exact S.
  - destruct (l_read k (w_fs w) (geti h hs)) as [x i]. now apply IH, sound_seti.
  - destruct (z <? 0)%Z; [now apply IH|now apply IH, sound_seti].
  - now apply IH, sound_seti.
  - now apply IH, sound_seti.
  - now apply IH, sound_seto.
  - unfold h_flush. destruct (o_cap (h_out hs o)); [apply IH, sound_seto; [exact S|apply S]|].
    destruct (free_bflush (h_out hs o) w (S o)) as [w' ->]. now apply IH, sound_seto.
  - destruct (free_write d (h_out hs o) w (S o)) as [x' [w' [-> [B _]]]]. now apply IH, sound_seto.
Qed.
(* the size of a writer does not change *)
Lemma bflush_cap dev x w : o_cap (snd (fst (bw_flush dev x w))) = o_cap x.
Proof. unfold bw_flush. destruct (o_bad x); [reflexivity|]. destruct (o_buf x); [reflexivity|]. now destruct (os_write dev _ _ w) as [[ok n] w1]. Qed.
Lemma direct_cap dev d x w : o_cap (snd (fst (bw_direct dev d x w))) = o_cap x.
Proof. unfold bw_direct. now destruct (os_write dev _ _ w) as [[ok n] w1]. Qed.
Lemma write_cap dev d x w : o_cap (snd (fst (h_write dev d x w))) = o_cap x.
Proof.
  unfold h_write. destruct (o_cap x) as [|cap] eqn:CAP; [now destruct (os_write dev _ _ w) as [[ok n] w1]|]. unfold bw_write. rewrite CAP. destruct (o_bad x); [exact CAP|].
  destruct (_ <=? _); [reflexivity|]. destruct (o_buf x) as [|b l]; [now rewrite direct_cap|].
  match goal with |- context [bw_flush dev ?y w] => pose proof (bflush_cap dev y w) as F; destruct (bw_flush dev y w) as [[ok x1] w1] end. cbn [fst snd o_cap] in F.
  destruct ok; [|exact F]. destruct (_ <=? _); [exact F|now rewrite direct_cap].
Qed.
Lemma sok_cap {X} dev st P (Q : X -> Prop) (p : io X) : sok st P Q p -> forall hs w k, o_cap (h_out (snd (fst (lrun dev p hs w))) k) = o_cap (h_out hs k).
Proof.
  induction p as [a|e| |h i c IH|h z c IH|h n c IH|h n c IH|o n c IH|o c IH|o d c IH]; intros A hs w k; cbn [lrun sok] in *; try reflexivity; try contradiction.
  - pose proof (l_read_len i (w_fs w) (geti h hs)) as L. destruct (l_read i (w_fs w) (geti h hs)) as [x r]. rewrite IH by (apply A; intros b ->; now apply L). now rewrite h_out_seti.
  - destruct (z <? 0)%Z; rewrite IH by apply A; [reflexivity|now rewrite h_out_seti].
  - rewrite IH by exact A. now rewrite h_out_seti.
  - rewrite IH by exact A. now rewrite h_out_seti.
  - destruct A as [_ [_ A]]. pose proof (write_cap dev d (h_out hs o) w) as F. destruct (h_write dev d (h_out hs o) w) as [[ok x] w1]. cbn [fst snd] in F.
    rewrite IH by apply A. rewrite h_out_seto. destruct (Nat.eqb_spec o k) as [->|]; auto.
Qed.
(* if it succeeds, writer o is left with something *)
Definition full {X} (o : nat) (q : io X) : Prop := forall hs w, sound hs ->
  match fst (fst (lrun no_limit q hs w)) with Ok _ => pend (h_out (snd (fst (lrun no_limit q hs w))) o) <> [] | _ => True end.
Lemma full_bind {X Y} o (p : io X) (k : X -> io Y) : (forall a, full o (k a)) -> full o (bind p k).
Proof.
  intros K hs w S. rewrite lrun_bind. pose proof (sound_run p hs w S) as S1. destruct (lrun no_limit p hs w) as [[[a|e|] hs1] w1]; [|exact I|exact I]. now apply K.
Qed.
Lemma full_newrd {X} o h n (p : io X) : full o p -> full o (NewRd h n p).
Proof. intros K hs w S. cbn [lrun]. now apply K, sound_seti. Qed.
Lemma full_newwr {X} o j n (p : io X) : full o p -> full o (NewWr j n p).
Proof. intros K hs w S. cbn [lrun]. now apply K, sound_seto. Qed.
Lemma full_orBoom {X Y} o (a : option X) (k : X -> io Y) : (forall x, full o (k x)) -> full o (orBoom a k).
Proof. intros K. destruct a as [x|]; [apply K|]. intros hs w S. exact I. Qed.
(* the same for writers of some size that exist already *)
Definition fullc {X} (o : nat) (q : io X) : Prop := forall hs w, sound hs -> o_cap (h_out hs o) = defBuf ->
  match fst (fst (lrun no_limit q hs w)) with Ok _ => pend (h_out (snd (fst (lrun no_limit q hs w))) o) <> [] | _ => True end.
Lemma full_make {X} o (p : io X) : fullc o p -> full o (NewWr o defBuf p).
Proof. intros K hs w S. cbn [lrun]. apply K; [now apply sound_seto|]. now rewrite h_out_seto, Nat.eqb_refl. Qed.
Lemma fullc_bind {X Y} o (p : io X) (k : X -> io Y) : sok false (fun _ _ => True) any p -> (forall a, fullc o (k a)) -> fullc o (bind p k).
Proof.
  intros A K hs w S C. rewrite lrun_bind. pose proof (sound_run p hs w S) as S1. pose proof (sok_cap no_limit _ _ _ p A hs w o) as C1.
  destruct (lrun no_limit p hs w) as [[[a|e|] hs1] w1]; [|exact I|exact I]. cbn [fst snd] in *. apply K; [exact S1|congruence].
Qed.
Lemma fullc_newrd {X} o h n (p : io X) : fullc o p -> fullc o (NewRd h n p).
Proof. intros K hs w S C. cbn [lrun]. apply K; [now apply sound_seti|]. now rewrite h_out_seti. Qed.
Lemma fullc_ret {X Y} o (p : io X) (a : X -> Y) : fullc o p -> fullc o (bind p (fun x => Ret (a x))).
Proof. intros K hs w S C. rewrite lrun_bind. specialize (K hs w S C). destruct (lrun no_limit p hs w) as [[[x|e|] hs1] w1]; exact K. Qed.
Lemma fullc_write o d : d <> [] -> length d <= defBuf -> fullc o (write o d).
Proof.
  intros D L hs w S C. unfold write. cbn [lrun]. destruct (free_write d (h_out hs o) w (S o)) as [x' [w' [-> [_ [C2 F]]]]]. cbn [lrun fst snd]. rewrite h_out_seto, Nat.eqb_refl.
  unfold pend. rewrite C2, C. specialize (F D). rewrite C in F. pose proof defBuf_pos. destruct defBuf; [lia|]. now apply F.
Qed.

Section Programs.
Context {E : Ext2}.
Ltac sk := first [apply sok_decode1 | apply sok_decode2 | apply sok_read_slice1 | apply sok_seek | apply sok_write; exact I | apply sok_write_raw1; intros; exact I | apply sok_write_slice1; intros; exact I | apply sok_read_hdr2].
Lemma full_vk wr (g sg : E) : empty_info (E := E) <> [] -> length (empty_info (E := E)) <= defBuf -> full 0 (extract_vk_open wr g sg).
Proof.
  intros D L. unfold extract_vk_open, vk_with. do 2 apply full_newrd. apply full_bind. intros h. apply full_make.
  do 6 (apply fullc_bind; [sk|intros ?]). apply fullc_newrd. do 2 (apply fullc_bind; [sk|intros ?]). cbv zeta. apply (fullc_ret 0 _ (fun _ => _)).
  unfold write_vk. do 8 (apply fullc_bind; [sk|intros ?]). now apply fullc_write.
Qed.
(* process_pvckk (Init2.v) without its two deferred flushes *)
Definition pvckk_open (cs : r1cs E) (cons : option (list r1c)) (h : hdr) : io unit := (
  NewRd true defBuf (NewWr 0 defBuf (
    bind (read_slice1 true) (fun srs =>
    orBoom cons (fun cons =>
    orBoom (acc_cons cs r_O srs 0 cons (zeros (h_wires h))) (fun L1 =>
    bind (read_slice1 true) (fun srs =>
    orBoom (acc_cons cs r_R srs 0 cons L1) (fun L2 =>
    bind (read_slice1 true) (fun srs =>
    orBoom (acc_cons cs r_L srs 0 cons L2) (fun L =>
    orBoom (filterL L h (r_cmt cs)) (fun '(pkk, vkk, ckk) =>
    bind (encodes 0 (map g1c pkk)) (fun _ =>
    NewWr 2 defBuf (
      bind (write_slice1 2 vkk) (fun _ =>
      bind (write_slice1 2 ckk) (fun _ =>
      write 2 (cmt_bytes (e := E) (r_cmt cs))))))))))))))))).
Lemma full_pvckk cs cons h : cmt_bytes (e := E) (r_cmt cs) <> [] -> length (cmt_bytes (e := E) (r_cmt cs)) <= defBuf -> full 2 (pvckk_open cs cons h).
Proof.
  intros D L. unfold pvckk_open. apply full_newrd, full_newwr. repeat first [apply full_bind; intros ? | apply full_orBoom; intros ?].
  destruct x3 as [[pkk vkk] ckk]. apply full_bind. intros _. apply full_make. do 2 (apply fullc_bind; [sk|intros ?]). now apply fullc_write.
Qed.
(* p is q with writer 2 flushed at the end *)
Definition late dev {X} (p q : io X) : Prop := forall hs w, o_cap (h_out hs 2) = 0 ->
  let '(r, hs1, w1) := lrun dev p hs w in let '(r', hs2, w2) := lrun dev q hs w in
  r = r' /\ h_out hs1 0 = h_out hs2 0 /\ w1 = snd (h_flush dev (h_out hs2 2) w2).
Lemma late_bind dev {X Y} (s : io X) (p q : X -> io Y) : sok false (fun _ _ => True) any s -> (forall a, late dev (p a) (q a)) -> late dev (bind s p) (bind s q).
Proof.
  intros A K hs w C. rewrite !lrun_bind. pose proof (sok_cap dev _ _ _ s A hs w 2) as C1. destruct (lrun dev s hs w) as [[[a|e|] hs1] w1]; cbn [fst snd] in C1.
  - apply K. congruence.
  - rewrite C in C1. unfold h_flush. rewrite C1. auto.
  - rewrite C in C1. unfold h_flush. rewrite C1. auto.
Qed.
Lemma late_orBoom dev {X Y} (a : option X) (p q : X -> io Y) : (forall a, late dev (p a) (q a)) -> late dev (orBoom a p) (orBoom a q).
Proof. intros K. destruct a as [x|]; [apply K|]. intros hs w C. cbn [orBoom lrun]. unfold h_flush. rewrite C. auto. Qed.
Lemma late_flush dev {X} (p : io X) : late dev (NewWr 2 defBuf (with_flush 2 p)) (NewWr 2 defBuf p).
Proof.
  intros hs w C. cbn [lrun]. rewrite lrun_with_flush. destruct (lrun dev p _ w) as [[r hs1] w1]. destruct (h_flush dev (h_out hs1 2) w1) as [[ok x] w2]. auto.
Qed.
Lemma late_use dev {X} (p q : io X) : late dev p q -> forall a b ps w, lstage_at dev (NewRd true defBuf (NewWr 0 defBuf (with_flush 0 p))) a b ps w =
  let '(r, hs, w1) := lrun dev (NewRd true defBuf (NewWr 0 defBuf q)) (fresh_at a b ps) w in (r, flush2 dev (h_out hs 2) (h_out hs 0) w1).
Proof.
  intros K a b ps w. unfold lstage_at. cbn [lrun]. rewrite lrun_with_flush. match goal with |- context [lrun dev p ?hs w] => specialize (K hs w eq_refl) end.
  destruct (lrun dev p _ w) as [[r hs1] w1]. destruct (lrun dev q _ w) as [[r' hs2] w2]. destruct K as [-> [-> ->]]. unfold flush2.
  now destruct (h_flush dev (h_out hs2 0) _) as [[ok x] w3].
Qed.
Lemma pvckk_late dev cs cons h a b ps w : lstage_at dev (process_pvckk cs cons h) a b ps w =
  let '(r, hs, w1) := lrun dev (pvckk_open cs cons h) (fresh_at a b ps) w in (r, flush2 dev (h_out hs 2) (h_out hs 0) w1).
Proof.
  unfold process_pvckk, pvckk_open. apply late_use. repeat first [apply late_bind; [sk|intros ?] | apply late_orBoom; intros ?].
  match goal with |- late _ (let '(_, _) := ?x in _) _ => destruct x as [[pkk vkk] ckk] | _ => idtac end.
  apply late_bind; [apply sok_encodes; [intros; exact I|apply enc1_small]|intros _]. apply late_flush.
Qed.
End Programs.

(* ---- commands that end in such a flush ---- *)
(* c without limits and c' on a disk with C bytes: if c fits but for one byte then c' reports success and a file of ps lacks its last byte *)
Definition drops {X} (C : nat) (I : world -> Prop) (ps : list string) (c c' : lcmd X) : Prop := forall w x, I w -> fst (c w) = Ok x ->
  w_used w < w_used (snd (c w)) /\
  (w_used (snd (c w)) = S C -> fst (c' w) = Ok x /\ one_short ps (w_fs (snd (c w))) (w_fs (snd (c' w)))).
Definition gives {X} (I : world -> Prop) (c : lcmd X) (J : X -> world -> Prop) : Prop := forall w x, I w -> fst (c w) = Ok x -> J x (snd (c w)).
Lemma drops_bind {X Y} C I (J : X -> world -> Prop) ps (c c' : lcmd X) (k k' : X -> lcmd Y) : quo C c c' -> gives I c J -> (forall x, drops C (J x) ps (k x) (k' x)) ->
  drops C I ps (lbind c k) (lbind c' k').
Proof.
  intros Q G D w y H R. rewrite !bind_at in *. destruct (Q w) as [U [_ S]]. destruct (fst (c w)) as [x|e|] eqn:F; try discriminate.
  destruct (D x _ y (G w x H F) R) as [L M]. split; [lia|]. intros T. rewrite S by lia. rewrite F. now apply M.
Qed.
Lemma drops_any {X} C (I : world -> Prop) ps (c c' : lcmd X) : drops C (fun _ => True) ps c c' -> drops C I ps c c'.
Proof. intros D w x _. now apply D. Qed.
Lemma drops_ret {X Y} C I ps (c c' : lcmd X) (y : Y) : drops C I ps c c' -> drops C I ps (c ;;; lret y) (c' ;;; lret y).
Proof.
  intros D w x H R. rewrite !bind_at in *. destruct (fst (c w)) as [a|e|] eqn:F; try discriminate. destruct (D w a H F) as [L M]. split; [exact L|].
  intros T. destruct (M T) as [-> S]. split; [exact R|exact S].
Qed.
Lemma used_run {X} (p : io X) hs w : w_used w <= w_used (snd (lrun no_limit p hs w)).
Proof. apply (quo_run 0 p hs w). Qed.
Lemma fits_run {X} C (p : io X) hs w : w_used (snd (lrun no_limit p hs w)) <= C -> lrun (disk C) p hs w = lrun no_limit p hs w.
Proof. apply (quo_run C p hs w). Qed.
Lemma run_path {X} dev (p : io X) hs w k : o_path (h_out (snd (fst (lrun dev p hs w))) k) = o_path (h_out hs k).
Proof. pose proof (lrun_grow dev p hs w) as G. destruct (lrun dev p hs w) as [[r hs1] w1]. destruct G as [_ G]. apply G. Qed.
Lemma sound_fresh a b outs : sound (fresh a b outs). Proof. intros k. reflexivity. Qed.
Lemma sound_fresh_at a b ps : sound (fresh_at a b ps). Proof. intros k. reflexivity. Qed.
Lemma pend_pos x : pend x <> [] -> 0 < length (pend x).
Proof. destruct (pend x); [congruence|cbn [length]; lia]. Qed.

Section Commands.
Context {E : Ext2}.
Variable C : nat.
Definition nice (c : commitment) : Prop := cmt_bytes (e := E) c <> [] /\ length (cmt_bytes (e := E) c) <= defBuf.

Lemma drops_pvckk (cs : r1cs E) cons h a b p2 : nice (r_cmt cs) ->
  drops C (fun _ => True) [evals_path; p2] (lstage_at no_limit (process_pvckk cs cons h) a b (outs_at [Some p2; None; Some evals_path]))
    (lstage_at (disk C) (process_pvckk cs cons h) a b (outs_at [Some p2; None; Some evals_path])).
Proof.
  intros [D L] w x _ R. rewrite !pvckk_late in *. set (hs := fresh_at a b (outs_at [Some p2; None; Some evals_path])) in *. set (p := pvckk_open cs cons h) in *.
  assert (S0 : sound hs) by apply sound_fresh_at.
  pose proof (full_pvckk cs cons h D L hs w S0) as F. pose proof (sound_run p hs w S0) as S1. pose proof (used_run p hs w) as U. pose proof (fits_run C p hs w) as FT.
  pose proof (run_path no_limit p hs w 2) as P2. pose proof (run_path no_limit p hs w 0) as P0. fold p in F.
  destruct (lrun no_limit p hs w) as [[r hs1] w1]. cbn [fst snd] in *. subst r. change (o_path (h_out hs 2)) with (Some evals_path) in P2. change (o_path (h_out hs 0)) with (Some p2) in P0.
  rewrite (flush2_used _ _ evals_path p2) by auto. pose proof (pend_pos _ F). split; [lia|]. intros T. rewrite FT by lia. cbn [fst snd]. split; [reflexivity|].
  apply flush2_short; auto.
Qed.
Lemma drops_vk wr (g sg : E) a b v : nice (mkCmt [] 0 0) -> drops C (fun _ => True) [v] (lstage no_limit (extract_vk wr g sg) a b [v]) (lstage (disk C) (extract_vk wr g sg) a b [v]).
Proof.
  intros [D L] w x _ R. rewrite !vk_hold in *. set (hs := fresh a b [v]) in *. set (p := extract_vk_open wr g sg) in *.
  assert (S0 : sound hs) by apply sound_fresh.
  pose proof (full_vk wr g sg D L hs w S0) as F. pose proof (sound_run p hs w S0) as S1. pose proof (used_run p hs w) as U. pose proof (fits_run C p hs w) as FT.
  pose proof (run_path no_limit p hs w 0) as P0. fold p in F.
  destruct (lrun no_limit p hs w) as [[r hs1] w1]. cbn [fst snd] in *. subst r. change (o_path (h_out hs 0)) with (Some v) in P0.
  rewrite (flush_used _ v) by auto. pose proof (pend_pos _ F). split; [lia|]. intros T. rewrite FT by lia. cbn [fst snd]. split; [reflexivity|].
  apply flush_short; auto.
Qed.
(* the writer stays open while other files are written *)
Lemma drops_held {X Y} (p : io X) a b v (k k' : X -> lcmd Y) : full 0 p -> (forall x, quo C (k x) (k' x)) ->
  drops C (fun _ => True) [v] (y <- lhold no_limit p a b [v] ;; ldefer (x <- lres (fst y) ;; k x) (lflush no_limit v (snd y)))
    (y <- lhold (disk C) p a b [v] ;; ldefer (x <- lres (fst y) ;; k' x) (lflush (disk C) v (snd y))).
Proof.
  intros F K w y _ R. rewrite !hold_bind in *. set (hs := fresh a b [v]) in *. assert (S0 : sound hs) by apply sound_fresh.
  specialize (F hs w S0). pose proof (sound_run p hs w S0) as S1. pose proof (used_run p hs w) as U. pose proof (fits_run C p hs w) as FT.
  pose proof (run_path no_limit p hs w 0) as P0. change (o_path (h_out hs 0)) with (Some v) in P0.
  destruct (lrun no_limit p hs w) as [[r hs1] w1]. cbn [fst snd] in *. unfold ldefer in *. rewrite bind_at in *. cbn [lres fst snd] in *.
  destruct r as [x|e|]; [|discriminate|discriminate]. destruct (K x w1) as [U1 [_ FK]]. destruct (k x w1) as [r2 w2] eqn:KW. cbn [fst snd] in *. subst r2.
  unfold lflush in *. cbn [snd]. set (o := mkO (Some v) _ _ _) in *.
  assert (PE : pend o = pend (h_out hs1 0)) by reflexivity. rewrite <- PE in F. pose proof (pend_pos _ F).
  assert (PO : o_path o = Some v) by reflexivity. assert (BO : o_bad o = false) by apply S1.
  rewrite (flush_used o v) by assumption. split; [lia|]. intros T. rewrite FT by lia. cbn [fst snd]. rewrite bind_at. cbn [lres fst snd]. rewrite FK by lia. cbn [fst snd]. split; [reflexivity|].
  apply flush_short; auto.
Qed.
Lemma gives_any {X} (c : lcmd X) : gives (fun _ => True) c (fun _ _ => True). Proof. intros w x _ _. exact I. Qed.
Ltac step := apply (drops_bind C (fun _ => True) (fun _ _ => True)); [qq|apply gives_any|intros ?].
Lemma drops_keys wr (g sg : E) p : nice (mkCmt [] 0 0) -> drops C (fun _ => True) [vk_path] (l_keys no_limit wr g sg p) (l_keys (disk C) wr g sg p).
Proof.
  intros N. unfold l_keys. apply (drops_bind C (fun _ => True) (fun _ _ => True)); [apply quo_pk|apply gives_any|intros _].
  unfold l_vk, l_header. do 4 step. apply drops_ret. now apply drops_vk.
Qed.
Lemma drops_split_keys wr (g sg : E) p s : nice (mkCmt [] 0 0) -> drops C (fun _ => True) [vks_path s] (l_split_keys no_limit wr g sg p s) (l_split_keys (disk C) wr g sg p s).
Proof.
  intros [D L]. unfold l_split_keys. apply (drops_bind C (fun _ => True) (fun _ _ => True)); [apply quo_split_pk|apply gives_any|intros _].
  unfold l_split_vk, l_header. cbv zeta. do 4 step. apply drops_held; [now apply full_vk|intros ck; qq].
Qed.
(* p2n, p2np: what the circuit's file holds does not change *)
Lemma gives_lonly {X} ps r (T : option bytes -> Prop) (c : lcmd X) : lonly ps c -> ~ In r ps -> gives (fun w => T (w_fs w r)) c (fun _ w => T (w_fs w r)).
Proof.
  intros L N w x H _. destruct (L w) as [ops [_ [FE TO]]]. rewrite FE, replay_away; [exact H|].
  eapply Forall_impl; [|exact TO]. intros [q|q d] Q; cbn [op_path touches] in *; intros ->; contradiction.
Qed.
Lemma drops_steps circuit cons nb p1 p2 r (T : option bytes -> Prop) : quo C circuit circuit -> (forall ps, lonly ps circuit) ->
  gives (fun w => T (w_fs w r)) circuit (fun cs _ => nice (r_cmt cs)) -> ~ In r [p2; lag_path; evals_path] ->
  drops C (fun w => T (w_fs w r)) [evals_path; p2] (l_init_steps (E := E) no_limit circuit cons nb p1 p2) (l_init_steps (E := E) (disk C) circuit cons nb p1 p2).
Proof.
  intros Q O G N. unfold l_init_steps. cbv zeta.
  assert (GO : forall X (c : lcmd X), lonly [p2; lag_path; evals_path] c -> gives (fun w => T (w_fs w r)) c (fun _ w => T (w_fs w r))) by (intros X c H; eapply gives_lonly; eauto).
  assert (OI : forall k q, outs_at [Some p2; None; Some evals_path] k = Some q -> In q [p2; lag_path; evals_path]).
  { intros [|[|[|k]]] q K; cbn in K; try discriminate; [injection K as <-; now left| injection K as <-; right; right; now left|destruct k; discriminate]. }
  apply (drops_bind C _ (fun _ w => T (w_fs w r))); [exact Q|apply GO, O|intros cs].
  apply (drops_bind C _ (fun _ w => T (w_fs w r))); [qq|apply GO, lonly_stage; intros q [<-|[]]; now left|intros [pw h]].
  apply (drops_bind C _ (fun _ w => T (w_fs w r))); [apply quo_lagrange|apply GO|intros _].
  { unfold l_lagrange. destruct (new_domain (E := E) (h_domain h)); [|now apply lonly_skip]. apply lonly_bind; [apply lonly_create; right; now left|intros _].
    apply lonly_stage. intros q [<-|[<-|[]]]; [now left|right; now left]. }
  apply (drops_bind C _ (fun _ w => T (w_fs w r))); [qq|apply GO, lonly_open|intros _].
  apply (drops_bind C _ (fun _ w => T (w_fs w r))); [qq|apply GO, lonly_create; right; right; now left|intros _].
  apply (drops_bind C _ (fun _ w => T (w_fs w r))); [qq|apply GO, lonly_stage_at, OI|intros _].
  apply (drops_bind C _ (fun _ w => T (w_fs w r))); [exact Q|apply GO, O|intros cs2].
  do 2 (apply (drops_bind C _ (fun _ w => T (w_fs w r))); [qq|apply GO, lonly_stage_at, OI|intros _]).
  apply (drops_bind C _ (fun _ w => T (w_fs w r))); [qq|apply GO, lonly_open|intros _].
  apply (drops_bind C _ (fun cs _ => nice (r_cmt cs))); [exact Q|exact G|intros cs3].
  intros w x H. now apply (drops_pvckk cs3 (cons cs3) h).
Qed.
Definition nice_file (o : option bytes) : Prop := forall cs, parse_r1cs (e := E) (match o with Some b => b | None => [] end) = Some cs -> nice (r_cmt cs).
Lemma drops_p2n p1 r1 p2 : ~ In r1 [p2; lag_path; evals_path] ->
  drops C (fun w => nice_file (w_fs w r1)) [evals_path; p2] (l_p2n (E := E) no_limit p1 r1 p2) (l_p2n (E := E) (disk C) p1 r1 p2).
Proof.
  intros N. unfold l_p2n.
  apply (drops_bind C _ (fun _ w => nice_file (w_fs w r1))); [qq|eapply gives_lonly; [apply (lonly_open [p2; lag_path; evals_path])|exact N]|intros _].
  apply (drops_bind C _ (fun _ w => nice_file (w_fs w r1))); [qq|eapply gives_lonly; [apply (lonly_create no_limit [p2; lag_path; evals_path]); now left|exact N]|intros _].
  apply (drops_steps _ _ _ p1 p2 r1 nice_file); [apply quo_r1cs| | |exact N].
  - intros ps. unfold l_read_r1cs. apply lonly_bind; [apply lonly_open|intros _]. apply lonly_skip. intros w. now destruct (parse_r1cs _).
  - intros w cs H R. unfold l_read_r1cs in R. rewrite bind_at in R. cbn [lopen fst snd] in R. destruct (w_fs w r1) as [b|] eqn:W; [|discriminate].
    cbv beta in R. unfold contents in R. rewrite W in R. destruct (parse_r1cs b) as [cs'|] eqn:PA; [|discriminate]. cbn [fst] in R. injection R as <-. now apply H.
Qed.
Lemma drops_p2np (cs : r1cs E) p1 p2 n : nice (r_cmt cs) ->
  drops C (fun _ => True) [evals_path; p2] (l_p2np no_limit cs p1 p2 n) (l_p2np (disk C) cs p1 p2 n).
Proof.
  intros H. unfold l_p2np. do 2 step. 
  assert (EX : exists r, ~ In r [p2; lag_path; evals_path]).
  { destruct (in_dec String.string_dec "a"%string [p2; lag_path; evals_path]) as [A|]; [|eauto]. exists "b"%string. intros B. cbn [In] in A, B.
    destruct A as [A|[A|[A|[]]]]; try discriminate. destruct B as [B|[B|[B|[]]]]; try discriminate. congruence. }
  destruct EX as [r N]. apply (drops_steps (lret cs) _ _ p1 p2 r (fun _ => True)); [now apply quo_skip|intros ps; apply lonly_ret| |exact N].
  intros w c _ R. unfold lret in R. cbn [fst] in R. now injection R as <-.
Qed.
End Commands.

(* ---- the claims ---- *)
Section Claims.
Context {E : Ext2}.
Lemma c51_enough C bs (v : inv E) n a f : ops_bytes (w_ops (snd (tool no_limit bs v n a (start f)))) <= C ->
  tool (disk C) bs v n a (start f) = tool no_limit bs v n a (start f).
Proof. intros H. destruct (quo_tool C bs v n a (start f)) as [_ [U Q]]. apply Q. cbn [start w_used w_ops ops_bytes] in U. lia. Qed.
Lemma claim {X} C (I : world -> Prop) (c c' : lcmd X) ps qs l f x : NoDup ps -> quo C c c' -> lta ps ps c -> local no_limit (fun _ => True) [] l c -> (forall p, In p ps -> In p l) ->
  drops C I qs c c' -> I (start f) -> result_of c f = Ok x -> bytes_in ps (after c f) = S C -> result_of c' f = Ok x /\ one_short qs (after c f) (after c' f).
Proof. intros N Q L M P D H R S. destruct (D (start f) x H R) as [_ K]. apply K. rewrite (used_sizes C c c' ps l f N Q L M P x R). exact S. Qed.
Lemma c51_p2n_short C p1 r1 p2 f : p2 <> lag_path -> p2 <> evals_path -> r1 <> p2 -> r1 <> lag_path -> r1 <> evals_path ->
  (forall cs, parse_r1cs (e := E) (contents f r1) = Some cs -> 1 <= length (cmt_bytes (e := E) (r_cmt cs)) <= defBuf) ->
  result_of (l_p2n (E := E) no_limit p1 r1 p2) f = Ok tt -> bytes_in [p2; lag_path; evals_path] (after (l_p2n (E := E) no_limit p1 r1 p2) f) = S C ->
  result_of (l_p2n (E := E) (disk C) p1 r1 p2) f = Ok tt /\ one_short [evals_path; p2] (after (l_p2n (E := E) no_limit p1 r1 p2) f) (after (l_p2n (E := E) (disk C) p1 r1 p2) f).
Proof.
  intros N1 N2 N3 N4 N5 H. eapply claim.
  - repeat constructor; cbn [In]; intuition (congruence || discriminate).
  - apply quo_p2n.
  - now apply lta_p2n.
  - now apply local_p2n.
  - cbn [In]. tauto.
  - apply drops_p2n. cbn [In]. intuition congruence.
  - intros cs P. destruct (H cs P) as [A B]. split; [|exact B]. intros Z. rewrite Z in A. cbn [length] in A. lia.
Qed.
Lemma c51_p2np_short C (cs : r1cs E) p1 p2 n f : p2 <> lag_path -> p2 <> evals_path -> 1 <= length (cmt_bytes (e := E) (r_cmt cs)) <= defBuf ->
  result_of (l_p2np no_limit cs p1 p2 n) f = Ok tt -> bytes_in [p2; lag_path; evals_path] (after (l_p2np no_limit cs p1 p2 n) f) = S C ->
  result_of (l_p2np (disk C) cs p1 p2 n) f = Ok tt /\ one_short [evals_path; p2] (after (l_p2np no_limit cs p1 p2 n) f) (after (l_p2np (disk C) cs p1 p2 n) f).
Proof.
  intros N1 N2 [A B]. eapply (claim C (fun _ => True)).
  - repeat constructor; cbn [In]; intuition (congruence || discriminate).
  - apply quo_p2np.
  - now apply lta_p2np.
  - now apply local_p2np.
  - cbn [In]. tauto.
  - apply drops_p2np. split; [|exact B]. intros Z. rewrite Z in A. cbn [length] in A. lia.
  - exact I.
Qed.
Lemma c51_keys_short C wr (g sg : E) p f : 1 <= length (empty_info (E := E)) <= defBuf ->
  result_of (l_keys no_limit wr g sg p) f = Ok tt -> bytes_in [pk_path; vk_path] (after (l_keys no_limit wr g sg p) f) = S C ->
  result_of (l_keys (disk C) wr g sg p) f = Ok tt /\ one_short [vk_path] (after (l_keys no_limit wr g sg p) f) (after (l_keys (disk C) wr g sg p) f).
Proof.
  intros [A B]. eapply (claim C (fun _ => True)).
  - repeat constructor; cbn [In]; intuition discriminate.
  - unfold l_keys. apply quo_bind; [apply quo_pk|intros _; apply quo_vk].
  - apply lta_keys.
  - now apply local_keys.
  - cbn [In]. tauto.
  - apply drops_keys. split; [|exact B]. intros Z. unfold empty_info in A. rewrite Z in A. cbn [length] in A. lia.
  - exact I.
Qed.
Lemma c51_split_short C wr (g sg : E) p s f : 1 <= length (empty_info (E := E)) <= defBuf ->
  result_of (l_split_keys no_limit wr g sg p s) f = Ok tt -> bytes_in (split_names s ++ [vks_path s; ckey_path s]) (after (l_split_keys no_limit wr g sg p s) f) = S C ->
  result_of (l_split_keys (disk C) wr g sg p s) f = Ok tt /\ one_short [vks_path s] (after (l_split_keys no_limit wr g sg p s) f) (after (l_split_keys (disk C) wr g sg p s) f).
Proof.
  intros [A B]. eapply (claim C (fun _ => True)).
  - cbn [split_names List.map app]. unfold vks_path, ckey_path. do 8 (apply NoDup_cons; [cbn [In]; intros Q; repeat (destruct Q as [Q|Q]; [apply save_inj in Q; discriminate Q|]); exact Q|]). apply NoDup_nil.
  - unfold l_split_keys. apply quo_bind; [apply quo_split_pk|intros _; apply quo_split_vk].
  - apply lta_split_keys.
  - now apply local_split_keys.
  - intros q Q. apply in_app_or in Q as [Q|[<-|[<-|[]]]]; [right; right; now apply -> in_rev|right; now left|now left].
  - apply drops_split_keys. split; [|exact B]. intros Z. unfold empty_info in A. rewrite Z in A. cbn [length] in A. lia.
  - exact I.
Qed.
End Claims.
