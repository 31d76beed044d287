(* Shown.v -- p2v on any bytes: the hashes that are shown belong to records in the file. *)
From Coq Require Import Ring Field String.
From Verif Require Import Base Fld Conc Parallel Poly BitRev IO Ext Spec1 Phase1 Phase1Io Phase1Verify Phase1Trans Phase1Facts Phase1Inv Phase1Claims Gob GobLemmas Circuit Spec2 Phase2 Phase2Io Phase2Lemmas Phase2Claims Phase2More Phase2Bad Spec3 Fs Init2 Init2More Spec4 Keys KeysLemmas KeysClaims KeysProps Sound2 Generic Spec18 Spec25 Spec26 Origin2 Attest Binds Safe2 Safe Spec27 Torn Spec29.
Local Open Scope fld_scope.
Local Open Scope io_scope.

(* programs that read the two files with their buffers as they are *)
Fixpoint reads_on {X} (p : io X) : Prop :=
  match p with
  | Ret _ | Throw _ | Boom => True
  | Rd h k c => 0 < k /\ forall x, (forall b, x = Some b -> length b <= k) -> reads_on (c x)
  | _ => False
  end.
Lemma reads_on_one {X} h (p : io X) : only_reads h p -> reads_on p.
Proof.
  induction p as [a|e| |h' k c IH|h' z c IH|h' n c IH|h' n c IH|o n c IH|o c IH|o d c IH]; cbn [only_reads reads_on]; intros O; try contradiction; auto.
  destruct O as [_ [K O]]. split; [exact K|]. intros x L. apply IH, O, L.
Qed.
Lemma reads_on_bind {X Y} (p : io X) (f : X -> io Y) : reads_on p -> (forall x, reads_on (f x)) -> reads_on (bind p f).
Proof.
  intros O F. induction p as [a|e| |h' k c IH|h' z c IH|h' n c IH|h' n c IH|o n c IH|o c IH|o d c IH]; cbn [reads_on bind] in *; auto.
  destruct O as [K O]. split; [exact K|]. intros x L. apply IH, O, L.
Qed.
Lemma reads_on_try {X} (p : io X) : reads_on p -> reads_on (try p).
Proof.
  induction p as [a|e| |h' k c IH|h' z c IH|h' n c IH|h' n c IH|o n c IH|o c IH|o d c IH]; cbn [reads_on try]; auto.
  intros [K O]. split; [exact K|]. intros x L. apply IH, O, L.
Qed.
(* each reader is somewhere in its file *)
Definition within (F G : bytes) (s : rds) : Prop := forall h : bool, exists pre u p, (if h then G else F) = pre ++ u /\ getr h s = at_ (if h then G else F) defBuf p u.
Lemma reads_within {X} F G : forall (q : io X) s, reads_on q -> within F G s -> within F G (snd (fst (run q s))).
Proof.
  induction q as [a|e| |h' k c IH|h' z c IH|h' n c IH|h' n c IH|o n c IH|o c IH|o d c IH]; intros s O W; cbn [reads_on] in O; try contradiction; try exact W.
  destruct O as [K O]. destruct (W h') as [pre [u [p [Q R]]]].
  destruct (rd_read_any (if h' then G else F) defBuf p u k K) as [x [p1 [u1 [pre1 [R1 [E1 L]]]]]].
  cbn [run]. rewrite R, R1. apply IH; [apply O, L|]. intros h. destruct (Bool.bool_dec h h') as [->|N].
  - exists (pre ++ pre1), u1, p1. rewrite getr_setr. split; [|reflexivity]. rewrite <- app_assoc, <- E1. exact Q.
  - rewrite getr_other by (destruct h, h'; try reflexivity; contradiction). apply W.
Qed.
Lemma ev_within {X} F G (q : io X) s r s' d : reads_on q -> ev q s r s' d -> within F G s -> within F G s'.
Proof. intros O [w [R _]] W. pose proof (reads_within F G q s O W) as Q. rewrite R in Q. exact Q. Qed.

Section S.
Context {E : Ext2}.
Add Field Kfld29 : (f_th E).
Lemma reads_on_decodes1 h n : reads_on (decodes1 (E := E) h n).
Proof.
  induction n as [|n IH]; cbn [decodes1]; [exact I|]. apply reads_on_bind; [eapply reads_on_one, reads_decode1|]. intros x.
  apply reads_on_bind; [exact IH|]. intros l. exact I.
Qed.
Lemma reads_on_aggregate bs (rho : nat -> nat -> E) size : reads_on (aggregate bs rho size).
Proof.
  unfold aggregate. destruct (size <? 0)%Z; [exact I|].
  assert (H : forall fuel rem r (i o : E), reads_on (aggregate_loop bs rho fuel rem r i o)); [|apply H].
  induction fuel as [|fuel IH]; intros rem r i o; destruct rem as [|rem]; cbn [aggregate_loop]; try exact I.
  destruct (randomize (rho (S rem)) r) as [r'|]; cbn [orBoom]; [|exact I].
  apply reads_on_bind; [apply reads_on_decodes1|]. intros ins. destruct (mexp E ins _); [|exact I].
  apply reads_on_bind; [apply reads_on_decodes1|]. intros ors. destruct (mexp E ors _); [|exact I]. apply IH.
Qed.
Lemma reads_on_param bs (rho : nat -> nat -> E) d g size e : reads_on (verify_param bs rho d g size e).
Proof.
  unfold verify_param. apply reads_on_bind; [apply reads_on_try, reads_on_aggregate|]. intros [[i r]|]; [|exact I].
  unfold require. destruct (same_ratio i r d g); exact I.
Qed.
Lemma chain2_seen : forall n p file rest s (x pd : E) ph y hs s' d, getr false s = at_ file defBuf p rest ->
  ev (verify_chain2 n x pd ph) s (Ok (y, hs)) s' d ->
  exists l : list (contrib2 E), length l = n /\ seen2 p rest l /\ chain2_err pd ph l = None /\ y = last (map d_delta l) x /\ hs = map d_hash l.
Proof.
  induction n as [|n IH]; intros p file rest s x pd ph y hs s' d G H; cbn [verify_chain2] in H.
  - destruct H as [w [H _]]. injection H as <- <- _ _. exists []. split; [reflexivity|]. split; [constructor|auto].
  - apply bind_ok_inv in H as [c [s1 [d1 [d2 [R [H _]]]]]].
    destruct (read_seen_inv _ _ _ _ _ _ _ _ G R) as [pb [t [-> [A [N [D ->]]]]]].
    destruct (verify_contrib2 c pd ph) eqn:V; [destruct H as [w [H _]]; discriminate H|].
    apply bind_ok_inv in H as [[y' hs'] [s3 [d3 [d4 [H [H2 _]]]]]].
    apply (IH _ _ _ _ _ _ _ _ _ _ _ (getr_setr _ _ _)) in H as [l [L [S [C [-> ->]]]]]. destruct H2 as [w [H2 _]]. injection H2 as <- <- _ _.
    exists (c :: l). cbn [length chain2_err map]. rewrite V, last_cons. split; [congruence|]. split; [now constructor|auto].
Qed.

(* p2v on arbitrary bytes *)
Lemma verify2_shown bs (rho : nat -> nat -> nat -> E) f g hs : fst (exec (verify2 bs rho) f g) = Ok hs ->
  exists cur org d1 d2 g1 g2 (l : list (contrib2 E)), fst (exec (prefix2 false) f g) = Ok (cur, d1, d2) /\
    fst (exec (prefix2 true) f g) = Ok (org, g1, g2) /\
    h_contribs cur <> 0%Z /\ hdr_eqb cur org = true /\ g1 * d2 = d1 * g2 /\ shown2 f l /\
    length l = Z.to_nat (h_contribs cur) /\ chain2_err g1 [] l = None /\ last (map d_delta l) 0 = d1 /\ hs = map d_hash l.
Proof.
  intros H. destruct (exec (verify2 bs rho) f g) as [r dd] eqn:X. cbn [fst] in H. subst r.
  apply exec_ev in X as [s' [D [X _]]]. unfold verify2 in X.
  destruct X as [w [X Hw]]. cbn [run] in X.
  set (s := setr true _ _) in X.
  assert (G1 : getr false s = at_ f defBuf 0 f) by (unfold s; cbn [setr getr fst snd opened]; apply rd_buf_at).
  assert (G2 : getr true s = at_ g defBuf 0 g) by (unfold s; cbn [setr getr fst snd opened]; apply rd_buf_at).
  assert (W : within f g s) by (intros [|]; [exists [], g, 0%nat|exists [], f, 0%nat]; auto).
  clearbody s.
  match type of X with run ?q s = _ => assert (Y : ev q s (Ok hs) s' D) by (exists w; auto) end. clear X Hw w. rename Y into X.
  eapply step_inv in X; [|apply reads_hdr2|exact G1]. destruct X as [cur [p1 [r1 [D1 [RA X]]]]].
  eapply step_inv in X; [|apply reads_hdr2|rewrite getr_other by reflexivity; exact G2]. destruct X as [org [p2 [r2 [D2 [RB X]]]]].
  apply require_inv in X as [N0 X]. apply require_inv in X as [HE X].
  eapply step_inv in X; [|apply reads_decode1|apply getr_setr]. destruct X as [g1 [p3 [r3 [D3 [RC X]]]]].
  eapply step_inv in X; [|apply reads_decode2|apply getr_setr]. destruct X as [g2 [p4 [r4 [D4 [RD X]]]]].
  eapply step_inv in X; [|apply reads_decode1|rewrite !getr_other by reflexivity; apply getr_setr]. destruct X as [d1 [p5 [r5 [D5 [RE X]]]]].
  eapply step_inv in X; [|apply reads_decode2|apply getr_setr]. destruct X as [d2 [p6 [r6 [D6 [RF X]]]]].
  apply require_inv in X as [SR X].
  eapply ev_within in W; [|eapply reads_on_one, reads_hdr2|apply RA; exact G1].
  eapply ev_within in W; [|eapply reads_on_one, reads_hdr2|apply RB; rewrite getr_other by reflexivity; exact G2].
  eapply ev_within in W; [|eapply reads_on_one, reads_decode1|apply RC; apply getr_setr].
  eapply ev_within in W; [|eapply reads_on_one, reads_decode2|apply RD; apply getr_setr].
  eapply ev_within in W; [|eapply reads_on_one, reads_decode1|apply RE; rewrite !getr_other by reflexivity; apply getr_setr].
  eapply ev_within in W; [|eapply reads_on_one, reads_decode2|apply RF; apply getr_setr].
  apply bind_ok_inv in X as [[] [s1 [e1 [e2 [U1 [X _]]]]]]. eapply ev_within in W; [|apply reads_on_param|exact U1].
  apply bind_ok_inv in X as [[] [s3 [e3 [e4 [U2 [X _]]]]]]. eapply ev_within in W; [|apply reads_on_param|exact U2].
  apply bind_ok_inv in X as [[y hs'] [s5 [e5 [e6 [C [X _]]]]]].
  apply require_inv in X as [LD X]. destruct X as [w [X _]]. injection X as -> _ _.
  destruct (W false) as [pre [u [pp [Qf Gf]]]].
  apply (chain2_seen _ _ _ _ _ _ _ _ _ _ _ _ Gf) in C as [l [Ll [Sl [C [-> ->]]]]].
  exists cur, org, d1, d2, g1, g2, l.
  assert (P : forall h x a b q1 t1 q2 t2 q3 t3, 
     (forall s0, getr h s0 = at_ (if h then g else f) defBuf 0 (if h then g else f) -> ev (read_hdr2 (E := E) h) s0 (Ok x) (setr h (at_ (if h then g else f) defBuf q1 t1) s0) none) ->
     (forall s0, getr h s0 = at_ (if h then g else f) defBuf q1 t1 -> ev (decode1 (E := E) h) s0 (Ok a) (setr h (at_ (if h then g else f) defBuf q2 t2) s0) none) ->
     (forall s0, getr h s0 = at_ (if h then g else f) defBuf q2 t2 -> ev (decode2 (E := E) h) s0 (Ok b) (setr h (at_ (if h then g else f) defBuf q3 t3) s0) none) ->
     fst (exec (prefix2 h) f g) = Ok (x, a, b)).
  { intros h x a b q1 t1 q2 t2 q3 t3 Q1 Q2 Q3.
    assert (EV : exists st, ev (prefix2 h) (opened f, opened g) (Ok (x, a, b)) st none).
    { unfold prefix2. destruct h; (eexists; eapply ev_newrd0; [reflexivity|]);
      (eapply evb; [apply Q1; apply getr_setr|]);
      (eapply evb; [apply Q2; apply getr_setr|]); (eapply evb; [apply Q3; apply getr_setr|]); apply ev_ret. }
    destruct EV as [st EV]. apply ev_exec in EV. now rewrite EV. }
  split; [exact (P false _ _ _ _ _ _ _ _ _ RA RE RF)|]. split; [exact (P true _ _ _ _ _ _ _ _ _ RB RC RD)|].
  split. { destruct (Z.eqb_spec (h_contribs cur) 0); [discriminate N0|assumption]. }
  split; [exact HE|]. split; [apply feqb_ok in SR; exact SR|]. split; [now exists pre, u, pp|]. split; [exact Ll|]. split; [exact C|].
  split; [apply feqb_ok in LD; exact LD|reflexivity].
Qed.

Lemma accepted_any bs (rho : nat -> nat -> nat -> E) F G hs : fst (exec (verify2 bs rho) F G) = Ok hs ->
  exists l : list (contrib2 E), shown2 F l /\ hs = map d_hash l /\ chained d_hash good2 l.
Proof.
  intros V. destruct (verify2_shown bs rho F G hs V) as [cur [org [d1 [d2 [g1 [g2 [l [_ [_ [_ [_ [_ [S [_ [C [_ ->]]]]]]]]]]]]]]]].
  exists l. split; [exact S|]. split; [reflexivity|]. exact (chain2_chained _ _ C).
Qed.
Lemma history_any bs bs' (rho rho' : nat -> nat -> nat -> E) F G F' G' hs hs' :
  fst (exec (verify2 bs rho) F G) = Ok hs -> fst (exec (verify2 bs' rho') F' G') = Ok hs' ->
  exists l l' : list (contrib2 E), shown2 F l /\ hs = map d_hash l /\ shown2 F' l' /\ hs' = map d_hash l' /\
  ((forall c, In c l' -> kS (d_key c) <> 0 /\ kSX (d_key c) <> 0) ->
   forall i, nth_error hs i = Some (last hs' []) -> firstn (S i) l = l' \/ exists a b, clash2 l l' a b).
Proof.
  intros V V'. destruct (accepted_any bs rho F G hs V) as [l [S [-> C]]]. destruct (accepted_any bs' rho' F' G' hs' V') as [l' [S' [-> C']]].
  exists l, l'. do 4 (split; [auto|]). intros L i Hi.
  destruct (binds_at d_hash good2 alive2 sha_clash (fun c => point_clash (d_key c)) good2_same good2_point good2_full l l' i
    C C' L Hi) as [Q|[a [b [c [c' [Ha [Hb X]]]]]]]; [left; exact Q|].
  right. exists a, b, c, c'. auto.
Qed.
Lemma once_any bs (rho : nat -> nat -> nat -> E) F G hs : fst (exec (verify2 bs rho) F G) = Ok hs ->
  exists l : list (contrib2 E), shown2 F l /\ hs = map d_hash l /\ ((forall c, In c l -> kS (d_key c) <> 0 /\ kSX (d_key c) <> 0) ->
    forall i j x, nth_error hs i = Some x -> nth_error hs j = Some x -> i = j \/ exists a b, clash2 l l a b).
Proof.
  intros V. destruct (accepted_any bs rho F G hs V) as [l [S [-> C]]]. exists l. do 2 (split; [auto|]). intros L i j x Hi Hj.
  destruct (once d_hash good2 alive2 sha_clash (fun c => point_clash (d_key c)) good2_same good2_point good2_full l i j x C L Hi Hj)
    as [Q|[a [b [c [c' [Ha [Hb X]]]]]]]; [left; exact Q|]. right. exists a, b, c, c'. auto.
Qed.
(* the contributor's own record, for any bytes behind the header *)
Lemma own_any (l lx : list (contrib2 E)) bs g h pb (q : par2 E) t (d s : E) x O i : chained d_hash good2 l ->
  1 <= bs -> hdr_ok h -> (h_contribs h < 9223372036854775807)%Z -> is_par2 pb q -> sized2 h q ->
  length lx = Z.to_nat (h_contribs h) -> seen2 (length (gob_hdr h) + length pb) t lx -> d <> 0 -> s <> 0 ->
  exec (contribute2 bs d s) (gob_hdr h ++ pb ++ t) g = (Ok x, O) -> nth_error (map d_hash l) i = Some x ->
  prev_hash l i = last_hash2 lx \/ own_clash2 l lx i (new_rec2 d s (d * p_d1 q) (last_hash2 lx)).
Proof.
  intros C B HO CO P Sz HL Sn D0 S0 HX Hi.
  pose proof (seen_run bs d s g h pb q t lx B HO CO P Sz HL Sn) as Q. cbv zeta in Q. rewrite HX in Q. injection Q as Hh _.
  rewrite nth_error_map in Hi. destruct (nth_error l i) as [c|] eqn:Hc; [|discriminate]. cbn in Hi. injection Hi as Hi.
  pose proof (C i c Hc) as G0. set (r := new_rec2 d s (d * p_d1 q) (last_hash2 lx)) in *.
  assert (GR : good2 (last_hash2 lx) r) by (exists (p_d1 q); apply verify_new2).
  assert (HR : d_hash c = d_hash r) by (rewrite Hi, Hh; reflexivity).
  destruct (good2_same _ _ _ _ G0 GR HR) as [->|X1]; [|right; exists c; auto].
  assert (A : alive2 r) by (split; [exact S0|cbn; now apply fmul_neq0]).
  destruct (good2_point _ _ _ G0 GR A) as [W|W]; [left; exact W|right; exists r; auto].
Qed.
Lemma predecessor_any bs (rho : nat -> nat -> nat -> E) F G hs : fst (exec (verify2 bs rho) F G) = Ok hs ->
  exists l : list (contrib2 E), shown2 F l /\ hs = map d_hash l /\
  forall bs' g h t (d s : E) x O, 1 <= bs' -> hdr_ok h -> (- two63 < h_domain h)%Z -> (h_contribs h < 9223372036854775807)%Z -> d <> 0 -> s <> 0 ->
  exec (contribute2 bs' d s) (gob_hdr h ++ t) g = (Ok x, O) ->
  exists pb (q : par2 E) u lx, t = pb ++ u /\ is_par2 pb q /\ sized2 h q /\ length lx = Z.to_nat (h_contribs h) /\
    seen2 (length (gob_hdr h) + length pb) u lx /\
    forall i, nth_error hs i = Some x ->
      last (firstn i hs) [] = last (map d_hash lx) [] \/ own_clash2 l lx i (new_rec2 d s (d * p_d1 q) (last_hash2 lx)).
Proof.
  intros V. destruct (accepted_any bs rho F G hs V) as [l [S [-> C]]]. exists l. do 2 (split; [auto|]).
  intros bs' g h t d s x O B HO DM CO D0 S0 X. destruct (seen_only bs' d s g h t x O B HO DM CO X) as [pb [q [u [lx [-> [P [Sz [HL Sn]]]]]]]].
  exists pb, q, u, lx. do 5 (split; [auto|]). intros i Hi. rewrite firstn_map.
  exact (own_any l lx bs' g h pb q u d s x O i C B HO CO P Sz HL Sn D0 S0 X Hi).
Qed.
Lemma fork_any bs (rho : nat -> nat -> nat -> E) F G hs : fst (exec (verify2 bs rho) F G) = Ok hs ->
  exists l : list (contrib2 E), shown2 F l /\ hs = map d_hash l /\ ((forall c, In c l -> kS (d_key c) <> 0 /\ kSX (d_key c) <> 0) ->
  forall bs1 bs2 g1 g2 h t (d1 s1 d2 s2 : E) x1 x2 O1 O2, 1 <= bs1 -> 1 <= bs2 -> hdr_ok h -> (- two63 < h_domain h)%Z -> (h_contribs h < 9223372036854775807)%Z ->
  d1 <> 0 -> s1 <> 0 -> d2 <> 0 -> s2 <> 0 ->
  exec (contribute2 bs1 d1 s1) (gob_hdr h ++ t) g1 = (Ok x1, O1) -> exec (contribute2 bs2 d2 s2) (gob_hdr h ++ t) g2 = (Ok x2, O2) ->
  exists pb (q : par2 E) u lx, t = pb ++ u /\ is_par2 pb q /\ sized2 h q /\ length lx = Z.to_nat (h_contribs h) /\
    seen2 (length (gob_hdr h) + length pb) u lx /\
    forall i j, nth_error hs i = Some x1 -> nth_error hs j = Some x2 ->
      x1 = x2 \/ (exists a b, clash2 l l a b) \/ own_clash2 l lx i (new_rec2 d1 s1 (d1 * p_d1 q) (last_hash2 lx)) \/
      own_clash2 l lx j (new_rec2 d2 s2 (d2 * p_d1 q) (last_hash2 lx))).
Proof.
  intros V. destruct (accepted_any bs rho F G hs V) as [l [S [-> C]]]. exists l. do 2 (split; [auto|]).
  intros L bs1 bs2 g1 g2 h t d1 s1 d2 s2 x1 x2 O1 O2 B1 B2 HO DM CO D1 S1 D2 S2 X1 X2.
  destruct (seen_only bs1 d1 s1 g1 h t x1 O1 B1 HO DM CO X1) as [pb [q [u [lx [-> [P [Sz [HL Sn]]]]]]]].
  exists pb, q, u, lx. do 5 (split; [auto|]). intros i j Hi Hj.
  destruct (own_any l lx bs1 g1 h pb q u d1 s1 x1 O1 i C B1 HO CO P Sz HL Sn D1 S1 X1 Hi) as [Qi|]; [|auto].
  destruct (own_any l lx bs2 g2 h pb q u d2 s2 x2 O2 j C B2 HO CO P Sz HL Sn D2 S2 X2 Hj) as [Qj|]; [|auto].
  assert (I : forall k y, nth_error (map d_hash l) k = Some y -> k < length l).
  { intros k y Hk. rewrite <- (map_length d_hash). apply nth_error_Some. congruence. }
  destruct (next d_hash good2 alive2 sha_clash (fun c => point_clash (d_key c)) good2_same good2_point good2_full l i j C L (I _ _ Hi) (I _ _ Hj))
    as [->|[a [b [c [c' [Ha [Hb Y]]]]]]].
  - change (prev_hash l i = prev_hash l j). congruence.
  - left. congruence.
  - right. left. exists a, b, c, c'. auto.
Qed.

Lemma prefix_origin F F0 (h0 : hdr) (q0 : par2 E) org a b : ph2 F0 h0 q0 -> fst (exec (prefix2 true) F F0) = Ok (org, a, b) -> a = p_d1 q0.
Proof. intros P H. rewrite (opens_prefix true F F0 h0 q0 (opens_file true _ _ _ P)) in H. now injection H. Qed.

Lemma final_any p T A Bt (cs : r1cs E) f p1 r1 p2 k :
  init_input p (srs_of p T A Bt) cs f p1 r1 p2 -> no_cmt cs -> (N.of_nat (wires cs) < 4294967296)%N ->
  is_dom (length (r_cons cs)) k -> T ^ (2 ^ k) <> 1 ->
  exists fa F0 G, p2n (E := E) p1 r1 p2 f = (Ok tt, fa) /\ fa p2 = Some F0 /\ fa evals_path = Some G /\
  forall bs bs' (rho rho' : nat -> nat -> nat -> E) F F' hs hs',
    1 <= bs -> fst (exec (verify2 bs rho) F F0) = Ok hs -> 1 <= bs' -> fst (exec (verify2 bs' rho') F' F0) = Ok hs' ->
    exists l l' : list (contrib2 E), shown2 F l /\ hs = map d_hash l /\ shown2 F' l' /\ hs' = map d_hash l' /\
    ((forall c, In c l' -> kS (d_key c) <> 0 /\ kSX (d_key c) <> 0) -> last hs [] = last hs' [] ->
    forall g sg g' sg' pz pz' f1 f1' f2 f2',
    pz <> pk_path -> pz <> vk_path -> f1 pz = Some F -> f1 evals_path = Some G -> extract_keys wrap64 g sg pz f1 = (Ok tt, f2) ->
    pz' <> pk_path -> pz' <> vk_path -> f1' pz' = Some F' -> f1' evals_path = Some G -> extract_keys wrap64 g' sg' pz' f1' = (Ok tt, f2') ->
    by_chance bs rho F F0 \/ by_chance bs' rho' F' F0 \/ (exists a b, clash2 l l' a b) \/
    (f2 pk_path = f2' pk_path /\ exists v : vkey E,
      f2 vk_path = Some (vk_bytes (ped (e := E) g sg []) (empty_info (E := E)) v) /\
      f2' vk_path = Some (vk_bytes (ped (e := E) g' sg' []) (empty_info (E := E)) v))).
Proof.
  intros HI Hnc HW KD TN. destruct (attested_core p T A Bt cs f p1 r1 p2 k HI Hnc HW KD TN) as [fa [F0 [G [H1 [H2 [H3 H4]]]]]].
  exists fa, F0, G. split; [exact H1|]. split; [exact H2|]. split; [exact H3|].
  intros bs bs' rho rho' F F' hs hs' B V B' V'.
  destruct (verify2_shown bs rho F F0 hs V) as [cur [org [d1 [d2 [g1 [g2 [l [Y1 [_ [_ [_ [_ [Sh [_ [CE [LD Hhs]]]]]]]]]]]]]]]].
  destruct (verify2_shown bs' rho' F' F0 hs' V') as [cur' [org' [d1' [d2' [g1' [g2' [l' [Y1' [_ [_ [_ [_ [Sh' [_ [CE' [LD' Hhs']]]]]]]]]]]]]]]].
  exists l, l'. do 4 (split; [auto|]).
  intros L Q g sg g' sg' pz pz' f1 f1' f2 f2' N1 N2 HF HG X N1' N2' HF' HG' X'.
  destruct (H4 bs rho F hs g sg pz f1 f2 B V N1 N2 HF HG X) as [C|[h1 [h0 [q0 [D [D2 [q [v [P1 [_ [_ [_ [K1 [K2 [K3 _]]]]]]]]]]]]]]]; [left; exact C|right].
  destruct (H4 bs' rho' F' hs' g' sg' pz' f1' f2' B' V' N1' N2' HF' HG' X') as [C|[h1' [h0' [q0' [D' [D2' [q' [v' [P1' [_ [_ [_ [K1' [K2' [K3' _]]]]]]]]]]]]]]]; [left; exact C|right].
  destruct (binds d_hash good2 alive2 sha_clash (fun c => point_clash (d_key c)) good2_same good2_point good2_full l l'
    (chain2_chained _ _ CE) (chain2_chained _ _ CE') L ltac:(congruence)) as [<-|[a [b [c [c' [Ha [Hb Y]]]]]]].
  2:{ left. exists a, b, c, c'. auto. }
  right. assert (DD : D' = D) by congruence. rewrite DD in K3'.
  destruct (keypair_unique k cs A Bt D T q v q' v') as [<- <-]; [|exact K3|exact K3'|].
  { destruct (init_dom _ _ _ _ _ _ _ HI) as [k' [KD' [_ [KM _]]]].
    assert (k' = k) by (destruct KD as [J1 [J2 J3]], KD' as [I1 [I2 I3]]; specialize (J3 k' I1 I2); specialize (I3 k J1 J2); lia). subst k'.
    destruct KD as [J1 _]. split; [exact J1|exact KM]. }
  split; [congruence|]. exists v. auto.
Qed.
Lemma attested_any p T A Bt (cs : r1cs E) f p1 r1 p2 k :
  init_input p (srs_of p T A Bt) cs f p1 r1 p2 -> no_cmt cs -> (N.of_nat (wires cs) < 4294967296)%N ->
  is_dom (length (r_cons cs)) k -> T ^ (2 ^ k) <> 1 ->
  exists fa F0 G, p2n (E := E) p1 r1 p2 f = (Ok tt, fa) /\ fa p2 = Some F0 /\ fa evals_path = Some G /\
  forall bs (rho : nat -> nat -> nat -> E) F hs, 1 <= bs -> fst (exec (verify2 bs rho) F F0) = Ok hs ->
    exists l : list (contrib2 E), shown2 F l /\ hs = map d_hash l /\
    forall g sg pz f1 f2, pz <> pk_path -> pz <> vk_path -> f1 pz = Some F -> f1 evals_path = Some G -> extract_keys wrap64 g sg pz f1 = (Ok tt, f2) ->
    by_chance bs rho F F0 \/
    exists D (q : pkey E) (v : vkey E), D <> 0 /\
      f2 pk_path = Some (pk_bytes k (N.of_nat (wires cs)) q) /\
      f2 vk_path = Some (vk_bytes (ped (e := E) g sg []) (empty_info (E := E)) v) /\
      is_keypair cs k (root k) A Bt D T q v /\
      (no_challenge l \/ exists xs, updates 1 [] l xs /\ D = prodl xs /\
        forall bs' (d s : E) X h O i, d <> 0 -> s <> 0 -> exec (contribute2 bs' d s) X [] = (Ok h, O) -> nth_error hs i = Some h ->
          nth_error xs i = Some d \/ exists r o c, O = o ++ rec2_bytes r /\ nth_error l i = Some c /\ sha_clash c r).
Proof.
  intros HI Hnc HW KD TN. destruct (attested_core p T A Bt cs f p1 r1 p2 k HI Hnc HW KD TN) as [fa [F0 [G [H1 [H2 [H3 H4]]]]]].
  exists fa, F0, G. split; [exact H1|]. split; [exact H2|]. split; [exact H3|].
  intros bs rho F hs B V.
  destruct (verify2_shown bs rho F F0 hs V) as [cur [org [d1 [d2 [g1 [g2 [l [Y1 [Y2 [_ [_ [_ [Sh [_ [CE [LD Hhs]]]]]]]]]]]]]]]].
  exists l. do 2 (split; [auto|]). intros g sg pz f1 f2 N1 N2 HF HG X.
  destruct (H4 bs rho F hs g sg pz f1 f2 B V N1 N2 HF HG X) as [C|[h1 [h0 [q0 [D [D2 [q [v [P1 [P2 [O1 [D0 [K1 [K2 [K3 K4]]]]]]]]]]]]]]]; [left; exact C|right].
  exists D, q, v. do 4 (split; [auto|]). apply K4; [exact Hhs| |congruence].
  rewrite (prefix_origin F F0 h0 q0 org g1 g2 P2 Y2), O1 in CE. exact CE.
Qed.
End S.
