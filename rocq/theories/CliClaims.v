(* CliClaims.v -- numerals, refused command lines, verification on the lower level, sessions. *)
From Coq Require Import String Ascii.
From Verif Require Import Base Fld Conc Parallel IO Ext Spec1 Phase1 Gob Circuit Spec2 Phase2 Fs Init2 Spec4 Keys Phase1Io
  Phase1Verify Live LiveLemmas LiveCmd LiveTwin Spec5 LiveProps Spec6 Cli.

(* ---- Atoi ---- *)
Section Atoi.
Local Open Scope Z_scope.
Lemma digit_iff c d : digit c d <-> d = Z.of_N (N_of_ascii c) - 48 /\ 0 <= d <= 9.
Proof. unfold digit. split; [intros [A B]; split; [rewrite B|]; lia|intros [-> A]; split; [exact A|]; lia]. Qed.
Lemma atou_app s t a : atou (s ++ t) a = match atou s a with Some b => atou t b | None => None end.
Proof.
  revert a. induction s as [|c s IH]; intros a; cbn [append atou]; [reflexivity|].
  destruct ((0 <=? Z.of_N (N_of_ascii c) - 48) && (Z.of_N (N_of_ascii c) - 48 <=? 9))%bool; auto.
Qed.
Lemma atou_digit c d a : digit c d -> atou (String c EmptyString) a = Some (a * 10 + d).
Proof.
  intros D. apply digit_iff in D as [-> D]. cbn [atou].
  destruct (Z.leb_spec 0 (Z.of_N (N_of_ascii c) - 48)); [|lia]. destruct (Z.leb_spec (Z.of_N (N_of_ascii c) - 48) 9); [|lia]. reflexivity.
Qed.
Lemma decimal_atou s n : decimal s n -> atou s 0 = Some n /\ s <> EmptyString /\ 0 <= n.
Proof.
  induction 1 as [c d D|s n c d H IH D].
  - split; [now rewrite (atou_digit c d 0 D)|]. split; [discriminate|]. apply digit_iff in D as [_ D]. lia.
  - destruct IH as [A [B C]]. split; [rewrite atou_app, A, (atou_digit c d n D); f_equal; lia|].
    split; [destruct s; discriminate|]. apply digit_iff in D as [_ D]. lia.
Qed.
Lemma atou_decimal : forall t s a, decimal s a -> forall n, atou t a = Some n -> decimal (s ++ t) n.
Proof.
  induction t as [|c t IH]; intros s a D n H; cbn [atou] in H.
  - injection H as <-. replace (s ++ "")%string with s; [exact D|]. clear. induction s; cbn; [reflexivity|]. f_equal. exact IHs.
  - destruct (Z.leb_spec 0 (Z.of_N (N_of_ascii c) - 48)) as [L1|]; [|discriminate].
    destruct (Z.leb_spec (Z.of_N (N_of_ascii c) - 48) 9) as [L2|]; [|discriminate]. cbn [andb] in H.
    replace (s ++ String c t)%string with ((s ++ String c EmptyString) ++ t)%string.
    2: { clear. induction s as [|x s IHs]; cbn; [reflexivity|]. f_equal. exact IHs. }
    eapply IH; [|exact H]. replace (a * 10) with (10 * a) by lia. apply decimal_app; [exact D|]. apply digit_iff. auto.
Qed.
Lemma atou_iff c t n : atou (String c t) 0 = Some n <-> decimal (String c t) n.
Proof.
  split; [|intros H; apply (decimal_atou _ _ H)]. cbn [atou]. intros H.
  destruct (Z.leb_spec 0 (Z.of_N (N_of_ascii c) - 48)) as [L1|]; [|discriminate].
  destruct (Z.leb_spec (Z.of_N (N_of_ascii c) - 48) 9) as [L2|]; [|discriminate]. cbn [andb] in H.
  apply (atou_decimal t (String c EmptyString) (0 * 10 + (Z.of_N (N_of_ascii c) - 48))); [|exact H]. apply decimal1, digit_iff. split; lia.
Qed.
(* the sign is not a digit *)
Lemma decimal_head c t n : decimal (String c t) n -> exists d, digit c d.
Proof.
  intros H. remember (String c t) as s. revert c t Heqs. induction H as [x d D|s n x d H IH D]; intros c t Q.
  - injection Q as <- <-. now exists d.
  - destruct s as [|y s]; [now apply decimal_atou in H as [_ [K _]]|]. injection Q as <- _. now apply (IH y s).
Qed.
Lemma decimal_nonempty n : ~ decimal EmptyString n.
Proof. intros H. now apply decimal_atou in H as [_ [K _]]. Qed.
Definition unsigned_ (neg : bool) (t : string) : option Z :=
  match t with
  | EmptyString => None
  | _ => match atou t 0 with
         | None => None
         | Some n => let z := if neg then - n else n in if ((- 2 ^ 63 <=? z) && (z <? 2 ^ 63))%bool then Some z else None
         end
  end.
Lemma unsigned_iff neg t z : unsigned_ neg t = Some z <-> - 2 ^ 63 <= z < 2 ^ 63 /\ decimal t (if neg then - z else z).
Proof.
  destruct t as [|c t]; [split; [discriminate|intros [_ H]; now apply decimal_nonempty in H]|].
  unfold unsigned_. split.
  - destruct (atou (String c t) 0) as [n|] eqn:A; [|discriminate]. apply atou_iff in A. cbv zeta.
    destruct (Z.leb_spec (- 2 ^ 63) (if neg then - n else n)); [|discriminate].
    destruct (Z.ltb_spec (if neg then - n else n) (2 ^ 63)); [|discriminate]. cbn [andb]. intros [= <-]. split; [lia|].
    destruct neg; [now rewrite Z.opp_involutive|exact A].
  - intros [R D]. apply decimal_atou in D as [D _]. rewrite D. cbv zeta.
    replace (if neg then - (if neg then - z else z) else if neg then - z else z) with z by (destruct neg; lia).
    destruct (Z.leb_spec (- 2 ^ 63) z); [|lia]. destruct (Z.ltb_spec z (2 ^ 63)); [|lia]. reflexivity.
Qed.
Lemma atoi_cases s : atoi s = match s with
  | String c t => if Ascii.eqb c "-" then unsigned_ true t else if Ascii.eqb c "+" then unsigned_ false t else unsigned_ false s
  | EmptyString => None end.
Proof.
  destruct s as [|c t]; [reflexivity|].
  destruct (Ascii.eqb_spec c "-") as [->|N1]; [reflexivity|]. destruct (Ascii.eqb_spec c "+") as [->|N2]; [reflexivity|].
  unfold atoi. destruct c as [[] [] [] [] [] [] [] []]; try reflexivity; congruence.
Qed.
Lemma atoi_iff s z : atoi s = Some z <-> numeral s z.
Proof.
  rewrite atoi_cases. unfold numeral. destruct s as [|c t].
  - split; [discriminate|]. intros [_ [H|[[t [H _]]|[t [H _]]]]]; [now apply decimal_nonempty in H|discriminate|discriminate].
  - assert (ND : forall x, digit c x -> c <> "-"%char /\ c <> "+"%char).
    { intros x D. apply digit_iff in D. split; intros ->; cbn in D; lia. }
    destruct (Ascii.eqb_spec c "-") as [->|N1]; [|destruct (Ascii.eqb_spec c "+") as [->|N2]].
    + rewrite unsigned_iff. split; [intros [R D]; split; [exact R|]; right; right; now exists t|].
      intros [R [H|[[t' [Q _]]|[t' [Q D]]]]]; [|discriminate Q|injection Q as <-; auto].
      apply decimal_head in H as [x X]. apply ND in X. tauto.
    + rewrite unsigned_iff. split; [intros [R D]; split; [exact R|]; right; left; now exists t|].
      intros [R [H|[[t' [Q D]]|[t' [Q _]]]]]; [|injection Q as <-; auto|discriminate Q].
      apply decimal_head in H as [x X]. apply ND in X. tauto.
    + rewrite unsigned_iff. split; [intros [R D]; auto|].
      intros [R [H|[[t' [Q _]]|[t' [Q _]]]]]; [auto|congruence|congruence].
Qed.
Lemma atoi_none s : ~ number s -> atoi s = None.
Proof. intros N. destruct (atoi s) as [z|] eqn:A; [|reflexivity]. apply atoi_iff in A. exfalso. apply N. now exists z. Qed.
End Atoi.

(* ---- refused lines ---- *)
Lemma find_none_iff_ {X} (p : X -> bool) l : find p l = None <-> forall x, In x l -> p x = false.
Proof.
  split; [apply find_none|]. induction l as [|x l IH]; intros H; [reflexivity|]. cbn. rewrite (H x) by now left.
  apply IH. intros y I. apply H. now right.
Qed.
Section Lines.
Context {E : Ext2}.
Variable dev : device.
Variable bs : nat.
Variable v : inv E.
Lemma bad_line_safe n a : bad_line n a -> forall w, exists e, tool dev bs v n a w = (Err e, w).
Proof.
  intros B w. inversion B as [n' a' H|n' k a' H L|s o H|s z o H L|i o s t H|i o s t x y H1 H2 L|i r o s t u H]; subst.
  - exists EArgs. unfold tool. rewrite (proj2 (find_none_iff_ _ _)); [reflexivity|]. intros [m act] I. cbn [fst].
    destruct (String.eqb_spec m n) as [->|]; [|reflexivity]. exfalso. apply H.
    assert (Q : map fst (table dev bs v) = map fst arities) by reflexivity. rewrite <- Q. apply in_map_iff. now exists (n, act).
  - exists EArgs. unfold arities in H. cbn [In] in H.
    repeat (destruct H as [H|H]; [injection H as <- <-; do 7 (destruct a as [|? a]; [first [exfalso; apply L; reflexivity|reflexivity]|]); reflexivity|]).
    destruct H.
  - exists EAtoi. change (int_arg s (fun p => if (p >? 26)%Z then lfail EPower26 else quiet (l_initialize (E := E) dev (to_byte p) o)) w = (Err EAtoi, w)).
    unfold int_arg. now rewrite atoi_none.
  - exists EPower26. change (int_arg s (fun p => if (p >? 26)%Z then lfail EPower26 else quiet (l_initialize (E := E) dev (to_byte p) o)) w = (Err EPower26, w)).
    unfold int_arg. apply atoi_iff in H. rewrite H. destruct (Z.gtb_spec z 26); [reflexivity|lia].
  - exists EAtoi. change (int_arg s (fun x => int_arg t (fun y =>
      if (x <? y)%Z then lfail EHigherPower else quiet (l_transform (E := E) dev (to_byte x) (to_byte y) i o))) w = (Err EAtoi, w)).
    unfold int_arg. destruct H as [H|H]; rewrite (atoi_none _ H); [reflexivity|]. now destruct (atoi s).
  - exists EHigherPower. change (int_arg s (fun x => int_arg t (fun y =>
      if (x <? y)%Z then lfail EHigherPower else quiet (l_transform (E := E) dev (to_byte x) (to_byte y) i o))) w = (Err EHigherPower, w)).
    unfold int_arg. apply atoi_iff in H1, H2. rewrite H1, H2. destruct (Z.ltb_spec x y); [reflexivity|lia].
  - exists EAtoi. change (int_arg s (fun nbCons => int_arg t (fun nbR1C => int_arg u (fun batch =>
      quiet (l_p2np dev (v_parts v r nbR1C batch) i o nbCons)))) w = (Err EAtoi, w)).
    unfold int_arg. destruct H as [H|[H|H]]; rewrite (atoi_none _ H); [reflexivity| |]; destruct (atoi s); try reflexivity.
    now destruct (atoi t).
Qed.
End Lines.

(* ---- programs without outputs ---- *)
Definition dead (x : ohandle) : Prop := o_path x = None /\ o_bad x = false.
Lemma dead_write dev d x w : dead x -> exists x', h_write dev d x w = (true, x', w) /\ dead x'.
Proof.
  intros [P B]. destruct x as [pt cap buf bad]. cbn in P, B. subst. unfold h_write. cbn [o_cap].
  destruct cap as [|cap]; [exists (mkO None 0 buf false); split; [reflexivity|split; reflexivity]|].
  unfold bw_write. cbn [o_bad o_cap o_buf o_path]. destruct (length d <=? S cap - length buf).
  { eexists. split; [reflexivity|split; reflexivity]. }
  destruct buf as [|b buf]; [unfold bw_direct; cbn; eexists; split; [reflexivity|split; reflexivity]|].
  unfold bw_flush. cbn [o_bad o_buf o_path o_cap].
  destruct ((b :: buf) ++ firstn (S cap - length (b :: buf)) d) as [|y l] eqn:Q; [discriminate|]. cbn [os_write negb o_path o_cap o_buf].
  destruct (length (skipn (S cap - length (b :: buf)) d) <=? S cap); [eexists; split; [reflexivity|split; reflexivity]|].
  unfold bw_direct. cbn. eexists. split; [reflexivity|split; reflexivity].
Qed.
Lemma dead_flush dev x w : dead x -> exists x', h_flush dev x w = (true, x', w) /\ dead x'.
Proof.
  intros [P B]. destruct x as [pt cap buf bad]. cbn in P, B. subst. unfold h_flush. cbn [o_cap].
  destruct cap as [|cap]; [eexists; split; [reflexivity|split; reflexivity]|].
  unfold bw_flush. cbn [o_bad o_buf o_path o_cap]. destruct buf; cbn; eexists; (split; [reflexivity|split; reflexivity]).
Qed.
Lemma dead_set o x hs : dead x -> (forall k, dead (h_out hs k)) -> forall k, dead (h_out (seto o x hs) k).
Proof. intros D H k. unfold seto. cbn [h_out]. destruct (o =? k); auto. Qed.
Lemma dead_run dev {X} (p : io X) : forall hs w, isok hs -> (forall k, dead (h_out hs k)) ->
  snd (lrun dev p hs w) = w /\ fst (fst (lrun dev p hs w)) = fst (fst (run p (abss (w_fs w) hs))).
Proof.
  induction p as [a|e| |h k c IH|h z c IH|h n c IH|h n c IH|o n c IH|o c IH|o d c IH]; intros hs w I D; cbn [lrun run].
  - auto.
  - auto.
  - auto.
  - rewrite getr_abss, (l_read_abs k (w_fs w) (geti h hs) (isok_get h hs I)).
    pose proof (l_read_ok k (w_fs w) (geti h hs) (isok_get h hs I)) as J.
    destruct (l_read k (w_fs w) (geti h hs)) as [x i]. cbn [fst snd] in *. rewrite setr_abss. apply IH; [now apply isok_set|].
    destruct h; exact D.
  - destruct (z <? 0)%Z; [now apply IH|]. rewrite getr_abss, <- seek_abs, setr_abss. apply IH; [apply isok_set; [exact I|intros _; reflexivity]|].
    destruct h; exact D.
  - rewrite getr_abss, <- fwd_abs, setr_abss. apply IH; [apply isok_set; [exact I|intros _; reflexivity]|]. destruct h; exact D.
  - rewrite getr_abss, <- newrd_abs, setr_abss. apply IH; [apply isok_set; [exact I|intros _; reflexivity]|]. destruct h; exact D.
  - rewrite <- (abss_seto (w_fs w) o (mkO (o_path (h_out hs o)) n [] false) hs). apply IH; [exact I|]. apply dead_set; [|exact D].
    split; [apply D|reflexivity].
  - destruct (dead_flush dev (h_out hs o) w (D o)) as [x [Q DX]]. rewrite Q. rewrite <- (abss_seto (w_fs w) o x hs).
    apply IH; [exact I|]. now apply dead_set.
  - destruct (dead_write dev d (h_out hs o) w (D o)) as [x [Q DX]]. rewrite Q.
    destruct (IH true (seto o x hs) w I (dead_set o x hs DX D)) as [A B]. split; [exact A|]. rewrite B, abss_seto.
    destruct (run (c true) (abss (w_fs w) hs)) as [[r s] W]. reflexivity.
Qed.
Lemma stage_none dev {X} (p : io X) a b w : snd (lstage dev p a b [] w) = w /\
  fst (lstage dev p a b [] w) = fst (exec p (contents (w_fs w) a) (contents (w_fs w) b)).
Proof.
  unfold lstage. destruct (dead_run dev p (fresh a b []) w) as [A B].
  - split; intros _; reflexivity.
  - intros [|k]; split; reflexivity.
  - destruct (lrun dev p (fresh a b []) w) as [[r hs] w']. cbn [fst snd] in *. split; [exact A|]. rewrite B. unfold exec.
    change (abss (w_fs w) (fresh a b [])) with (opened (contents (w_fs w) a), opened (contents (w_fs w) b)).
    destruct (run p (opened (contents (w_fs w) a), opened (contents (w_fs w) b))) as [[r' s] W]. reflexivity.
Qed.
Section Verify.
Context {E : Ext2}.
Variable dev : device.
Variable bs : nat.
Variable v : inv E.
Lemma verify_quiet ip tp w : snd (l_verify dev bs v ip tp w) = w.
Proof. unfold l_verify, lbind, lopen. destruct (w_fs w ip); [|reflexivity]. cbv beta iota zeta. apply stage_none. Qed.
Lemma verify2_quiet ip tp w : snd (l_verify2 dev bs v ip tp w) = w.
Proof. unfold l_verify2, lbind, lopen. destruct (w_fs w ip); [|reflexivity]. destruct (w_fs w tp); [|reflexivity]. apply stage_none. Qed.
Lemma checks_quiet n a w : In n ["p1v"; "p1vt"; "p2v"]%string -> snd (tool dev bs v n a w) = w.
Proof.
  intros [<-|[<-|[<-|[]]]].
  - change (snd (a_p1v dev bs v a w) = w). destruct a as [|x [|y a]]; [reflexivity|apply verify_quiet|reflexivity].
  - change (snd (a_p1vt dev bs v a w) = w). destruct a as [|x [|y [|z a]]]; [reflexivity|reflexivity|apply verify_quiet|reflexivity].
  - change (snd (a_p2v dev bs v a w) = w). destruct a as [|x [|y [|z a]]]; [reflexivity|reflexivity|apply verify2_quiet|reflexivity].
Qed.
Lemma p1v_result ip f F : f ip = Some F ->
  result_of (tool dev bs v "p1v" [ip]) f = fst (exec (verify bs (v_rho v) None) F F).
Proof.
  intros H. change (fst (l_verify dev bs v ip EmptyString (start f)) = fst (exec (verify bs (v_rho v) None) F F)).
  unfold l_verify, lbind, lopen. cbn [start w_fs]. rewrite H. cbv beta iota zeta.
  destruct (stage_none dev (verify bs (v_rho v) None) ip ip (start f)) as [_ Q]. rewrite Q. cbn [start w_fs]. unfold contents. now rewrite H.
Qed.
Lemma p1vt_result ip tp f F G : tp <> EmptyString -> f ip = Some F -> f tp = Some G ->
  result_of (tool dev bs v "p1vt" [ip; tp]) f = fst (exec (verify bs (v_rho v) (Some true)) F G).
Proof.
  intros N H H2. change (fst (l_verify dev bs v ip tp (start f)) = fst (exec (verify bs (v_rho v) (Some true)) F G)).
  unfold l_verify, lbind, lopen. cbn [start w_fs]. rewrite H. cbv beta iota zeta. destruct tp as [|c tp]; [congruence|]. rewrite H2.
  destruct (stage_none dev (verify bs (v_rho v) (Some true)) ip (String c tp) (start f)) as [_ Q]. rewrite Q. cbn [start w_fs]. unfold contents.
  now rewrite H, H2.
Qed.
Lemma p1vt_empty ip : tool dev bs v "p1vt" [ip; EmptyString] = tool dev bs v "p1v" [ip].
Proof. reflexivity. Qed.
Lemma p2v_result ip op f F G : f ip = Some F -> f op = Some G ->
  result_of (tool dev bs v "p2v" [ip; op]) f = fst (exec (verify2 bs (v_rho v)) F G).
Proof.
  intros H H2. change (fst (l_verify2 dev bs v ip op (start f)) = fst (exec (verify2 bs (v_rho v)) F G)).
  unfold l_verify2, lbind, lopen. cbn [start w_fs]. rewrite H, H2.
  destruct (stage_none dev (verify2 bs (v_rho v)) ip op (start f)) as [_ Q]. rewrite Q. cbn [start w_fs]. unfold contents. now rewrite H, H2.
Qed.
(* ---- ExportSol ---- *)
Lemma sol_result s f : match f (vks_path s) with Some b => v_sol v b | None => None end = None ->
  tool dev bs v "sol" [s] (start f) = (Panic, start f).
Proof.
  intros H. change (quiet (l_sol dev v s) (start f) = (Panic, start f)). unfold quiet, lbind, l_sol. cbn [start w_fs]. now rewrite H.
Qed.
Lemma sol_none s f : (f (vks_path s) = None \/ exists b, f (vks_path s) = Some b /\ v_sol v b = None) ->
  tool dev bs v "sol" [s] (start f) = (Panic, start f).
Proof. intros [H|[b [H V]]]; apply sol_result; rewrite H; [reflexivity|exact V]. Qed.
Lemma sol_ok s f b text : f (vks_path s) = Some b -> v_sol v b = Some text ->
  result_of (tool no_limit bs v "sol" [s]) f = Ok [] /\ after (tool no_limit bs v "sol" [s]) f (sol_path s) = Some text.
Proof.
  intros H T. unfold result_of, after.
  change (tool no_limit bs v "sol" [s]) with (quiet (l_sol no_limit v s)). unfold quiet, lbind, l_sol. cbn [start w_fs]. rewrite H, T.
  unfold lbind, lcreate, lstage, write. cbn [lrun fresh h_out nth_error]. unfold h_write. cbn [o_cap o_path]. unfold os_write, no_limit. cbn [takes can_create w_used w_calls w_fs w_ops].
  rewrite Nat.min_id, Nat.eqb_refl, firstn_all. cbn [lrun fst snd lret w_fs].
  split; [reflexivity|]. rewrite fset_same. unfold contents. rewrite fset_same. reflexivity.
Qed.
End Verify.

(* ---- which files change ---- *)
Section Confined.
Local Open Scope lcmd_scope.
Context {E : Ext2}.
Variable dev : device.
Variable bs : nat.
Variable v : inv E.
Lemma lonly_fail ps {X} e : lonly ps (lfail (X := X) e). Proof. apply lonly_skip. reflexivity. Qed.
Lemma lonly_quiet ps c : lonly ps c -> lonly ps (quiet c).
Proof. intros H. unfold quiet. apply lonly_bind; [exact H|intros _; apply lonly_ret]. Qed.
Lemma lonly_int ps s k : (forall z, lonly ps (k z)) -> lonly ps (int_arg s k).
Proof. intros H. unfold int_arg. destruct (atoi s); [apply H|apply lonly_fail]. Qed.
Lemma lonly_sol s : lonly [sol_path s] (l_sol dev v s).
Proof.
  intros w. unfold l_sol. destruct (match w_fs w (vks_path s) with Some b => v_sol v b | None => None end) as [text|].
  - assert (L : lonly [sol_path s] (lcreate dev (sol_path s) ;;; lstage dev (write 0 text) EmptyString EmptyString [sol_path s])).
    { apply lonly_bind; [apply lonly_create; now left|intros _; apply lonly_stage; auto]. }
    destruct (L w) as [ops H]. exists ops.
    destruct ((lcreate dev (sol_path s) ;;; lstage dev (write 0 text) EmptyString EmptyString [sol_path s]) w) as [[x|e|] w']; exact H.
  - exists []. cbn [snd]. rewrite app_nil_r. split; [reflexivity|]. split; [intros q; reflexivity|constructor].
Qed.
Lemma tool_only n a : lonly (outputs n a) (tool dev bs v n a).
Proof.
  unfold tool. destruct (find (fun x => String.eqb (fst x) n) (table dev bs v)) as [[m act]|] eqn:F; [|apply lonly_fail].
  apply find_some in F as [I Q]. cbn [fst] in Q. apply String.eqb_eq in Q. subst m.
  cbn [table In] in I.
  destruct I as [I|[I|[I|[I|[I|[I|[I|[I|[I|[I|[I|[I|[]]]]]]]]]]]]]; injection I as <- <-.
  - destruct a as [|x [|o [|? ?]]]; try apply lonly_fail. apply lonly_int. intros z. destruct (z >? 26)%Z; [apply lonly_fail|].
    apply lonly_quiet, only_initialize.
  - destruct a as [|x [|o [|? ?]]]; try apply lonly_fail. apply lonly_bind; [exact (only_one dev (contribute bs (v_w v)) x o)|intros h; apply lonly_ret].
  - destruct a as [|x [|? ?]]; try apply lonly_fail. apply lonly_skip. intros w. apply verify_quiet.
  - destruct a as [|x [|o [|s [|t [|? ?]]]]]; try apply lonly_fail. apply lonly_int. intros i. apply lonly_int. intros j.
    destruct (i <? j)%Z; [apply lonly_fail|]. apply lonly_quiet. exact (only_one dev (transform (E := E) (to_byte i) (to_byte j)) x o).
  - destruct a as [|x [|o [|? ?]]]; try apply lonly_fail. apply lonly_skip. intros w. apply verify_quiet.
  - destruct a as [|x [|r [|o [|? ?]]]]; try apply lonly_fail. apply lonly_quiet. exact (only_p2n dev x r o).
  - destruct a as [|x [|r [|o [|s [|t [|u [|? ?]]]]]]]; try apply lonly_fail. do 3 (apply lonly_int; intros ?). apply lonly_quiet. apply only_p2np.
  - destruct a as [|x [|o [|? ?]]]; try apply lonly_fail. apply lonly_bind; [exact (only_one dev (contribute2 bs (v_d v) (v_s v)) x o)|intros h; apply lonly_ret].
  - destruct a as [|x [|o [|? ?]]]; try apply lonly_fail. apply lonly_skip. intros w. apply verify2_quiet.
  - destruct a as [|x [|? ?]]; try apply lonly_fail. apply lonly_quiet, only_keys.
  - destruct a as [|x [|o [|? ?]]]; try apply lonly_fail. apply lonly_quiet. exact (only_split_keys dev wrap64 (v_g v) (v_sg v) x o).
  - destruct a as [|x [|? ?]]; try apply lonly_fail. apply lonly_quiet, lonly_sol.
Qed.
Lemma tool_confined n a : confined (outputs n a) (tool dev bs v n a).
Proof. apply confine, tool_only. Qed.
End Confined.
