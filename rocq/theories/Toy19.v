(* Toy19.v -- outputs with offsets, for Prop29.v. *)
From Coq Require Import String.
From Verif Require Import Base Fld IO Ext Spec1 Phase1 Phase1Trans Gob Circuit Spec2 Fs Live Spec5 Spec6 Cli Session Spec10 Toy2 Toy3 Toy4 Toy6 Toy7 Toy12 Proc Spec11 Toy13 Spec24 Off.

(* where a file shows its tau in G1 and in G2 *)
Lemma firstn_front {X} (a b : list X) n : n = length a -> firstn n (a ++ b) = a.
Proof. intros ->. rewrite firstn_app, firstn_all, Nat.sub_diag. cbn. apply app_nil_r. Qed.
Lemma enc1_seq {E : Ext} (g : nat -> E) n : length (enc1 (map g (seq 0 n))) = 32 * n.
Proof.
  rewrite <- (seq_length n 0) at 2. rewrite <- (map_length g). generalize (map g (seq 0 n)). intros r. induction r as [|x r IH]; [reflexivity|].
  cbn [enc1 flat_map]. change (flat_map g1c r) with (enc1 r). rewrite app_length, g1c_len, IH. cbn [length]. lia.
Qed.
Lemma shown {E : Ext} p (t a b : E) l : 1 <= p -> let F := file1 p (srs_of p t a b) l in
  firstn 32 (skipn 35 F) = g1c t /\ firstn 64 (skipn (3 + 32 * (2 * 2 ^ p - 1) + 32 * 2 ^ p + 32 * 2 ^ p + 64) F) = g2c t.
Proof.
  intros P F. unfold F, file1, srs_bytes, srs_of. cbn [tau1 alpha1 beta1 tau2 beta2].
  assert (Q : exists m, 2 ^ p = S (S m)) by (destruct p; [lia|]; cbn; pose proof (Nat.pow_nonzero 2 p); exists (2 * 2 ^ p - 2); lia).
  destruct Q as [m Q]. rewrite Q.
  assert (H3 : length (hdr1 p (length l)) = 3) by reflexivity.
  split.
  - match goal with |- context [enc1 ?x ++ ?y] => set (rest := y) end. replace (2 * S (S m) - 1) with (S (S (2 * m + 1))) by lia.
    assert (K : exists more, enc1 (map (fun i => (t ^ i)%F) (seq 0 (S (S (2 * m + 1))))) = g1c (1%F : E) ++ g1c t ++ more).
    { eexists. cbn [seq map enc1 flat_map]. rewrite fpow_0, fpow_1. reflexivity. }
    destruct K as [more ->]. rewrite <- !app_assoc. rewrite (app_assoc (hdr1 p (length l))). rewrite skipn_len by (rewrite app_length, g1c_len, H3; reflexivity).
    apply firstn_front. symmetry. apply g1c_len.
  - assert (K : exists more, enc2 (map (fun i => (t ^ i)%F) (seq 0 (S (S m)))) = g2c (1%F : E) ++ g2c t ++ more).
    { eexists. cbn [seq map enc2 flat_map]. rewrite fpow_0, fpow_1. reflexivity. }
    destruct K as [more ->]. set (x := enc1 _). set (y := enc1 _). set (z := enc1 _).
    assert (Lx : length x = 32 * (2 * S (S m) - 1)) by apply enc1_seq. assert (Ly : length y = 32 * S (S m)) by apply enc1_seq. assert (Lz : length z = 32 * S (S m)) by apply enc1_seq.
    rewrite <- !app_assoc. rewrite (app_assoc (hdr1 _ _)), (app_assoc (_ ++ x)), (app_assoc ((_ ++ x) ++ y)), (app_assoc (((_ ++ x) ++ y) ++ z)).
    rewrite skipn_len by (rewrite !app_length, Lx, Ly, Lz, g2c_len, H3; reflexivity). apply firstn_front. symmetry. apply g2c_len.
Qed.

(* two contributions to the same file q under the same name c: the second one starts when the first has written 4096
   bytes, and the first goes on when the second has finished *)
Definition qf : fs := snd (session no_limit 2 [mkLine i0 "p1n" ["5"; "q"]]%string (fun _ => None)).
Definition rivals : list (proc (res (list bytes) * (loc * (nat -> nat)))) :=
  [flaunch no_limit 2 (mkLine (inv_of 1 5 2 1 1) "p1c" ["q"; "c"]); flaunch no_limit 2 (mkLine (inv_of 3 1 12 1 1) "p1c" ["q"; "c"])]%string.
Definition turns2 : list nat := repeat 0 300 ++ repeat 1 400 ++ repeat 0 100.
Definition mixed : bytes := contents (snd (together turns2 rivals qf)) "c"%string.
Lemma mixed_is : snd (together turns2 rivals qf) "c"%string = Some mixed. Proof. vm_compute. reflexivity. Qed.
Lemma mixed_shows : firstn 32 (skipn 35 mixed) = g1c (u 3) /\ firstn 64 (skipn 4131 mixed) = g2c (u 1).
Proof. vm_compute. split; reflexivity. Qed.
Lemma no_trapdoor F : firstn 32 (skipn 35 F) = g1c (u 3) -> firstn 64 (skipn 4131 F) = g2c (u 1) ->
  forall (t a b : Toy2) l, Some F <> Some (file1 5 (srs_of 5 t a b) l).
Proof.
  intros M1 M2 t a b l H. destruct (shown 5 t a b l) as [S1 S2]; [lia|].
  apply (f_equal (fun o => match o with Some x => x | None => F end)) in H. rewrite <- H in S1, S2.
  change (3 + 32 * (2 * 2 ^ 5 - 1) + 32 * 2 ^ 5 + 32 * 2 ^ 5 + 64) with 4131 in S2. rewrite M1 in S1. rewrite M2 in S2.
  apply g1c_inj in S1. apply g2c_inj in S2. rewrite <- S2 in S1. discriminate S1.
Qed.
Definition one {A} (r : res (list A)) : bool := match r with Ok [_] => true | _ => false end.
Lemma one_ok {A} (r : res (list A)) : one r = true -> exists h, r = Ok [h].
Proof. destruct r as [[|h [|? ?]]|e|]; try discriminate. intros _. now exists h. Qed.
Definition one_each {X L} (ps : list (proc (res (list X) * L))) : bool :=
  match map ending ps with [Some r; Some r'] => one r && one r' | _ => false end.
Lemma one_each_ok {X L} (ps : list (proc (res (list X) * L))) : one_each ps = true -> exists h h', map ending ps = [Some (Ok [h]); Some (Ok [h'])].
Proof.
  unfold one_each. destruct (map ending ps) as [|[r|] [|[r'|] [|? ?]]]; try discriminate. intros H. apply andb_prop in H as [H1 H2].
  destruct (one_ok r H1) as [h ->]. destruct (one_ok r' H2) as [h' ->]. now exists h, h'.
Qed.
Lemma rivals_accepted : exists (E : Ext2) bs (v v' w : inv E) sch,
  let f := snd (session no_limit bs [mkLine w "p1n" ["5"; "q"]]%string (fun _ => None)) in
  let run := together sch [flaunch no_limit bs (mkLine v "p1c" ["q"; "c"]); flaunch no_limit bs (mkLine v' "p1c" ["q"; "c"])]%string f in
  (exists h h', map ending (fst run) = [Some (Ok [h]); Some (Ok [h'])]) /\
  (exists h, result_of (tool no_limit bs w "p1v" ["c"]%string) (snd run) = Ok [h]) /\
  forall (t a b : E) l, snd run "c"%string <> Some (file1 5 (srs_of 5 t a b) l).
Proof.
  exists Toy2, 2%nat, (inv_of 1 5 2 1 1), (inv_of 3 1 12 1 1), i0, turns2. cbv zeta. fold qf. fold rivals.
  split; [apply one_each_ok; vm_compute; reflexivity|]. split; [apply one_ok; vm_compute; reflexivity|].
  intros t a b l. rewrite mixed_is. destruct mixed_shows as [M1 M2]. exact (no_trapdoor mixed M1 M2 t a b l).
Qed.
Definition bad {A} (r : res A) : bool := match r with Ok _ => false | _ => true end.
(* p2n writes its phase-2 file and evals into one file *)
Lemma folded_lost : exists (E : Ext2) bs (v : inv E) f,
  let real := solo (flaunch no_limit bs (mkLine v "p2n" ["p1b"; "r1cs"; "evals"]%string)) f in
  fst (fst real) = Ok [] /\
  (forall q, In q [mkLine v "p2c" ["evals"; "n"]; mkLine v "p2v" ["evals"; "evals"]; mkLine v "key" ["evals"]]%string -> ~ succeeded (fst (session no_limit bs [q] (snd real)))) /\
  succeeded (fst (session no_limit bs [mkLine v "p2n" ["p1b"; "r1cs"; "p2"]; mkLine v "p2c" ["p2"; "n"]; mkLine v "p2v" ["n"; "p2"]; mkLine v "key" ["n"]]%string f)).
Proof.
  exists Toy2, 2%nat, i0, cf. cbv zeta. split; [vm_compute; reflexivity|]. split; [|apply sizes_succeeded; vm_compute; reflexivity].
  intros q Q S.
  assert (B : forallb bad (fst (session no_limit 2 [q] (snd (solo (flaunch no_limit 2 (mkLine i0 "p2n" ["p1b"; "r1cs"; "evals"]%string)) cf)))) = true).
  { destruct Q as [<-|[<-|[<-|[]]]]; vm_compute; reflexivity. }
  rewrite forallb_forall in B. cbn [session] in B, S. destruct (tool no_limit 2 (l_inv q) (l_name q) (l_args q) _) as [r w]. cbn [fst] in *.
  specialize (B r (or_introl eq_refl)). destruct (S r (or_introl eq_refl)) as [x X]. rewrite X in B. discriminate B.
Qed.
