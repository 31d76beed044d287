(* Parted.v -- p2np with fewer constraints than the circuit has: the keys of the shortened circuit. *)
From Coq Require Import String.
From Verif Require Import Base Fld IO Ext Spec1 Phase1 Phase1Io Phase1Verify Phase1Facts Gob GobLemmas Circuit Spec2 Phase2 Phase2Lemmas Phase2Claims Phase2More Fs Spec3 Init2 Init2Pure Init2More Spec4 Keys KeysClaims Groth KeysProps Spec14.
Local Open Scope fld_scope.

Section Parted.
Context {E : Ext2}.
(* the same world, in which every file holds this circuit: p2np does not read one *)
Definition always (cs : r1cs E) : Ext2 :=
  mkExt2 E (@gob_alt E) (gob_alt_reads E) (kmax E) (kmax_lt E) (@root E) (root_ok E) (char_ok E) (fun _ => Some cs) (@cmt_bytes E) (@dom_bytes E) (@ped E).
Lemma p2np_always (cs cs' : r1cs E) p1 p2 nb f : p2np (E := always cs') cs p1 p2 nb f = p2np (E := E) cs p1 p2 nb f.
Proof. reflexivity. Qed.

Lemma parted_keys p T A B (cs : r1cs E) m f p1 p2 bs (ws : list (E * E)) : parted_input p T A B cs m f p1 p2 ->
  1 <= bs -> (Z.of_nat (length ws) < 9223372036854775808)%Z -> ws <> [] -> (forall w, In w ws -> fst w <> 0) ->
  exists fa k h (q0 : par2 E), p2np (E := E) cs p1 p2 (Z.of_nat m) f = (Ok tt, fa) /\ fa p2 = Some (file2 h q0 []) /\
    is_dom m k /\
    ((forall j, (1 <= j <= length ws)%nat -> unsplit (set_contribs h (Z.of_nat j)) q0 j) ->
     exists F hs, ceremony2 (E := E) bs (file2 h q0 []) ws = Ok (F, hs) /\
     (forall bs' (rho : nat -> nat -> nat -> E), 1 <= bs' -> exec (verify2 bs' rho) F (file2 h q0 []) = (Ok hs, [])) /\
     forall g sg pz, pz <> pk_path -> pz <> vk_path -> pz <> evals_path ->
     exists fb (q : pkey E) (v : vkey E), extract_keys wrap64 g sg pz (fset fa pz F) = (Ok tt, fb) /\
       fb pk_path = Some (pk_bytes k (N.of_nat (wires cs)) q) /\
       fb vk_path = Some (vk_bytes (ped (e := E) g sg []) (empty_info (E := E)) v) /\
       is_keypair (trunc m cs) k (root k) A B (prodf ws) T q v /\
       forall x, (forall c, In c (firstn m (r_cons cs)) -> lin cs x (r_L c) * lin cs x (r_R c) = lin cs x (r_O c)) ->
       exists hq, forall r s ar bs krs, proves q cs k x hq r s ar bs krs -> accepts v cs x ar bs krs).
Proof.
  intros [[N1 [N2 [N3 [N4 N5]]]] [HP [[c0 [c1 [tail F1]]] [CO [NC [HW [M1 [M2 [M3 [K1 M4]]]]]]]]]] HB HL WN WZ.
  assert (LT : length (r_cons (trunc m cs)) = m) by (cbn; rewrite firstn_length; lia).
  assert (HI : init_input (E := always (trunc m cs)) p (srs_of p T A B) (trunc m cs) f p1 p1 p2).
  { split; [repeat split; assumption|]. split; [exact HP|]. split; [apply srs_of_sized|]. split; [exists c0, c1, tail; exact F1|].
    split; [eexists; split; [exact F1|reflexivity]|]. split.
    { intros c Hc t Ht. refine (CO c _ t Ht). cbn in Hc. rewrite <- (firstn_skipn m (r_cons cs)). apply in_or_app. now left. }
    unfold trunc. cbn [r_cons]. rewrite firstn_length, Nat.min_l by exact M1. repeat split; assumption. }
  pose proof (p2np_trunc (E := always (trunc m cs)) cs m p1 p1 p2 f _ M1 N1 N2 N3 F1 eq_refl) as P. rewrite p2np_always in P.
  destruct (c46x (E := always (trunc m cs)) p T A B (trunc m cs) f p1 p1 p2 bs ws HI NC HW HB HL) as [fa [k [h [q0 [H1 [H2 [H3 [H4 H5]]]]]]]].
  exists fa, k, h, q0. split; [now rewrite P|]. split; [exact H2|]. split; [rewrite <- LT; exact H3|].
  intros U. destruct (H5 U) as [F [hs [C1 [[O [CZ SZ]] C2]]]]. exists F, hs. split; [exact C1|]. split.
  - assert (I2 : is_file2 (file2 h q0 []) h q0 []).
    { rewrite <- (app_nil_r (file2 h q0 [])). apply file2_is; [exact SZ|exact CZ|intros c []|intros i Hi; inversion Hi]. }
    destruct (c37 bs (file2 h q0 []) h q0 ws HB O CZ I2 HL WN U WZ) as [F' [hs' [C1' [_ [_ V]]]]].
    assert (Q : Ok (F, hs) = Ok (F', hs')) by (transitivity (ceremony2 (E := E) bs (file2 h q0 []) ws); [symmetry; exact C1|exact C1']).
    injection Q as -> ->. exact V.
  - intros g sg pz Z1 Z2 Z3. destruct (C2 g sg pz Z1 Z2 Z3) as [fb [q [v [D1 [D2 [D3 D4]]]]]]. exists fb, q, v.
    split; [exact D1|]. split; [exact D2|]. split; [exact D3|]. split; [exact D4|]. intros x SAT.
    assert (D0 : prodf ws <> 0) by (apply prodf_nz; exact WZ).
    destruct (c47_spec (E := E) k (trunc m cs) A B (prodf ws) T q v x H4 (proj1 (proj2 H3)) D0 D4) as [Q1 Q2].
    destruct (proj1 Q1 SAT) as [hq HQ]. exists hq. intros r s ar bs0 krs PR. exact (Q2 hq r s ar bs0 krs HQ PR).
Qed.
End Parted.
