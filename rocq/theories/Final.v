(* Final.v -- the last hash that p2v shows determines the keys. *)
From Coq Require Import Ring Field String.
From Verif Require Import Base Fld Poly BitRev IO Ext Spec1 Phase1 Phase1Verify Gob GobLemmas Circuit Spec2 Phase2 Phase2Lemmas Phase2Claims Phase2More Phase2Bad Spec3 Fs Init2 Init2More Spec4 Keys KeysClaims KeysProps Sound2 Generic Spec18 Spec25 Spec26 Attest Origin2 Binds.
Local Open Scope fld_scope.

Section Final.
Context {E : Ext2}.
Lemma final_keys p T A Bt (cs : r1cs E) f p1 r1 p2 k :
  init_input p (srs_of p T A Bt) cs f p1 r1 p2 -> no_cmt cs -> (N.of_nat (wires cs) < 4294967296)%N ->
  is_dom (length (r_cons cs)) k -> T ^ (2 ^ k) <> 1 ->
  exists fa F0 G, p2n (E := E) p1 r1 p2 f = (Ok tt, fa) /\ fa p2 = Some F0 /\ fa evals_path = Some G /\
  forall bs bs' (rho rho' : nat -> nat -> nat -> E) F F' h h' (qF qF' : par2 E) l l' hs hs' g sg g' sg' pz pz' f1 f1' f2 f2',
    1 <= bs -> hdr_ok h -> is_file2 F h qF l -> fst (exec (verify2 bs rho) F F0) = Ok hs ->
    1 <= bs' -> hdr_ok h' -> is_file2 F' h' qF' l' -> fst (exec (verify2 bs' rho') F' F0) = Ok hs' ->
    (forall c, In c l' -> kS (d_key c) <> 0 /\ kSX (d_key c) <> 0) -> last hs [] = last hs' [] ->
    pz <> pk_path -> pz <> vk_path -> f1 pz = Some F -> f1 evals_path = Some G -> extract_keys wrap64 g sg pz f1 = (Ok tt, f2) ->
    pz' <> pk_path -> pz' <> vk_path -> f1' pz' = Some F' -> f1' evals_path = Some G -> extract_keys wrap64 g' sg' pz' f1' = (Ok tt, f2') ->
    by_chance bs rho F F0 \/ by_chance bs' rho' F' F0 \/ (exists a b, clash2 l l' a b) \/
    (f2 pk_path = f2' pk_path /\ exists v : vkey E,
      f2 vk_path = Some (vk_bytes (ped (e := E) g sg []) (empty_info (E := E)) v) /\
      f2' vk_path = Some (vk_bytes (ped (e := E) g' sg' []) (empty_info (E := E)) v)).
Proof.
  intros HI Hnc HW KD TN. destruct (attested_core p T A Bt cs f p1 r1 p2 k HI Hnc HW KD TN) as [fa [F0 [G [H1 [H2 [H3 H4]]]]]].
  exists fa, F0, G. split; [exact H1|]. split; [exact H2|]. split; [exact H3|].
  intros bs bs' rho rho' F F' h h' qF qF' l l' hs hs' g sg g' sg' pz pz' f1 f1' f2 f2' B HO IF V B' HO' IF' V' L Q N1 N2 HF HG X N1' N2' HF' HG' X'.
  destruct (H4 bs rho F hs g sg pz f1 f2 B V N1 N2 HF HG X) as [C|[h1 [h0 [q0 [D [D2 [q [v [P1 [P2 [O1 [D0 [K1 [K2 [K3 _]]]]]]]]]]]]]]]; [left; exact C|right].
  destruct (H4 bs' rho' F' hs' g' sg' pz' f1' f2' B' V' N1' N2' HF' HG' X') as [C|[h1' [h0' [q0' [D' [D2' [q' [v' [P1' [P2' [O1' [D0' [K1' [K2' [K3' _]]]]]]]]]]]]]]]; [left; exact C|right].
  destruct (records2 bs rho F F0 h qF l hs h0 q0 B HO IF P2 V) as [CE [LD Hhs]].
  destruct (records2 bs' rho' F' F0 h' qF' l' hs' h0' q0' B' HO' IF' P2' V') as [CE' [LD' Hhs']].
  rewrite (opens_prefix false F F0 h qF (opens_file false _ _ _ (is_file_ph2 _ _ _ _ HO IF))) in P1. injection P1 as <- <- <-.
  rewrite (opens_prefix false F' F0 h' qF' (opens_file false _ _ _ (is_file_ph2 _ _ _ _ HO' IF'))) in P1'. injection P1' as <- <- <-.
  destruct (binds d_hash good2 alive2 sha_clash (fun c => point_clash (d_key c)) good2_same good2_point good2_full l l'
    (chain2_chained _ _ CE) (chain2_chained _ _ CE') L ltac:(congruence)) as [<-|[a [b [c [c' [Ha [Hb Y]]]]]]].
  2:{ left. exists a, b, c, c'. auto. }
  right. assert (DD : p_d1 qF' = p_d1 qF) by congruence. rewrite DD in K3'.
  destruct (keypair_unique k cs A Bt (p_d1 qF) T q v q' v') as [<- <-]; [|exact K3|exact K3'|].
  { destruct (init_dom _ _ _ _ _ _ _ HI) as [k' [KD' [_ [KM _]]]].
    assert (k' = k) by (destruct KD as [J1 [J2 J3]], KD' as [I1 [I2 I3]]; specialize (J3 k' I1 I2); specialize (I3 k J1 J2); lia). subst k'.
    destruct KD as [J1 _]. split; [exact J1|exact KM]. }
  split; [congruence|]. exists v. auto.
Qed.
End Final.
