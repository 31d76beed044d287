(* Hiding.v -- the proofs made with a key pair are spread evenly over all accepted proofs. *)
From Coq Require Import Ring Field String.
From Verif Require Import Base Fld Poly BitRev IO Ext Spec1 Phase1 Phase1Io Phase1Verify Gob GobLemmas Circuit Spec2 Phase2 Phase2Io Phase2Lemmas Phase2Claims Phase2More Phase2Bad Spec3 Fs Init2 Init2Claims Init2More Spec4 Groth Keys KeysLemmas KeysClaims Sound2.
Local Open Scope fld_scope.

Section Hiding.
Context {E : Ext2}.
Add Field Khid : (f_th E).
Variables (k : nat) (cs : r1cs E) (alpha beta delta tau : E) (q : pkey E) (v : vkey E).
Hypotheses (Hk : 1 <= k <= kmax E) (fits : (length (r_cons cs) <= 2 ^ k)%nat) (D : delta <> 0) (KP : is_keypair cs k (root k) alpha beta delta tau q v).
Lemma keys_delta : q_delta q = delta /\ q_delta2 q = delta /\ w_delta2 v = delta.
Proof. destruct KP as [t [_ [_ [_ [Q3 [_ [Q5 [_ [_ [_ [_ [_ [_ [_ [_ [_ [_ [W5 _]]]]]]]]]]]]]]]]]]. auto. Qed.
Lemma accepts_c x ar bs krs krs' : accepts v cs x ar bs krs -> accepts v cs x ar bs krs' -> krs = krs'.
Proof.
  destruct keys_delta as [_ [_ W5]]. unfold accepts. rewrite W5. intros H H'. apply (fmul_cancel_l _ delta); [exact D|].
  match type of H with _ = ?a + ?b + _ => transitivity (ar * bs - (a + b)); [rewrite H; ring|rewrite H'; ring] end.
Qed.
Lemma one_c x ar bs : exists! krs, accepts v cs x ar bs krs.
Proof.
  destruct keys_delta as [_ [_ W5]].
  exists ((ar * bs - (w_alpha v * w_beta2 v + sumn (nb_public cs) (fun i => x i * nth i (w_K v) 0) * 1)) / delta). split.
  - unfold accepts. rewrite W5. field. exact D.
  - intros c H. apply (accepts_c x ar bs); [|exact H]. unfold accepts. rewrite W5. field. exact D.
Qed.
Lemma has_dotz h : exists s, dotz k h (q_Z q) s.
Proof. eexists. exists (brev k). split; [intros i Hi; apply mirrors_brev; exact Hi|reflexivity]. Qed.
(* the randomness that gives a certain Ar, Bs *)
Lemma proves_at x h ar bs : exists r s krs, proves q cs k x h r s ar bs krs.
Proof.
  destruct keys_delta as [Q3 [Q5 _]]. destruct (has_dotz h) as [hz Z].
  exists ((ar - q_alpha q - sumn (wires cs) (fun i => x i * nth i (q_A q) 0)) / delta), ((bs - q_beta2 q - sumn (wires cs) (fun i => x i * nth i (q_B2 q) 0)) / delta).
  eexists. exists hz. split; [exact Z|]. rewrite Q3, Q5. split; [field; exact D|]. split; [field; exact D|]. reflexivity.
Qed.
Lemma proves_unique x h ar bs krs r s krs' r' s' : proves q cs k x h r s ar bs krs -> proves q cs k x h r' s' ar bs krs' -> r = r' /\ s = s'.
Proof.
  destruct keys_delta as [Q3 [Q5 _]]. intros [z [_ [A1 [B1 _]]]] [z' [_ [A2 [B2 _]]]]. rewrite Q3 in A1, A2. rewrite Q5 in B1, B2.
  split; (apply (fmul_cancel_l _ delta); [exact D|]).
  - match type of A1 with _ = ?a + _ => transitivity (ar - a); [rewrite A1; ring|rewrite A2; ring] end.
  - match type of B1 with _ = ?a + _ => transitivity (bs - a); [rewrite B1; ring|rewrite B2; ring] end.
Qed.
Lemma even x h ar bs krs : quotient cs x (2 ^ k) (root k) h ->
  (accepts v cs x ar bs krs <-> exists r s, proves q cs k x h r s ar bs krs) /\
  forall r s r' s', proves q cs k x h r s ar bs krs -> proves q cs k x h r' s' ar bs krs -> r = r' /\ s = s'.
Proof.
  intros HQ. destruct (root_conds k Hk) as [R1 R2].
  assert (C : forall r s krs, proves q cs k x h r s ar bs krs -> accepts v cs x ar bs krs).
  { intros r s c P. exact (complete k (root k) (proj1 Hk) R1 R2 cs x fits alpha beta delta tau q v h r s ar bs c D KP HQ P). }
  split; [split|].
  - intros H. destruct (proves_at x h ar bs) as [r [s [c P]]]. exists r, s. replace krs with c; [exact P|]. exact (accepts_c x ar bs c krs (C _ _ _ P) H).
  - intros [r [s P]]. exact (C _ _ _ P).
  - intros r s r' s' P P'. exact (proves_unique x h ar bs krs r s krs r' s' P P').
Qed.
Lemma uniform x : satisfies cs x -> (exists h, quotient cs x (2 ^ k) (root k) h) /\ (forall ar bs, exists! krs, accepts v cs x ar bs krs) /\
  forall h, quotient cs x (2 ^ k) (root k) h -> forall ar bs krs,
    (accepts v cs x ar bs krs <-> exists r s, proves q cs k x h r s ar bs krs) /\
    forall r s r' s', proves q cs k x h r s ar bs krs -> proves q cs k x h r' s' ar bs krs -> r = r' /\ s = s'.
Proof.
  intros X. destruct (root_conds k Hk) as [R1 R2]. split.
  - exact (quotient_ex k (root k) (proj1 Hk) R1 R2 cs x fits X).
  - split; [intros ar bs; apply one_c|]. intros h Hq ar bs krs. now apply even.
Qed.
Lemma accepts_public x y ar bs krs : (forall i, (i < nb_public cs)%nat -> x i = y i) -> accepts v cs x ar bs krs -> accepts v cs y ar bs krs.
Proof. intros H. unfold accepts. intros ->. do 3 f_equal. apply sumn_ext. intros i Hi. now rewrite H. Qed.
Lemma same_proofs x y h h' : (forall i, (i < nb_public cs)%nat -> x i = y i) -> quotient cs x (2 ^ k) (root k) h -> quotient cs y (2 ^ k) (root k) h' ->
  forall r s ar bs krs, proves q cs k x h r s ar bs krs ->
  exists r' s', proves q cs k y h' r' s' ar bs krs /\ forall r'' s'', proves q cs k y h' r'' s'' ar bs krs -> r'' = r' /\ s'' = s'.
Proof.
  intros XY HQ HQ' r s ar bs krs P. destruct (even x h ar bs krs HQ) as [[_ A1] _]. destruct (even y h' ar bs krs HQ') as [[A2 _] U].
  destruct (A2 (accepts_public x y ar bs krs XY (A1 (ex_intro _ r (ex_intro _ s P))))) as [r' [s' P']]. exists r', s'. split; [exact P'|].
  intros r'' s'' P''. exact (U _ _ _ _ P'' P').
Qed.
End Hiding.

Section Accepted.
Context {E : Ext2}.
(* the keys that come of any phase-2 file p2v has accepted *)
Lemma accepted_even p T A Bt (cs : r1cs E) f p1 r1 p2 k :
  init_input p (srs_of p T A Bt) cs f p1 r1 p2 -> no_cmt cs -> (N.of_nat (wires cs) < 4294967296)%N ->
  is_dom (length (r_cons cs)) k -> T ^ (2 ^ k) <> 1 ->
  exists fa F0 G, p2n (E := E) p1 r1 p2 f = (Ok tt, fa) /\ fa p2 = Some F0 /\ fa evals_path = Some G /\
  forall bs (rho : nat -> nat -> nat -> E) F hs g sg pz f1 f2, 1 <= bs -> fst (exec (verify2 bs rho) F F0) = Ok hs ->
    pz <> pk_path -> pz <> vk_path -> f1 pz = Some F -> f1 evals_path = Some G -> extract_keys wrap64 g sg pz f1 = (Ok tt, f2) ->
    (exists sec i j, forall x hs', fst (exec (verify2 bs (put3 rho sec i j x)) F F0) = Ok hs' -> x = rho sec i j) \/
    exists (q : pkey E) (v : vkey E),
      f2 pk_path = Some (pk_bytes k (N.of_nat (wires cs)) q) /\
      f2 vk_path = Some (vk_bytes (ped (e := E) g sg []) (empty_info (E := E)) v) /\
      forall x h, quotient cs x (2 ^ k) (root k) h -> forall ar bs krs,
        (accepts v cs x ar bs krs <-> exists r s, proves q cs k x h r s ar bs krs) /\
        forall r s r' s', proves q cs k x h r s ar bs krs -> proves q cs k x h r' s' ar bs krs -> r = r' /\ s = s'.
Proof.
  intros HI NC HW KD TN. destruct (accepted_keys p T A Bt cs f p1 r1 p2 k HI NC HW KD TN) as [fa [F0 [G [H1 [H2 [H3 H]]]]]].
  exists fa, F0, G. split; [exact H1|]. split; [exact H2|]. split; [exact H3|].
  intros bs rho F hs g sg pz f1 f2 B V N1 N2 HF HG X. destruct (H bs rho F hs g sg pz f1 f2 B V N1 N2 HF HG X) as [C|[Dd [q [v [DN [P1 [P2 KP]]]]]]]; [left; exact C|right].
  exists q, v. split; [exact P1|]. split; [exact P2|]. intros x h HQ ar bs' krs.
  assert (Hk : 1 <= k <= kmax E).
  { destruct KD as [K1 [K2 K3]]. split; [exact K1|]. pose proof HI as [_ [_ [_ [_ [_ [_ [_ [_ [M1 M2]]]]]]]]]. now apply K3. }
  exact (even k cs A Bt Dd T q v Hk (proj1 (proj2 KD)) DN KP x h ar bs' krs HQ).
Qed.
End Accepted.
