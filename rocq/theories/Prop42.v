(* Prop42.v -- property C103: what p2np accepts, with any number of constraints in the command line, and what it writes.
   uses: Spec32.v; cmt_written, servable: Spec33.v; trunc, circuit_ok, is_dom, lag_basis, is_z, cols, Lsum: Spec3.v. *)
From Coq Require Import String Sorted.
From Verif Require Import Base Fld IO Ext Toy Spec1 Phase1 Circuit Gob Spec2 Fs Spec3 Init2 Init2Pure Toy2 Toy3 Toy21 Toy22 Spec21 Spec32 Spec33 ParIff.
Local Open Scope fld_scope.

(* nb is any number: the first nb constraints have to be well-formed and to fit, the others are not looked at *)
Theorem C103_p2np : forall (E : Ext2) p k rest (cs : r1cs E) nb f p1 p2,
  p1 <> p2 -> p1 <> lag_path -> p1 <> evals_path -> p2 <> lag_path -> p2 <> evals_path -> p <= 54 -> f p1 = Some (b8 (N.of_nat p) :: rest) -> cmt_written cs ->
  is_dom (Z.to_nat nb) k ->
  ((exists f', p2np (E := E) cs p1 p2 nb f = (Ok tt, f')) <->
   (nb <= Z.of_nat (length (r_cons cs)))%Z /\ circuit_ok (trunc (Z.to_nat nb) cs) /\ servable cs /\
   (nb <= 2 ^ Z.of_nat p)%Z /\ k <= kmax E /\ k <= 27 /\ exists S0 : srs E, uses p k (b8 (N.of_nat p) :: rest) S0).
Proof. exact @par_iff. Qed.
Print Assumptions C103_p2np.

(* the files are those of the shortened circuit *)
Theorem C103_writes : forall (E : Ext2) p k (S0 : srs E) (cs : r1cs E) m f p1 p2 rest,
  p1 <> p2 -> p1 <> lag_path -> p1 <> evals_path -> p2 <> lag_path -> p2 <> evals_path -> p <= 54 ->
  f p1 = Some (b8 (N.of_nat p) :: rest) -> m <= length (r_cons cs) -> circuit_ok (trunc m cs) -> no_cmt cs ->
  m <= 2 ^ p -> is_dom m k -> k <= kmax E -> k <= 27 -> uses p k (b8 (N.of_nat p) :: rest) S0 ->
  exists f' t a b t2 z, let c := trunc m cs in
    p2np (E := E) cs p1 p2 (Z.of_nat m) f = (Ok tt, f') /\ only3 p2 f f' /\
    lag_basis (2 ^ k) (root k) (firstn (2 ^ k) (tau1 S0)) t /\ lag_basis (2 ^ k) (root k) (alpha1 S0) a /\
    lag_basis (2 ^ k) (root k) (beta1 S0) b /\ lag_basis (2 ^ k) (root k) (tau2 S0) t2 /\ is_z k (tau1 S0) z /\
    f' lag_path = Some (lag_bytes t a b t2) /\
    f' evals_path = Some (evals_bytes (mkEvals (nth 0 (alpha1 S0) 0) (nth 0 (beta1 S0) 0) (beta2 S0)
      (cols c r_L t) (cols c r_R t) (cols c r_R t2) (firstn (nb_public c) (Lsum c t a b)) [] (cmt_bytes (e := E) (r_cmt c)))) /\
    f' p2 = Some (file2 (hdr_of c k) (mkPar2 1 1 z (skipn (nb_public c) (Lsum c t a b))) []).
Proof. exact @par_writes. Qed.
Print Assumptions C103_writes.

(* three constraints: every number up to 3 is accepted.  With a point spoilt that only a domain of four needs, 3 is refused;
   with a wire that does not exist in the third constraint likewise *)
Example C103_case : let run c g nb := is_ok (fst (p2np (E := Toy2) c p1n p2n' nb g)) in let l := [-5; 0; 1; 2; 3; 4]%Z in
  cmt_written (tcs 0) /\ cmt_written stray /\ servable stray /\ no_cmt stray /\ circuit_ok (trunc 2 stray) /\ ~ circuit_ok (trunc 3 stray) /\ is_dom 2 1 /\ is_dom 3 2 /\
  length (r_cons (tcs 0)) = 3%nat /\
  map (run (tcs 0) (tfs 0)) l = [true; true; true; true; true; false] /\
  map (run (tcs 0) (sfs 0 3 1)) l = [true; true; true; true; false; false] /\ map (run stray (tfs 0)) l = [true; true; true; true; false; false].
Proof.
  cbv zeta. assert (W : cmt_written (tcs 0)).
  { exists [], []; split; [reflexivity|]; split; [reflexivity|]; split; [repeat constructor|]; split; [repeat constructor|]; split; [cbn; lia|intros H; contradiction H; reflexivity]. }
  split; [exact W|]. split; [exact W|]. split; [left; reflexivity|]. split; [split; reflexivity|]. split; [apply circuit_okb_ok; vm_compute; reflexivity|].
  split. { intros H. specialize (H (mkR1c [mkTerm 1 99] [] []) ltac:(cbn; auto) (mkTerm 1 99) ltac:(cbn; auto)). destruct H as [H _]. vm_compute in H. lia. }
  split; [split; [lia|]; split; [cbn; lia|intros; lia]|].
  split. { split; [lia|]. split; [cbn; lia|]. intros [|[|j]] J1 J2; cbn in J2; lia. }
  repeat (split; [vm_compute; reflexivity|]). vm_compute. reflexivity.
Qed.
