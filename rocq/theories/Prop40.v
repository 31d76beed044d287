(* Prop40.v -- property C101: the phase-1 files p2n accepts and what it writes for them.  uses: Spec32.v; at1, at2:
   Spec21.v; names_ok, is_dom, circuit_ok, lag_basis, is_z, cols, Lsum, file2, evals_bytes: Spec3.v and Spec2.v. *)
From Coq Require Import String.
From Verif Require Import Base Fld IO Ext Toy Spec1 Phase1 Circuit Gob Spec2 Fs Spec3 Init2 Init2Pure Toy2 Toy3 Toy21 Spec21 Spec32 NewIff.
Local Open Scope fld_scope.

(* rest is any bytes *)
Theorem C101_p2n : forall (E : Ext2) p k rest rb (cs : r1cs E) f p1 r1 p2, names_ok p1 r1 p2 -> p <= 54 ->
  f p1 = Some (b8 (N.of_nat p) :: rest) -> f r1 = Some rb -> parse_r1cs rb = Some cs -> circuit_ok cs -> no_cmt cs ->
  is_dom (length (r_cons cs)) k ->
  ((exists f', p2n (E := E) p1 r1 p2 f = (Ok tt, f')) <->
   length (r_cons cs) <= 2 ^ p /\ k <= kmax E /\ k <= 27 /\ exists S0 : srs E, uses p k (b8 (N.of_nat p) :: rest) S0).
Proof. exact @p2n_iff. Qed.
Print Assumptions C101_p2n.

(* what an accepted run writes is made from these points alone *)
Theorem C101_writes : forall (E : Ext2) p k (S0 : srs E) (cs : r1cs E) f p1 r1 p2 rest rb, names_ok p1 r1 p2 -> p <= 54 ->
  f p1 = Some (b8 (N.of_nat p) :: rest) -> f r1 = Some rb -> parse_r1cs rb = Some cs -> circuit_ok cs -> no_cmt cs ->
  length (r_cons cs) <= 2 ^ p -> is_dom (length (r_cons cs)) k -> k <= kmax E -> k <= 27 -> uses p k (b8 (N.of_nat p) :: rest) S0 ->
  exists f' t a b t2 z,
    p2n (E := E) p1 r1 p2 f = (Ok tt, f') /\ only3 p2 f f' /\
    lag_basis (2 ^ k) (root k) (firstn (2 ^ k) (tau1 S0)) t /\ lag_basis (2 ^ k) (root k) (alpha1 S0) a /\
    lag_basis (2 ^ k) (root k) (beta1 S0) b /\ lag_basis (2 ^ k) (root k) (tau2 S0) t2 /\ is_z k (tau1 S0) z /\
    f' lag_path = Some (lag_bytes t a b t2) /\
    f' evals_path = Some (evals_bytes (mkEvals (nth 0 (alpha1 S0) 0) (nth 0 (beta1 S0) 0) (beta2 S0)
      (cols cs r_L t) (cols cs r_R t) (cols cs r_R t2) (firstn (nb_public cs) (Lsum cs t a b)) [] (cmt_bytes (e := E) (r_cmt cs)))) /\
    f' p2 = Some (file2 (hdr_of cs k) (mkPar2 1 1 z (skipn (nb_public cs) (Lsum cs t a b))) []).
Proof. exact @p2n_if. Qed.
Print Assumptions C101_writes.

(* with a power of 55 or more in the first byte, no file shorter than 2^60 bytes is accepted *)
Theorem C101_power : forall (E : Ext2) p f p1 r1 p2 f' rest, p2n (E := E) p1 r1 p2 f = (Ok tt, f') -> names_ok p1 r1 p2 -> 55 <= p <= 255 ->
  f p1 = Some (b8 (N.of_nat p) :: rest) -> (2 ^ 60 < Z.of_nat (length (b8 (N.of_nat p) :: rest)))%Z.
Proof. exact @p2n_power. Qed.
Print Assumptions C101_power.

(* a file of power 2 and a circuit with two constraints (k = 1): with four points that cannot be decoded behind the third
   point of the first section it is accepted and gives the files it gave before; with the third spoilt it is refused, and
   so it is, the circuit with three constraints being used, with the fourth *)
Example C101_case : let run c i n := p2n (E := Toy2) p1n r1n p2n' (sfs c i n) in
  let same q := match snd (run 1%nat 3%nat 4%nat) q, snd (run 1%nat 0%nat 0%nat) q with Some x, Some y => bytes_eqb x y | _, _ => false end in
  names_ok p1n r1n p2n' /\ no_cmt (tcs 1) /\ circuit_ok (tcs 1) /\ length (r_cons (tcs 1)) = 2%nat /\ is_dom 2 1 /\
  g1dc (e := Toy2) (repeat xff 32) = None /\ sfs 1 0 0 p1n = Some tp1 /\
  is_ok (fst (run 1%nat 0%nat 0%nat)) = true /\ is_ok (fst (run 1%nat 3%nat 4%nat)) = true /\ map same [lag_path; evals_path; p2n'] = [true; true; true] /\
  is_ok (fst (run 1%nat 2%nat 1%nat)) = false /\ is_ok (fst (run 0%nat 3%nat 1%nat)) = false /\ is_ok (fst (run 0%nat 0%nat 0%nat)) = true.
Proof.
  cbv zeta. split; [repeat split; discriminate|]. split; [split; reflexivity|]. split; [apply circuit_okb_ok; vm_compute; reflexivity|].
  split; [reflexivity|]. split; [split; [lia|]; split; [cbn; lia|intros; lia]|].
  repeat (split; [vm_compute; reflexivity|]). vm_compute. reflexivity.
Qed.
(* a power of 60: refused *)
Example C101_power_case : let f := fset (fset (fun _ => None) p1n (b8 60 :: skipn 1 tp1)) r1n [b8 1] in
  names_ok p1n r1n p2n' /\ f p1n = Some (b8 (N.of_nat 60) :: skipn 1 tp1) /\ is_ok (fst (p2n (E := Toy2) p1n r1n p2n' f)) = false.
Proof. cbv zeta. split; [repeat split; discriminate|]. split; [reflexivity|vm_compute; reflexivity]. Qed.
