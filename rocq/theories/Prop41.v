(* Prop41.v -- property C102: the circuits p2n accepts.  cmt_written, servable: Spec33.v; uses: Spec32.v; circuit_ok, is_dom,
   names_ok: Spec3.v. *)
From Coq Require Import String Sorted.
From Verif Require Import Base Fld IO Ext Toy Spec1 Phase1 Circuit Gob Spec2 Fs Spec3 Init2 Init2Pure Toy2 Toy3 Toy21 Spec21 Spec32 Spec33 CircIff.
Local Open Scope fld_scope.

(* any circuit with commitment information as gnark writes it, any bytes behind the power *)
Theorem C102_circuits : forall (E : Ext2) p k rest rb (cs : r1cs E) f p1 r1 p2, names_ok p1 r1 p2 -> p <= 54 ->
  f p1 = Some (b8 (N.of_nat p) :: rest) -> f r1 = Some rb -> parse_r1cs rb = Some cs -> cmt_written cs ->
  is_dom (length (r_cons cs)) k ->
  ((exists f', p2n (E := E) p1 r1 p2 f = (Ok tt, f')) <->
   circuit_ok cs /\ servable cs /\
   length (r_cons cs) <= 2 ^ p /\ k <= kmax E /\ k <= 27 /\ exists S0 : srs E, uses p k (b8 (N.of_nat p) :: rest) S0).
Proof. exact @circ_iff. Qed.
Print Assumptions C102_circuits.

(* any circuit that parses: a term that names a wire or a coefficient that is not there is never accepted *)
Theorem C102_terms : forall (E : Ext2) f p1 r1 p2 f' rb (cs : r1cs E), p2n (E := E) p1 r1 p2 f = (Ok tt, f') -> names_ok p1 r1 p2 ->
  f r1 = Some rb -> parse_r1cs rb = Some cs -> circuit_ok cs.
Proof. exact @circ_terms. Qed.
Print Assumptions C102_terms.

(* without commitment and with a commitment to a public wire next to the public ones: accepted; with a commitment to a
   private wire and with one that is another wire: refused *)
Example C102_case : cmt_written (tcs 0) /\ cmt_written (tcs 3) /\ cmt_written (tcs 4) /\ cmt_written (tcs 5) /\
  servable (tcs 0) /\ ~ servable (tcs 3) /\ ~ servable (tcs 4) /\ servable (tcs 5) /\
  map (fun i => is_ok (fst (p2n (E := Toy2) p1n r1n p2n' (tfs i)))) [0; 3; 4; 5]%nat = [true; false; false; true].
Proof.
  split; [exists [], []; split; [reflexivity|]; split; [reflexivity|]; split; [repeat constructor|]; split; [repeat constructor|]; split; [cbn; lia|intros H; contradiction H; reflexivity]|].
  split; [exists [1%nat], [3%nat]; split; [reflexivity|]; split; [reflexivity|]; split; [repeat constructor|]; split; [repeat constructor|]; split; [cbn; lia|intros _; cbn; lia]|].
  split; [exists [1%nat], []; split; [reflexivity|]; split; [reflexivity|]; split; [repeat constructor|]; split; [repeat constructor|]; split; [cbn; lia|intros _; cbn; lia]|].
  split; [exists [1%nat], []; split; [reflexivity|]; split; [reflexivity|]; split; [repeat constructor|]; split; [repeat constructor|]; split; [cbn; lia|intros _; cbn; lia]|].
  split; [left; reflexivity|]. split; [intros [H|[H _]]; discriminate|]. split; [intros [H|[_ H]]; discriminate|].
  split; [right; split; reflexivity|vm_compute; reflexivity].
Qed.
Example C102_terms_case : names_ok p1n r1n p2n' /\ parse_r1cs (e := Toy2) [b8 5] = Some (tcs 5) /\
  is_ok (fst (p2n (E := Toy2) p1n r1n p2n' (tfs 5))) = true /\ length (r_cons (tcs 5)) = 3%nat.
Proof. split; [repeat split; discriminate|]. split; [reflexivity|]. split; [vm_compute; reflexivity|reflexivity]. Qed.
