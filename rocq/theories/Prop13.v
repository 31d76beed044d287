(* Prop13.v -- C19 at the command line; C74: files that cannot be created.  numeral, outputs: Spec6.v; file1, srs_of:
   Spec1.v; result_of, after: Spec5.v; can_create: Live.v; creating: Spec10.v. *)
From Coq Require Import String.
From Verif Require Import Base Fld IO Ext Spec1 Phase1 Gob Circuit Spec2 Fs Live Spec5 Spec6 Cli CliClaims CliPowers Spec10 Create Toy2 Toy3 Toy4 Toy6 Toy7 Toy12.

(* C19: p1n with any number.  Above 26 it refuses.  Otherwise it succeeds and the number counts modulo 256: up to
   62 the file is that of an initialised ceremony, also for the powers 27 to 62 that p1n refuses to write by their
   name; from 63 on it is 67 bytes long *)
Theorem C19_command_line_refuted : forall (E : Ext2) bs (v : inv E) s z op f, numeral s z -> op <> EmptyString ->
  let c := tool no_limit bs v "p1n" [s; op] in
  ((26 < z)%Z -> result_of c f = Err EPower26 /\ after c f = f) /\
  ((z <= 26)%Z -> result_of c f = Ok [] /\ (forall q, q <> op -> after c f q = f q) /\
    exists p, Z.of_nat p = (z mod 256)%Z /\
      (p <= 62 -> after c f op = Some (file1 p (srs_of p (1 : E)%F 1%F 1%F) [])) /\
      (63 <= p -> after c f op = Some (b8 (N.of_nat p) :: be16 0 ++ g2c (1 : E)%F))).
Proof. exact @p1n_line. Qed.
Print Assumptions C19_command_line_refuted.

(* -254 is 2 modulo 256 *)
Example C19_case_line : numeral "-254" (-254) /\ numeral "2" 2 /\
  let c s := tool no_limit 2 i0 "p1n" [s; "out"]%string in
  sizes [result_of (c "-254"%string) wfs; result_of (c "2"%string) wfs; result_of (c "27"%string) wfs; result_of (c "-1"%string) wfs] = [Some 0; Some 0; None; Some 0]%nat /\
  after (c "-254"%string) wfs "out"%string = after (c "2"%string) wfs "out"%string /\
  option_map (@length _) (after (c "-1"%string) wfs "out"%string) = Some 67.
Proof.
  split; [apply atoi_iff; vm_compute; reflexivity|]. split; [apply atoi_iff; vm_compute; reflexivity|].
  cbv zeta. split; [vm_compute; reflexivity|]. split; vm_compute; reflexivity.
Qed.

(* C74: when os.Create fails the command line says so, except that sol panics; otherwise the run is the one on a
   device on which os.Create never fails *)
Theorem C74_refusal_noticed : forall (E : Ext2) bs dev (v : inv E) n a f,
  result_of (tool dev bs v n a) f = result_of (tool (creating dev) bs v n a) f /\
  after (tool dev bs v n a) f = after (tool (creating dev) bs v n a) f \/
  result_of (tool dev bs v n a) f = (if String.eqb n "sol" then Panic else Err ECreate).
Proof. exact @refusal_noticed. Qed.
Print Assumptions C74_refusal_noticed.

(* an output that cannot be created keeps the command line from succeeding and is left as it was *)
Theorem C74_not_created : forall (E : Ext2) bs dev (v : inv E) n a f q, In q (outputs n a) -> (forall k, can_create dev k q = false) ->
  (forall x, result_of (tool dev bs v n a) f <> Ok x) /\ after (tool dev bs v n a) f q = f q.
Proof. exact @not_created. Qed.
Print Assumptions C74_not_created.

(* evals cannot be created: p2n has written to its other outputs by then *)
Example C74_case : let dev := mkDev (takes no_limit) (fun _ q => negb (String.eqb q "evals")) in
  let c d := tool d 2 i0 "p2n" ["p1b"; "r1cs"; "p2"]%string in
  In "evals"%string (outputs "p2n" ["p1b"; "r1cs"; "p2"]%string) /\ (forall k, can_create dev k "evals" = false) /\
  result_of (c dev) cf = Err ECreate /\ sizes [result_of (c (creating dev)) cf] = [Some 0]%nat /\
  after (c dev) cf "p2"%string <> cf "p2"%string /\ after (c dev) cf "srs.lag"%string = after (c (creating dev)) cf "srs.lag"%string.
Proof.
  cbv zeta. split; [vm_compute; tauto|]. split; [reflexivity|]. split; [vm_compute; reflexivity|]. split; [vm_compute; reflexivity|].
  split; vm_compute; [discriminate|reflexivity].
Qed.
