(* Prop26.v -- property C87: p1t on arbitrary bytes and with arbitrary powers.  at1, at2, holds and start_holds are in Spec21.v, srs,
   sized, file1 and ppot in Spec1.v, numeral in Spec6.v. *)
From Coq Require Import String.
From Verif Require Import Base Fld IO Ext Spec1 Phase1 Phase1Verify Gob Circuit Spec2 Fs Init2 Keys Live Spec5 Spec6 Cli CliClaims Session Spec21 Trans2 Trans3 Toy Toy1 Toy2 Toy4 Toy7 Toy9 Toy20.

Theorem C87_exactly : forall (E : Ext) a b f g O, a <= 54 -> b <= 62 ->
  (exec (transform (E := E) (b8 (N.of_nat a)) (b8 (N.of_nat b))) f g = (Ok tt, O) <->
   exists s : srs E, sized b s /\ holds a f s /\ O = file1 b s []).
Proof. exact @transform_iff. Qed.
Print Assumptions C87_exactly.

(* a file of power 2 with 2, with 3 and with 1 *)
Example C87_case : let f := ppot (repeat x00 64) (srs_of 2 (z17 true 3) (z17 true 5) (z17 true 7)) [x01] in
  length f = 1665 /\
  exec (transform (E := Toy true) (b8 2) (b8 1)) f [] = (Ok tt, file1 1 (srs_of 1 (z17 true 3) (z17 true 5) (z17 true 7)) []) /\
  fst (exec (transform (E := Toy true) (b8 3) (b8 1)) f []) = Err EEof /\
  fst (exec (transform (E := Toy true) (b8 1) (b8 1)) f []) = Err EDecode.
Proof. cbv zeta. split; [vm_compute; reflexivity|]. split; [vm_compute; reflexivity|]. split; vm_compute; reflexivity. Qed.

(* a file too short for the power given *)
Theorem C87_short : forall (E : Ext) a b f g, a <= 54 -> b <= 255 -> length f < 384 * 2 ^ a + 64 ->
  exists e, fst (exec (transform (E := E) (b8 (N.of_nat a)) (b8 (N.of_nat b))) f g) = Err e.
Proof. exact @transform_short. Qed.
Print Assumptions C87_short.

(* a file of power a read with a larger power *)
Theorem C87_larger : forall (E : Ext) a a' b h (s : srs E) junk g, length h = 64 -> sized a s -> a < a' -> a' <= 54 -> b <= 255 ->
  length junk + 64 < 384 * (2 ^ a' - 2 ^ a) ->
  exists e, fst (exec (transform (E := E) (b8 (N.of_nat a')) (b8 (N.of_nat b))) (ppot h s junk) g) = Err e.
Proof. exact @transform_larger. Qed.
Print Assumptions C87_larger.

(* a file of power a read with a smaller power: refused unless two neighbouring powers of tau are the bytes of a point
   of G2 *)
Theorem C87_smaller : forall (E : Ext) a a' b h (s : srs E) junk g, length h = 64 -> sized a s -> a' < a -> a <= 54 -> b <= 62 ->
  g2dr (e := E) (g1r (nth (2 * 2 ^ a' - 1) (tau1 s) (0 : E)%F) ++ g1r (nth (2 * 2 ^ a') (tau1 s) (0 : E)%F)) = None ->
  exists e, fst (exec (transform (E := E) (b8 (N.of_nat a')) (b8 (N.of_nat b))) (ppot h s junk) g) = Err e.
Proof. exact @transform_smaller. Qed.
Print Assumptions C87_smaller.

Example C87_case_smaller : let s := srs_of (E := Toy true) 2 (z17 true 3) (z17 true 5) (z17 true 7) in sized 2 s /\
  g2dr (e := Toy true) (g1r (nth (2 * 2 ^ 1 - 1) (tau1 s) (0 : Toy true)%F) ++ g1r (nth (2 * 2 ^ 1) (tau1 s) (0 : Toy true)%F)) = None.
Proof. cbv zeta. split; [repeat split|]; vm_compute; reflexivity. Qed.

(* an output power from 63 on *)
Theorem C87_big_refuted : forall (E : Ext) a b f g O, a <= 54 -> 63 <= b <= 255 ->
  (exec (transform (E := E) (b8 (N.of_nat a)) (b8 (N.of_nat b))) f g = (Ok tt, O) <->
   exists y : E, at2 f (384 * 2 ^ a) [y] /\ O = b8 (N.of_nat b) :: be16 0 ++ g2c y).
Proof. exact @transform_big. Qed.
Print Assumptions C87_big_refuted.

(* input powers from 55 to 57: an offset is negative as an int64 *)
Theorem C87_negative : forall (E : Ext) a b f g, 55 <= a <= 57 ->
  exists e, fst (exec (transform (E := E) (b8 (N.of_nat a)) b) f g) = Err e.
Proof. exact @transform_negative. Qed.
Print Assumptions C87_negative.

(* input powers from 58 on: every offset but the first is 0 as an int64; such a file is not refused *)
Theorem C87_wrapped_refuted : forall (E : Ext) a b f g O, 58 <= a <= 255 -> b <= 62 ->
  (exec (transform (E := E) (b8 (N.of_nat a)) (b8 (N.of_nat b))) f g = (Ok tt, O) <->
   exists s : srs E, sized b s /\ start_holds f s /\ O = file1 b s []).
Proof. exact @transform_wrapped. Qed.
Print Assumptions C87_wrapped_refuted.

Theorem C87_wrapped_big_refuted : forall (E : Ext) a b f g O, 58 <= a <= 255 -> 63 <= b <= 255 ->
  (exec (transform (E := E) (b8 (N.of_nat a)) (b8 (N.of_nat b))) f g = (Ok tt, O) <->
   exists y : E, at2 f 0 [y] /\ O = b8 (N.of_nat b) :: be16 0 ++ g2c y).
Proof. exact @transform_wrapped_big. Qed.
Print Assumptions C87_wrapped_big_refuted.

(* of all parameters with some trapdoor only those with alpha = beta = 1 come out of it *)
Theorem C87_wrapped_one : forall (E : Ext) b f (T A B : E), start_holds f (srs_of b T A B) -> A = (1 : E)%F /\ B = (1 : E)%F.
Proof. exact @start_one. Qed.
Print Assumptions C87_wrapped_one.

(* 256 bytes that hold both kinds of points, for a power that would need 2^58 of them *)
Example C87_case_wrapped : let f := g2r (e := Toy true) (z17 true 5) ++ repeat x00 128 in length f = 256 /\
  exec (transform (E := Toy true) (b8 58) (b8 1)) f [] =
    (Ok tt, file1 1 (mkSrs [z17 true 0; z17 true 0; z17 true 0] [z17 true 5; z17 true 0] [z17 true 5; z17 true 0]
                       [z17 true 5; z17 true 0] (z17 true 5)) []) /\
  fst (exec (transform (E := Toy true) (b8 200) (b8 63)) f []) = Ok tt /\
  fst (exec (transform (E := Toy true) (b8 57) (b8 1)) f []) = Err ESeek.
Proof. cbv zeta. split; [vm_compute; reflexivity|]. split; [vm_compute; reflexivity|]. split; vm_compute; reflexivity. Qed.

Example C87_case_one : start_holds (E := Toy true) both (srs_of 0 (z17 true 3) (1 : Toy true)%F (1 : Toy true)%F).
Proof. exact toy_start. Qed.

(* the command line, for every pair of numbers *)
Theorem C87_command_line : forall (E : Ext2) bs (v : inv E) s t i o ip op f F, numeral s i -> numeral t o -> ip <> op -> f ip = Some F ->
  let c := tool no_limit bs v "p1t" [ip; op; s; t] in
  ((i < o)%Z -> result_of c f = Err EHigherPower /\ after c f = f) /\
  ((o <= i)%Z -> (forall q, q <> op -> after c f q = f q) /\
    forall a b, Z.of_nat a = (i mod 256)%Z -> Z.of_nat b = (o mod 256)%Z ->
      (a <= 54 ->
        (b <= 62 -> forall O, result_of c f = Ok [] /\ after c f op = Some O <->
           exists x : srs E, sized b x /\ holds a F x /\ O = file1 b x []) /\
        (63 <= b -> forall O, result_of c f = Ok [] /\ after c f op = Some O <->
           exists y : E, at2 F (384 * 2 ^ a) [y] /\ O = b8 (N.of_nat b) :: be16 0 ++ g2c y)) /\
      (55 <= a <= 57 -> exists e, result_of c f = Err e) /\
      (58 <= a ->
        (b <= 62 -> forall O, result_of c f = Ok [] /\ after c f op = Some O <->
           exists x : srs E, sized b x /\ start_holds F x /\ O = file1 b x []) /\
        (63 <= b -> forall O, result_of c f = Ok [] /\ after c f op = Some O <->
           exists y : E, at2 F 0 [y] /\ O = b8 (N.of_nat b) :: be16 0 ++ g2c y))).
Proof. exact @p1t_line. Qed.
Print Assumptions C87_command_line.

(* p1t does not refuse every output power above the one it reads with *)
Theorem C87_guard_refuted : forall (E : Ext2) bs (v : inv E) s t a b ip op f h (y : E) junk,
  numeral s (Z.of_nat (256 + a)) -> numeral t (Z.of_nat b) ->
  a <= 54 -> 63 <= b <= 255 -> length h = 384 * 2 ^ a -> ip <> op -> f ip = Some (h ++ g2r y ++ junk) ->
  let c := tool no_limit bs v "p1t" [ip; op; s; t] in
  result_of c f = Ok [] /\ after c f op = Some (b8 (N.of_nat b) :: be16 0 ++ g2c y).
Proof. exact @p1t_guard. Qed.
Print Assumptions C87_guard_refuted.

(* a file of power 3, with 3, with -253 and with 259 *)
Example C87_case_line : numeral "-253" (-253) /\ numeral "259" 259 /\ numeral "3" 3 /\ numeral "63" 63 /\
  let c s t := tool no_limit 2 i0 "p1t" ["pot"; "out"; s; t]%string in
  result_of (c "3" "4")%string xfs = Err EHigherPower /\ result_of (c "3" "2")%string xfs = Ok [] /\
  result_of (c "259" "2")%string xfs = Ok [] /\ after (c "259" "2")%string xfs "out"%string = after (c "3" "2")%string xfs "out"%string /\
  result_of (c "3" "-254")%string xfs = Ok [] /\ after (c "3" "-254")%string xfs "out"%string = after (c "3" "2")%string xfs "out"%string /\
  result_of (c "-253" "2")%string xfs = Err EHigherPower /\ result_of (c "259" "63")%string xfs = Ok [] /\
  option_map (@length _) (after (c "259" "63")%string xfs "out"%string) = Some 67.
Proof.
  repeat (split; [first [apply atoi_iff; vm_compute; reflexivity | cbv zeta; vm_compute; reflexivity]|]). vm_compute. reflexivity.
Qed.
