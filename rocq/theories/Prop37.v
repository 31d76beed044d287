(* Prop37.v -- property C97: what the hashes that p2v shows stand for, for any bytes that it accepts.  shown2 F l (Spec29.v):
   the records l are seen in F; seen2: Spec27.v; clash2, own_clash2: Spec26.v; sha_clash: Spec18.v; a position counts from 0. *)
From Coq Require Import String.
From Verif Require Import Base Fld IO Ext Spec1 Phase1 Phase1Verify Gob GobLemmas Circuit Spec2 Phase2 Phase2Io Phase2Lemmas Phase2Claims Phase2Bad Fs Spec3 Init2 Spec4 Keys Spec18 Spec25 Spec26 Spec27 Spec29 Torn Attest Shown Toy1 Toy2 Toy3 Toy4 Toy7 Toy8.
Local Open Scope fld_scope.

(* F and F' are any bytes, the parameters of both may not even decode (C39) *)
Theorem C97_history : forall (E : Ext2) bs bs' (rho rho' : nat -> nat -> nat -> E) F G F' G' hs hs',
  fst (exec (verify2 bs rho) F G) = Ok hs -> fst (exec (verify2 bs' rho') F' G') = Ok hs' ->
  exists l l' : list (contrib2 E), shown2 F l /\ hs = map d_hash l /\ shown2 F' l' /\ hs' = map d_hash l' /\
  ((forall c, In c l' -> kS (d_key c) <> 0 /\ kSX (d_key c) <> 0) ->
   forall i, nth_error hs i = Some (last hs' []) -> firstn (S i) l = l' \/ exists a b, clash2 l l' a b).
Proof. exact @history_any. Qed.
Print Assumptions C97_history.

(* F two contributions; F' the first record behind a header, delta and two points that do not decode *)
Example C97_history_case : let F' := forged th (u 1) (u 1) (u 3) (u 5) ffb in let r := new_rec2 (u 3) (u 5) (u 3 * u 1) [] in exists h1 h2,
  fst (exec (verify2 2 trho2) tf2 tf0) = Ok [h1; h2] /\ fst (exec (verify2 3 trho2) F' tf0) = Ok [h1] /\
  shown2 F' [r] /\ kS (d_key r) <> 0 /\ kSX (d_key r) <> 0 /\ d_hash r = h1 /\
  fst (exec (contribute2 2 (u 7) (u 2)) F' []) = Err EDecode /\ bytes_eqb h1 h2 = false.
Proof.
  cbv zeta. do 2 eexists. split; [vm_compute; reflexivity|]. split; [vm_compute; reflexivity|]. split.
  { unfold forged. rewrite !app_assoc. eexists _, _, 0%nat. split; [reflexivity|]. unfold rec2_bytes.
    constructor; [apply are_vals_enc|discriminate|apply bytes_eqb_true; vm_compute; reflexivity|constructor]. }
  split; [fld_neq|]. split; [fld_neq|]. split; [vm_compute; reflexivity|]. split; vm_compute; reflexivity.
Qed.

(* nobody is shown twice *)
Theorem C97_once : forall (E : Ext2) bs (rho : nat -> nat -> nat -> E) F G hs,
  fst (exec (verify2 bs rho) F G) = Ok hs ->
  exists l : list (contrib2 E), shown2 F l /\ hs = map d_hash l /\ ((forall c, In c l -> kS (d_key c) <> 0 /\ kSX (d_key c) <> 0) ->
    forall i j x, nth_error hs i = Some x -> nth_error hs j = Some x -> i = j \/ exists a b, clash2 l l a b).
Proof. exact @once_any. Qed.
Print Assumptions C97_once.

(* X = gob_hdr h ++ t, t any bytes: in front of a contribution's hash stands the one that it was appended to *)
Theorem C97_own : forall (E : Ext2) bs (rho : nat -> nat -> nat -> E) F G hs,
  fst (exec (verify2 bs rho) F G) = Ok hs ->
  exists l : list (contrib2 E), shown2 F l /\ hs = map d_hash l /\
  forall bs' g h t (d s : E) x O, 1 <= bs' -> hdr_ok h -> (- two63 < h_domain h)%Z -> (h_contribs h < 9223372036854775807)%Z -> d <> 0 -> s <> 0 ->
  exec (contribute2 bs' d s) (gob_hdr h ++ t) g = (Ok x, O) ->
  exists pb (q : par2 E) u lx, t = pb ++ u /\ is_par2 pb q /\ sized2 h q /\ length lx = Z.to_nat (h_contribs h) /\
    seen2 (length (gob_hdr h) + length pb) u lx /\
    forall i, nth_error hs i = Some x ->
      last (firstn i hs) [] = last (map d_hash lx) [] \/ own_clash2 l lx i (new_rec2 d s (d * p_d1 q) (last_hash2 lx)).
Proof. exact @predecessor_any. Qed.
Print Assumptions C97_own.

(* of two contributions to the same bytes only one can be shown *)
Theorem C97_fork : forall (E : Ext2) bs (rho : nat -> nat -> nat -> E) F G hs,
  fst (exec (verify2 bs rho) F G) = Ok hs ->
  exists l : list (contrib2 E), shown2 F l /\ hs = map d_hash l /\ ((forall c, In c l -> kS (d_key c) <> 0 /\ kSX (d_key c) <> 0) ->
  forall bs1 bs2 g1 g2 h t (d1 s1 d2 s2 : E) x1 x2 O1 O2, 1 <= bs1 -> 1 <= bs2 -> hdr_ok h -> (- two63 < h_domain h)%Z -> (h_contribs h < 9223372036854775807)%Z ->
  d1 <> 0 -> s1 <> 0 -> d2 <> 0 -> s2 <> 0 ->
  exec (contribute2 bs1 d1 s1) (gob_hdr h ++ t) g1 = (Ok x1, O1) -> exec (contribute2 bs2 d2 s2) (gob_hdr h ++ t) g2 = (Ok x2, O2) ->
  exists pb (q : par2 E) u lx, t = pb ++ u /\ is_par2 pb q /\ sized2 h q /\ length lx = Z.to_nat (h_contribs h) /\
    seen2 (length (gob_hdr h) + length pb) u lx /\
    forall i j, nth_error hs i = Some x1 -> nth_error hs j = Some x2 ->
      x1 = x2 \/ (exists a b, clash2 l l a b) \/ own_clash2 l lx i (new_rec2 d1 s1 (d1 * p_d1 q) (last_hash2 lx)) \/
      own_clash2 l lx j (new_rec2 d2 s2 (d2 * p_d1 q) (last_hash2 lx))).
Proof. exact @fork_any. Qed.
Print Assumptions C97_fork.

(* two contributions to the same bytes, with a byte behind the parameters: two files, one of them without parameters, show
   the first one's hash *)
Example C97_fork_case : let X := gob_hdr th ++ par2_bytes tq ++ [b8 9] in exists x1 x2 y O1 O2,
  exec (contribute2 2 (u 3) (u 5)) X [] = (Ok x1, O1) /\ exec (contribute2 3 (u 6) (u 2)) X [b8 1] = (Ok x2, O2) /\
  hdr_ok th /\ (- two63 < h_domain th)%Z /\ (h_contribs th < 9223372036854775807)%Z /\ u 3 <> 0 /\ u 5 <> 0 /\ u 6 <> 0 /\ u 2 <> 0 /\
  fst (exec (verify2 2 trho2) tf2 tf0) = Ok [x1; y] /\ fst (exec (verify2 2 trho2) (forged th (u 1) (u 1) (u 3) (u 5) ffb) tf0) = Ok [x1] /\
  bytes_eqb x1 x2 = false /\ bytes_eqb x1 y = false /\ bytes_eqb y x2 = false.
Proof.
  cbv zeta. do 5 eexists. split; [vm_compute; reflexivity|]. split; [vm_compute; reflexivity|]. split; [exact th_ok|].
  split; [vm_compute; reflexivity|]. split; [vm_compute; reflexivity|].
  split; [fld_neq|]. split; [fld_neq|]. split; [fld_neq|]. split; [fld_neq|].
  split; [vm_compute; reflexivity|]. split; [vm_compute; reflexivity|]. repeat split; vm_compute; reflexivity.
Qed.

(* the last hash stands for the keys *)
Theorem C97_final_keys : forall (E : Ext2) p T A Bt (cs : r1cs E) f p1 r1 p2 k,
  init_input p (srs_of p T A Bt) cs f p1 r1 p2 -> no_cmt cs -> (N.of_nat (wires cs) < 4294967296)%N ->
  is_dom (length (r_cons cs)) k -> T ^ (2 ^ k) <> 1 ->
  exists fa F0 G, p2n (E := E) p1 r1 p2 f = (Ok tt, fa) /\ fa p2 = Some F0 /\ fa evals_path = Some G /\
  forall bs bs' (rho rho' : nat -> nat -> nat -> E) F F' hs hs',
    1 <= bs -> fst (exec (verify2 bs rho) F F0) = Ok hs -> 1 <= bs' -> fst (exec (verify2 bs' rho') F' F0) = Ok hs' ->
    exists l l' : list (contrib2 E), shown2 F l /\ hs = map d_hash l /\ shown2 F' l' /\ hs' = map d_hash l' /\
    ((forall c, In c l' -> kS (d_key c) <> 0 /\ kSX (d_key c) <> 0) -> last hs [] = last hs' [] ->
    forall g sg g' sg' pz pz' f1 f1' f2 f2',
    pz <> pk_path -> pz <> vk_path -> f1 pz = Some F -> f1 evals_path = Some G -> extract_keys wrap64 g sg pz f1 = (Ok tt, f2) ->
    pz' <> pk_path -> pz' <> vk_path -> f1' pz' = Some F' -> f1' evals_path = Some G -> extract_keys wrap64 g' sg' pz' f1' = (Ok tt, f2') ->
    (exists sec i j, forall x ys, fst (exec (verify2 bs (put3 rho sec i j x)) F F0) = Ok ys -> x = rho sec i j) \/ (exists sec i j, forall x ys, fst (exec (verify2 bs' (put3 rho' sec i j x)) F' F0) = Ok ys -> x = rho' sec i j) \/ (exists a b, clash2 l l' a b) \/
    (f2 pk_path = f2' pk_path /\ exists v : vkey E,
      f2 vk_path = Some (vk_bytes (ped (e := E) g sg []) (empty_info (E := E)) v) /\
      f2' vk_path = Some (vk_bytes (ped (e := E) g' sg' []) (empty_info (E := E)) v))).
Proof. exact @final_any. Qed.
Print Assumptions C97_final_keys.

(* the keys come from the product of the contributed numbers *)
Theorem C97_attested : forall (E : Ext2) p T A Bt (cs : r1cs E) f p1 r1 p2 k,
  init_input p (srs_of p T A Bt) cs f p1 r1 p2 -> no_cmt cs -> (N.of_nat (wires cs) < 4294967296)%N ->
  is_dom (length (r_cons cs)) k -> T ^ (2 ^ k) <> 1 ->
  exists fa F0 G, p2n (E := E) p1 r1 p2 f = (Ok tt, fa) /\ fa p2 = Some F0 /\ fa evals_path = Some G /\
  forall bs (rho : nat -> nat -> nat -> E) F hs, 1 <= bs -> fst (exec (verify2 bs rho) F F0) = Ok hs ->
    exists l : list (contrib2 E), shown2 F l /\ hs = map d_hash l /\
    forall g sg pz f1 f2, pz <> pk_path -> pz <> vk_path -> f1 pz = Some F -> f1 evals_path = Some G -> extract_keys wrap64 g sg pz f1 = (Ok tt, f2) ->
    (exists sec i j, forall x ys, fst (exec (verify2 bs (put3 rho sec i j x)) F F0) = Ok ys -> x = rho sec i j) \/
    exists D (q : pkey E) (v : vkey E), D <> 0 /\
      f2 pk_path = Some (pk_bytes k (N.of_nat (wires cs)) q) /\
      f2 vk_path = Some (vk_bytes (ped (e := E) g sg []) (empty_info (E := E)) v) /\
      is_keypair cs k (root k) A Bt D T q v /\
      (no_challenge l \/ exists xs, updates 1 [] l xs /\ D = prodl xs /\
        forall bs' (d s : E) X h O i, d <> 0 -> s <> 0 -> exec (contribute2 bs' d s) X [] = (Ok h, O) -> nth_error hs i = Some h ->
          nth_error xs i = Some d \/ exists r o c, O = o ++ rec2_bytes r /\ nth_error l i = Some c /\ sha_clash c r).
Proof. exact @attested_any. Qed.
Print Assumptions C97_attested.

Example C97_keys_case : exists (l : list (contrib2 Toy2)) hs,
  let e := extract_keys (E := Toy2) wrap64 (u 2) (u 6) pzn (fset kfa pzn kF) in
  let e' := extract_keys (E := Toy2) wrap64 (u 3) (u 4) pzn (fset kfa pzn (kF ++ [b8 7])) in
  init_input 2 (srs_of 2 (u 3) (u 5) (u 7)) (tcs 0) (tfs 0) p1n r1n p2n' /\ no_cmt (tcs 0) /\
  is_dom (length (r_cons (tcs 0))) 2 /\ u 3 ^ (2 ^ 2) <> 1 /\ has kfa p2n' kF0 = true /\
  shown2 kF l /\ shown2 (kF ++ [b8 7]) l /\ (forall c, In c l -> kS (d_key c) <> 0 /\ kSX (d_key c) <> 0) /\ length l = 2%nat /\
  fst (exec (verify2 2 trho2) kF kF0) = Ok hs /\ fst (exec (verify2 3 trho2) (kF ++ [b8 7]) kF0) = Ok hs /\ hs = map d_hash l /\
  is_ok (fst e) = true /\ is_ok (fst e') = true /\
  match snd e pk_path, snd e' pk_path with Some a, Some b => bytes_eqb a b = true | _, _ => False end /\
  match snd e vk_path, snd e' vk_path with Some a, Some b => bytes_eqb a b = false | _, _ => False end.
Proof.
  exists (snd (honest2 kq0 [] kws)). eexists. cbv zeta.
  split; [apply (tfs_input 0); lia|]. split; [split; reflexivity|]. split.
  { split; [lia|]. split; [vm_compute; lia|]. intros j J H. destruct j as [|[|j]]; [lia| |lia]. exfalso. revert H. vm_compute. lia. }
  split; [fld_neq|]. split; [vm_compute; reflexivity|].
  assert (S : forall junk, shown2 (kF ++ junk) (snd (honest2 kq0 [] kws))).
  { intros junk. assert (K : kF = (gob_hdr (set_contribs kh 2) ++ par2_bytes (upd_par2 (u 4) kq0)) ++ recs2_bytes (snd (honest2 kq0 [] kws))) by (apply bytes_eqb_true; vm_compute; reflexivity).
    rewrite K, <- app_assoc. eexists _, _, 0%nat. split; [reflexivity|]. apply readable_seen.
    apply recs2_at_bytes; [intros c [<-|[<-|[]]]; reflexivity|]. intros [|[|i]] Hi; [| |cbn in Hi; lia]; apply tle; vm_compute; reflexivity. }
  split; [rewrite <- (app_nil_r kF); apply S|]. split; [apply S|].
  split; [intros c [<-|[<-|[]]]; split; fld_neq|]. split; [reflexivity|].
  split; [vm_compute; reflexivity|]. split; [vm_compute; reflexivity|]. split; [vm_compute; reflexivity|].
  split; [vm_compute; reflexivity|]. split; [vm_compute; reflexivity|]. split; vm_compute; reflexivity.
Qed.
