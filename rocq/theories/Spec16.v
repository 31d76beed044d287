(* Spec16.v -- everything a ceremony shows: the points of all files and records of both phases and of the keys. *)
From Verif Require Import Base Fld IO Ext Spec1 Gob GobLemmas Circuit Spec2 Spec3 Spec4 Spec13.
Local Open Scope fld_scope.

Section Shown.
Context {E : Ext2}.
(* one contributor of phase 1: the secrets, the key bases, and the challenge points (hash values), which are
   arbitrary here; and one of phase 2 *)
Record who1 := mkWho1 { u_t : E; u_a : E; u_b : E; u_st : E; u_sa : E; u_sb : E; u_rt : E; u_ra : E; u_rb : E }.
Record who2 := mkWho2 { u_d : E; u_s : E; u_r : E }.
Definition nonzero1 (w : who1) : Prop := u_t w <> 0 /\ u_a w <> 0 /\ u_b w <> 0.
(* the same person with other secrets *)
Definition with1 (w : who1) (t a b : E) : who1 := mkWho1 t a b (u_st w) (u_sa w) (u_sb w) (u_rt w) (u_ra w) (u_rb w).
Definition with2 (w : who2) (d : E) : who2 := mkWho2 d (u_s w) (u_r w).

(* ---- phase 1: the parameters after the contributions l, and the points of the record of w that goes with them ---- *)
Definition after1 (p : nat) (l : list who1) : srs E := fold_left (fun s w => upd_srs (u_t w) (u_a w) (u_b w) s) l (srs_of p 1 1 1).
Definition rec1_1 (w : who1) (s : srs E) : list E :=
  [nth 1 (tau1 s) 0; nth 0 (alpha1 s) 0; nth 0 (beta1 s) 0;
   u_st w; u_t w * u_st w; u_sa w; u_a w * u_sa w; u_sb w; u_b w * u_sb w].
Definition rec1_2 (w : who1) (s : srs E) : list E :=
  [nth 1 (tau2 s) 0; beta2 s; u_rt w; u_t w * u_rt w; u_ra w; u_a w * u_ra w; u_rb w; u_b w * u_rb w].
Definition srs_1 (s : srs E) : list E := tau1 s ++ alpha1 s ++ beta1 s.
Definition srs_2 (s : srs E) : list E := tau2 s ++ [beta2 s].
(* the points in the files after 0, 1, .. contributions of l, the contributions before which are pre *)
Fixpoint phase1_1 (p : nat) (pre l : list who1) : list E :=
  srs_1 (after1 p pre) ++
  match l with [] => [] | w :: l' => rec1_1 w (after1 p (pre ++ [w])) ++ phase1_1 p (pre ++ [w]) l' end.
Fixpoint phase1_2 (p : nat) (pre l : list who1) : list E :=
  srs_2 (after1 p pre) ++
  match l with [] => [] | w :: l' => rec1_2 w (after1 p (pre ++ [w])) ++ phase1_2 p (pre ++ [w]) l' end.

(* ---- phase 2, from the parameters q ---- *)
Definition after2 (q : par2 E) (l : list who2) : par2 E := fold_left (fun q w => upd_par2 (u_d w) q) l q.
Definition par_1 (q : par2 E) : list E := [p_d1 q] ++ p_Z q ++ p_K q.
Definition rec2_1 (w : who2) (q : par2 E) : list E := [p_d1 q; u_s w; u_d w * u_s w].
Fixpoint phase2_1 (q : par2 E) (l : list who2) : list E :=
  par_1 q ++
  match l with [] => [] | w :: l' => rec2_1 w (upd_par2 (u_d w) q) ++ phase2_1 (upd_par2 (u_d w) q) l' end.
Fixpoint phase2_2 (q : par2 E) (l : list who2) : list E :=
  p_d2 q :: match l with [] => [] | w :: l' => [u_r w; u_d w * u_r w] ++ phase2_2 (upd_par2 (u_d w) q) l' end.

(* the trapdoor of a ceremony *)
Definition ceremony_tau (l : list who1) : E := prodl (map u_t l).
Definition ceremony_alpha (l : list who1) : E := prodl (map u_a l).
Definition ceremony_beta (l : list who1) : E := prodl (map u_b l).
Definition ceremony_delta (l : list who2) : E := prodl (map u_d l).

(* everything shown by the ceremony with contributors l1, l2 whose key pair is q, v; q1: the proving key for delta = 1 *)
Definition shown1 (p : nat) (l1 : list who1) (l2 : list who2) (q : pkey E) (v : vkey E) (q1 : pkey E) : list E :=
  phase1_1 p [] l1 ++ phase2_1 (mkPar2 1 1 (q_Z q1) (q_K q1)) l2 ++ published1 (after1 p l1) q v.
Definition shown2 (p : nat) (l1 : list who1) (l2 : list who2) (q : pkey E) (q1 : pkey E) : list E :=
  phase1_2 p [] l1 ++ phase2_2 (mkPar2 1 1 (q_Z q1) (q_K q1)) l2 ++ published2 (after1 p l1) q.

(* the proof whose points have coefficients ca, cb, cc in everything shown is accepted for the public inputs x *)
Definition ceremony_accepts (p : nat) (cs : r1cs E) (k : nat) (x : nat -> E) (ca cb cc : list E) (l1 : list who1) (l2 : list who2) : Prop :=
  exists q v q1 v1,
    is_keypair cs k (root k) (ceremony_alpha l1) (ceremony_beta l1) (ceremony_delta l2) (ceremony_tau l1) q v /\
    is_keypair cs k (root k) (ceremony_alpha l1) (ceremony_beta l1) 1 (ceremony_tau l1) q1 v1 /\
    accepts v cs x (comb ca (shown1 p l1 l2 q v q1)) (comb cb (shown2 p l1 l2 q q1)) (comb cc (shown1 p l1 l2 q v q1)).

(* ---- a generating system of all these points ---- *)
Definition basis1 (s : srs E) (q : pkey E) (v : vkey E) (q1 : pkey E) : list E := published1 s q v ++ q_Z q1 ++ q_K q1.
Definition basis2 (s : srs E) (q : pkey E) : list E := published2 s q ++ [nth 0 (alpha1 s) 0].
Definition convinces_more (p : nat) (cs : r1cs E) (k : nat) (x : nat -> E) (ca cb cc : list E) (alpha beta delta tau : E) : Prop :=
  exists q v q1 v1, is_keypair cs k (root k) alpha beta delta tau q v /\ is_keypair cs k (root k) alpha beta 1 tau q1 v1 /\
    let s := srs_of p tau alpha beta in
    accepts v cs x (comb ca (basis1 s q v q1)) (comb cb (basis2 s q)) (comb cc (basis1 s q v q1)).
End Shown.
Arguments who1 : clear implicits.
Arguments who2 : clear implicits.
