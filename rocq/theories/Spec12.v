(* Spec12.v -- which neighbours of a section the random combinations of p1v could compare: those read
   in the same batch of bs points.  Written without reference to the programs. *)
From Verif Require Import Base Fld Ext Spec1.
Local Open Scope fld_scope.

Section Spec12.
Context {K : Fld}.

(* the indices i such that entries i and i+1 of a section of N points are in one batch *)
Definition pairs (bs N : nat) : list nat :=
  filter (fun i => negb (S i mod bs =? 0)%nat) (seq 0 (N - 1)).
(* the random scalar of entry i: rho k j is the j-th scalar of the batch that starts with k points to
   be read *)
Definition scalar (rho : nat -> nat -> K) (bs N i : nat) : K := rho (N - i / bs * bs)%nat (i mod bs)%nat.
(* the two combinations *)
Definition lower (rho : nat -> nat -> K) (bs : nat) (l : list K) : K :=
  fsum (map (fun i => nth i l 0 * scalar rho bs (length l) i) (pairs bs (length l))).
Definition upper (rho : nat -> nat -> K) (bs : nat) (l : list K) : K :=
  fsum (map (fun i => nth (S i) l 0 * scalar rho bs (length l) i) (pairs bs (length l))).

(* inside every batch each entry is q times the one before *)
Definition rising (bs : nat) (q : K) (l : list K) : Prop :=
  forall i, S i < length l -> S i mod bs <> 0%nat -> nth (S i) l 0 = q * nth i l 0.
(* inside every batch each entry is q times the one after it *)
Definition falling (bs : nat) (q : K) (l : list K) : Prop :=
  forall i, S i < length l -> S i mod bs <> 0%nat -> nth i l 0 = q * nth (S i) l 0.
(* powers of q, with a factor k b in batch b *)
Definition piecewise (bs n : nat) (k : nat -> K) (q : K) : list K :=
  map (fun i => k (i / bs)%nat * q ^ i) (seq 0 n).
End Spec12.

Section Sections.
Context {E : Ext}.
(* the four sections of points *)
Definition sect (k : nat) (s : srs E) : list E :=
  match k with 0 => tau1 s | 1 => alpha1 s | 2 => beta1 s | _ => tau2 s end.
(* entries i and i+1 of section k are in one batch and do not have the ratio that p1v compares *)
Definition off (bs k : nat) (T : E) (s : srs E) (i : nat) : Prop :=
  S i < length (sect k s) /\ S i mod bs <> 0%nat /\
  match k with
  | 3 => nth i (sect k s) 0 <> T * nth (S i) (sect k s) 0
  | _ => nth (S i) (sect k s) 0 <> T * nth i (sect k s) 0
  end.
(* rho and rho' are the same except for the scalar of entry i of section k *)
Definition same_but (bs k : nat) (s : srs E) (i : nat) (rho rho' : nat -> nat -> nat -> E) : Prop :=
  forall k' r j, k' <> k \/ r <> (length (sect k s) - i / bs * bs)%nat \/ j <> (i mod bs)%nat -> rho k' r j = rho' k' r j.
End Sections.
