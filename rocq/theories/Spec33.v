(* Spec33.v -- the commitment information of a circuit, and the circuits p2n can deal with. *)
From Coq Require Import Sorted.
From Verif Require Import Base Fld Circuit Spec3.

Section Spec33.
Context {K : Fld}.
(* as gnark writes it: the committed wires are public ones in front of private ones, these in increasing order; the
   commitment is itself a wire that is not public; wire 0 is public *)
Definition cmt_written (cs : r1cs K) : Prop := exists pubs privs,
  cm_committed (r_cmt cs) = pubs ++ privs /\ cm_nbpriv (r_cmt cs) = length privs /\ StronglySorted lt privs /\
  Forall (fun w => nb_public cs <= w < wires cs) privs /\ 1 <= nb_public cs /\
  (cm_committed (r_cmt cs) <> [] -> nb_public cs <= cm_index (r_cmt cs) < wires cs).
(* no commitment, or to public wires only and the commitment is the wire behind the public ones *)
Definition servable (cs : r1cs K) : Prop :=
  cm_committed (r_cmt cs) = [] \/ cm_nbpriv (r_cmt cs) = 0%nat /\ cm_index (r_cmt cs) = nb_public cs.
End Spec33.
