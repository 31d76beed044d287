(* Fixed3.v -- filterL as it would be with two changes.  This is not the code that exists: in utils.go:544 the list of
   private committed wires is read at cI instead of i, and in utils.go:546 i is compared with the number of public wires
   of the circuit, without the commitment that header2.Public counts.  Everything else is as in Init2.v. *)
From Verif Require Import Base Fld IO Ext Gob Circuit Init2.

Section Fixed.
Context {E : Ext2}.
Definition committed_fixed (c : commitment) (cI i : nat) : option bool :=
  if cI <? cm_nbpriv c then
    match priv_committed c with
    | Some l => match nth_error l cI with Some w => Some (i =? w) | None => None end
    | None => None
    end
  else Some false.
(* utils.go:538-559 with the two changes *)
Definition step_fixed (pub : nat) (c : commitment) (i : nat) (x : E) (s : split E) : option (split E) :=
  match committed_fixed c (s_c s) i with
  | None => None
  | Some true =>
      match set_at (s_ckk s) (s_c s) x with
      | Some l => Some (mkSplit (s_pkk s) (s_vkk s) l (s_v s) (S (s_c s)))
      | None => None
      end
  | Some false =>
      if (is_cmt c && (i =? cm_index c)) || (i <? pub) then
        match set_at (s_vkk s) (s_v s) x with
        | Some l => Some (mkSplit (s_pkk s) l (s_ckk s) (S (s_v s)) (s_c s))
        | None => None
        end
      else
        match set_at (s_pkk s) (i - s_c s - s_v s)%nat x with
        | Some l => Some (mkSplit l (s_vkk s) (s_ckk s) (s_v s) (s_c s))
        | None => None
        end
  end.
Fixpoint loop_fixed (pub : nat) (c : commitment) (i : nat) (L : list E) (s : split E) : option (split E) :=
  match L with
  | [] => Some s
  | x :: L' => match step_fixed pub c i x s with Some s' => loop_fixed pub c (S i) L' s' | None => None end
  end.
Definition filterL_fixed (L : list E) (pub : nat) (h : hdr) (c : commitment) : option (list E * list E * list E) :=
  if ((h_witness h <? 0) || (h_public h <? 0) || (h_privc h <? 0))%Z then None
  else match loop_fixed pub c 0 L (mkSplit (zeros (h_witness h)) (zeros (h_public h)) (zeros (h_privc h)) 0 0) with
       | Some s => Some (s_pkk s, s_vkk s, s_ckk s)
       | None => None
       end.
End Fixed.
