(* LiveCmd.v -- the commands on the lower level of Live.v. *)
From Coq Require String.
From Verif Require Import Base Fld Conc Parallel IO Ext Spec1 Phase1 Gob Circuit Spec2 Phase2 Fs Init2 Keys Live.
Local Open Scope lcmd_scope.

(* phase1.go:151-273 *)
Definition l_contribute {E : Ext} (dev : device) (bs : nat) (w : @rnd1 E) (ip op : string) : lcmd bytes :=
  lopen ip ;;; lcreate dev op ;;; lstage dev (contribute bs w) ip ip [op].
(* phase1.go:17-83 *)
Definition l_transform {E : Ext} (dev : device) (inPower outPower : byte) (ip op : string) : lcmd unit :=
  lopen ip ;;; lcreate dev op ;;; lstage dev (transform (E := E) inPower outPower) ip ip [op].
(* phase1.go:85-149; reads nothing (os.Open of the empty path fails) *)
Definition l_initialize {E : Ext} (dev : device) (power : byte) (op : string) : lcmd unit :=
  lcreate dev op ;;; lstage dev (initialize (E := E) power) String.EmptyString String.EmptyString [op].
(* phase2.go:58-163 *)
Definition l_contribute2 {E : Ext2} (dev : device) (bs : nat) (d s : E) (ip op : string) : lcmd bytes :=
  lopen ip ;;; lcreate dev op ;;; lstage dev (contribute2 bs d s) ip ip [op].

Section Cmd.
Context {E : Ext2}.
Variable dev : device.
Definition lret {X} (x : X) : lcmd X := fun w => (Ok x, w).
Definition lboom {X} : lcmd X := fun w => (Panic, w).
Definition outs_at (l : list (option string)) (o : nat) : option string := nth o l None.

(* as in Init2.v; srs.lag is not opened for writing after it was written *)
(* utils.go:44-52, 161-169, 286-294: os.Open, r1cs.ReadFrom *)
Definition l_read_r1cs (p : string) : lcmd (r1cs E) :=
  lopen p ;;; fun w => match parse_r1cs (contents (w_fs w) p) with Some cs => (Ok cs, w) | None => (Err ER1cs, w) end.
(* utils.go:84-123 *)
Definition l_lagrange (p1 p2 : string) (pw : byte) (h : hdr) : lcmd unit :=
  match new_domain (E := E) (h_domain h) with
  | None => lboom
  | Some k => lcreate dev lag_path ;;; lstage dev (process_lagrange (E := E) pw k) p1 p1 [p2; lag_path]
  end.
(* phase2.go:28-52, parted.go:36-60 *)
Definition l_init_steps (circuit : lcmd (r1cs E)) (cons : r1cs E -> option (list r1c)) (nb : r1cs E -> Z)
  (p1 p2 : string) : lcmd unit :=
  let outs := outs_at [Some p2; None; Some evals_path] in
  cs <- circuit ;;
  x <- lstage dev (process_header cs (nb cs)) p1 p1 [p2] ;;
  let '(pw, h) := x in
  l_lagrange p1 p2 pw h ;;;
  lopen lag_path ;;; lcreate dev evals_path ;;;
  lstage_at dev (process_eval_head (E := E) pw) p1 lag_path outs ;;;
  cs <- circuit ;;
  lstage_at dev (process_eval_body cs (cons cs) h) p1 lag_path outs ;;;
  lstage_at dev (process_delta_z (E := E) h) p1 lag_path outs ;;;
  lopen lag_path ;;;
  cs <- circuit ;;
  lstage_at dev (process_pvckk cs (cons cs) h) p1 lag_path outs.
(* phase2.go:15-56 *)
Definition l_p2n (p1 r1 p2 : string) : lcmd unit :=
  lopen p1 ;;; lcreate dev p2 ;;;
  l_init_steps (l_read_r1cs r1) (fun cs => Some (r_cons cs)) (fun cs => Z.of_nat (length (r_cons cs))) p1 p2.
(* parted.go:17-64 *)
Definition l_p2np (cs : r1cs E) (p1 p2 : string) (nbCons : Z) : lcmd unit :=
  lopen p1 ;;; lcreate dev p2 ;;;
  l_init_steps (lret cs) (fun cs => parted_cons cs nbCons) (fun _ => nbCons) p1 p2.

(* as in Keys.v *)
(* keys.go:92-95 and the same text in the other extractions *)
Definition l_header (p : string) : lcmd hdr := lstage dev (NewRd false defBuf (read_hdr2 (E := E) false)) p p [].
(* keys.go:73-238 *)
Definition l_pk (p : string) : lcmd unit :=
  lopen p ;;; lopen evals_path ;;;
  l_header p ;;; lcreate dev pk_path ;;;
  lstage dev (extract_pk (E := E)) p evals_path [pk_path].
(* keys.go:464-552 *)
Definition l_vk (wr : Z -> Z) (g sigma : E) (p : string) : lcmd unit :=
  lopen p ;;; lopen evals_path ;;;
  l_header p ;;; lcreate dev vk_path ;;;
  lstage dev (extract_vk wr g sigma) p evals_path [vk_path] ;;; lret tt.
(* keys.go:240-462 *)
Definition l_split_pk (p session : string) : lcmd unit :=
  let names := split_names session in
  lopen p ;;; lopen evals_path ;;;
  l_header p ;;;
  fold_left (fun c n => c ;;; lcreate dev n) names (lret tt) ;;;
  lstage dev (extract_split_pk (E := E)) p evals_path names.
(* keys.go:554-656; the flush of the vk file (589) is deferred to the return, after the writes of the commitment key; its
   error is dropped, as is that of the first of the two writes *)
Definition l_split_vk (wr : Z -> Z) (g sigma : E) (p session : string) : lcmd unit :=
  let vk := vks_path session in
  let ckp := ckey_path session in
  lopen p ;;; lopen evals_path ;;;
  l_header p ;;; lcreate dev vk ;;;
  y <- lhold dev (extract_vk_open wr g sigma) p evals_path [vk] ;;
  ldefer (ck <- lres (fst y) ;;
    lcreate dev ckp ;;;
    lstage dev (bind (write_ 0 ck) (fun _ => write 0 ck)) String.EmptyString String.EmptyString [ckp])
  (lflush dev vk (snd y)).
(* keys.go:658-669 *)
Definition l_keys (wr : Z -> Z) (g sigma : E) (p : string) : lcmd unit :=
  l_pk p ;;; l_vk wr g sigma p.
(* keys.go:671-682 *)
Definition l_split_keys (wr : Z -> Z) (g sigma : E) (p session : string) : lcmd unit :=
  l_split_pk p session ;;; l_split_vk wr g sigma p session.
End Cmd.
