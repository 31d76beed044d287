(* Spec9.v -- replacing the parameters of a published phase-1 file; written without reference to the
   programs. *)
From Verif Require Import Base Fld IO Ext Spec1.
Local Open Scope fld_scope.

Section Rig.
Context {E : Ext}.
(* Someone who chooses tau and alpha makes these parameters from the file's beta in G1 (the first entry of its
   section) and in G2: known scalars times points they have. *)
Definition rig (p : nat) (tau alpha : E) (s : srs E) : srs E :=
  mkSrs (map (fun i => tau ^ i * 1) (seq 0 (2 * 2 ^ p - 1)))
        (map (fun i => (alpha * tau ^ i) * 1) (seq 0 (2 ^ p)))
        (map (fun i => tau ^ i * nth 0 (beta1 s) 0) (seq 0 (2 ^ p)))
        (map (fun i => tau ^ i * 1) (seq 0 (2 ^ p))) (beta2 s).
End Rig.
