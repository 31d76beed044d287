(* Spec17.v -- the keys that belong to phase-1 parameters of any kind, and parameters that were changed so that
   proofs tell about the witness; written without reference to the programs. *)
From Verif Require Import Base Fld IO Ext Poly BitRev Circuit Spec1 Spec2 Spec3 Spec4.
Local Open Scope fld_scope.

Section Any.
Context {E : Ext}.
(* nothing is assumed about the parameters s; for powers of tau this is is_keypair *)
Definition keys_from (cs : r1cs E) (k : nat) (w : E) (s : srs E) (delta : E) (q : pkey E) (v : vkey E) : Prop :=
  exists t a b t2 z,
    lag_basis (2 ^ k) w (firstn (2 ^ k) (tau1 s)) t /\ lag_basis (2 ^ k) w (firstn (2 ^ k) (alpha1 s)) a /\
    lag_basis (2 ^ k) w (firstn (2 ^ k) (beta1 s)) b /\ lag_basis (2 ^ k) w (firstn (2 ^ k) (tau2 s)) t2 /\ is_z k (tau1 s) z /\
    q = mkPk (nth 0 (alpha1 s) 0) (nth 0 (beta1 s) 0) delta (cols cs r_L t) (cols cs r_R t) (map (fun x => x / delta) z)
      (map (fun i => Lat cs t a b i / delta) (seq (nb_public cs) (wires cs - nb_public cs))) (beta2 s) delta (cols cs r_R t2) /\
    v = mkVk (nth 0 (alpha1 s) 0) (nth 0 (beta1 s) 0) (beta2 s) delta delta (map (Lat cs t a b) (seq 0 (nb_public cs))) [].
(* the value of d, as a polynomial, at w^i is added to entry i of the alpha section, for the first n entries:
   known multiples of the generator *)
Definition nudge (n : nat) (w : E) (d : list E) (s : srs E) : srs E :=
  mkSrs (tau1 s) (map (fun i => nth i (alpha1 s) 0 + peval d (w ^ i)) (seq 0 n) ++ skipn n (alpha1 s)) (beta1 s) (tau2 s) (beta2 s).
(* 1 at i, -1 at j *)
Definition against (n i j : nat) : list E :=
  map (fun m => (if (m =? i)%nat then 1 else 0) - (if (m =? j)%nat then 1 else 0)) (seq 0 n).
End Any.
