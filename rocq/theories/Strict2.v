(* Strict2.v -- p2v as it would be if an error of aggregate were returned.  This is not the code that exists: in
   utils.go:477 "return nil" is read as "return err".  Everything else is as in Phase2.v. *)
From Verif Require Import Base Fld Conc Parallel IO Ext Spec1 Phase1 Gob Circuit Spec2 Phase2.
Local Open Scope fld_scope.
Local Open Scope io_scope.

Section Strict.
Context {E : Ext2}.
(* utils.go:474-484 with the other return *)
Definition verify_param_strict (bs : nat) (rho : nat -> nat -> E) (delta g : E) (size : Z) (e : err) : io unit :=
  '(i, r) <- aggregate bs rho size ;; require (same_ratio i r delta g) e.
(* phase2.go:165-259 *)
Definition verify2_strict (bs : nat) (rho : nat -> nat -> nat -> E) : io (list bytes) :=
  NewRd false defBuf (NewRd true defBuf (
    cur <- read_hdr2 (E := E) false ;;
    org <- read_hdr2 (E := E) true ;;
    require (negb (h_contribs cur =? 0)%Z) ENoContrib ;;;
    require (hdr_eqb cur org) EHeader ;;;
    g1 <- decode1 true ;;
    g2 <- decode2 true ;;
    d1 <- decode1 false ;;
    d2 <- decode2 false ;;
    require (same_ratio g1 d1 d2 g2) EDelta ;;;
    verify_param_strict bs (rho 0%nat) d2 g2 (wrap64 (h_domain cur - 1)) EInconsZ ;;;
    verify_param_strict bs (rho 1%nat) d2 g2 (h_witness cur) EInconsPKK ;;;
    '(delta, hs) <- verify_chain2 (Z.to_nat (h_contribs cur)) 0 g1 [] ;;
    require (feqb delta d1) ELastDelta ;;;
    Ret hs)).
End Strict.
