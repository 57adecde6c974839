(** Specification vocabulary for configuration interaction with single and double
    excitations.  No reference to the program. *)
From Coq Require Import List Arith.
From Verif Require Import Scalar CISpec CIExpSpec PTSpec.
Import ListNotations.

Section CISD.
  Variable K : cring.
  Local Open Scope K_scope.
  Notation opsum := (list (K * list op)).

  (** (1 + T)|ref> solves the CI eigenvalue equation H|psi> = E|psi> projected on
      every determinant that is at most k-fold excited from |ref> *)
  Definition ci_equations (k : nat) (ref : det) (H T : opsum) (E : K) : Prop :=
    forall m bra, (m <= k)%nat -> excited m ref bra ->
      amp bra (opmul H (one ++ T)) ref = E * amp bra (one ++ T) ref.
End CISD.
Arguments ci_equations {K}.
