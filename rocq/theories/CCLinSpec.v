(** Specification vocabulary for the linearised and the doubles-only methods:
    operators in Fock space.  No reference to the program. *)
From Coq Require Import List Arith.
From Verif Require Import Scalar Tensor CISpec CIExpSpec CCFockSpec.
Import ListNotations.

Section CCLin.
  Variable K : cring.
  Local Open Scope K_scope.
  Notation opsum := (list (K * list op)).

  (** H + [H, T] *)
  Definition linearised (T H : opsum) : opsum := H ++ (opmul H T ++ opscale (- (1)) (opmul T H)).
  (** T = 1/4 sum t_abij a+_a a+_b a_j a_i *)
  Definition doubles (no nv : nat) (T2 : tensor K) : opsum :=
    T_op no nv (fun _ _ => 0) (fun a b i j => dat T2 [a; b; i; j]).
End CCLin.
Arguments linearised {K}. Arguments doubles {K}.
