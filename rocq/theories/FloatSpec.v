(** What the floating point theorems speak about. *)
From Coq Require Import Reals.
From Flocq Require Import Core BinarySingleNaN.
From Verif Require Import FloatModel.
Local Open Scope R_scope.

(** the real number a finite double stands for *)
Definition val (x : b64) : R := B2R x.
Definition finite (x : b64) : Prop := is_finite x = true.

(** The exact Fermi-Dirac distribution. *)
Definition fermi_dirac (beta epsilon mu : R) : R := 1 / (exp (beta * (epsilon - mu)) + 1).
(** The exact grand potential of one level. *)
Definition grand_potential (beta epsilon mu : R) : R :=
  - ln (1 + exp (- (beta * (epsilon - mu)))) / beta.

(** What is assumed of the library function [numpy.exp]: on a finite double up to 600
    (exp 600 is below the largest double) it returns a finite, non-negative double
    within one unit in the last place (2^-52, relative; 2^-1074 where the result is
    subnormal) of the exact value, and on -inf it returns zero. *)
Definition good_exp (e : b64 -> b64) : Prop :=
  (forall x, finite x -> val x <= 600 ->
     finite (e x) /\ 0 <= val (e x) /\
     Rabs (val (e x) - exp (val x)) <= / 2 ^ 52 * exp (val x) + / 2 ^ 1074) /\
  (finite (e (B754_infinity true)) /\ val (e (B754_infinity true)) = 0).

(** What is assumed of [numpy.log]: on a positive double the result is finite and within
    one unit in the last place of the exact value. *)
Definition good_log (l : b64 -> b64) : Prop :=
  forall x, finite x -> 0 < val x ->
     finite (l x) /\ Rabs (val (l x) - ln (val x)) <= / 2 ^ 52 * Rabs (ln (val x)) + / 2 ^ 1074.
