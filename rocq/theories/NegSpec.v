(** Specification vocabulary for the sign of second order energies.  No reference
    to the program. *)
From Coq Require Import List Reals.
From Verif Require Import Scalar Tensor RoundSpec.
Import ListNotations.
Local Open Scope R_scope.

(** every virtual orbital lies at least g > 0 above every occupied one *)
Definition gap (no nv : nat) (eo ev : tensor RK) (g : R) : Prop :=
  0 < g /\ forall a i, (a < nv)%nat -> (i < no)%nat -> dat eo [i] + g <= dat ev [a].
(** W is the transpose of V: W_ia = V_ai, W_ijab = V_abij *)
Definition transposed2 (no nv : nat) (V W : tensor RK) : Prop :=
  shp W = [no; nv] /\ forall i a, (i < no)%nat -> (a < nv)%nat -> dat W [i; a] = dat V [a; i].
Definition transposed4 (no no' nv nv' : nat) (V W : tensor RK) : Prop :=
  shp W = [no; no'; nv; nv'] /\
  forall i j a b, (i < no)%nat -> (j < no')%nat -> (a < nv)%nat -> (b < nv')%nat -> dat W [i; j; a; b] = dat V [a; b; i; j].
(** sums of squares; all entries are zero *)
Definition squares2 (no nv : nat) (W : tensor RK) : R := Sum no (fun i => Sum nv (fun a => dat W [i; a] * dat W [i; a])).
Definition squares4 (no no' nv nv' : nat) (W : tensor RK) : R :=
  Sum no (fun i => Sum no' (fun j => Sum nv (fun a => Sum nv' (fun b => dat W [i; j; a; b] * dat W [i; j; a; b])))).
Definition zero2 (no nv : nat) (W : tensor RK) : Prop := forall i a, (i < no)%nat -> (a < nv)%nat -> dat W [i; a] = 0.
Definition zero4 (no no' nv nv' : nat) (W : tensor RK) : Prop :=
  forall i j a b, (i < no)%nat -> (j < no')%nat -> (a < nv)%nat -> (b < nv')%nat -> dat W [i; j; a; b] = 0.
