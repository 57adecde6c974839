(** Specification vocabulary for the sign of second order energies with complex
    orbitals.  No reference to the program.  A complex number is a pair of its
    real and imaginary part. *)
From Coq Require Import List Reals.
From Verif Require Import Scalar Tensor RoundSpec IntegralsModel.
Import ListNotations.
Local Open Scope R_scope.

Definition CK : cring := CplxK RK.
Definition conj_of (z : CK) : CK := (fst z, - snd z).
Definition modulus2 (z : CK) : R := fst z * fst z + snd z * snd z.
Definition real_part (z : CK) : R := fst z.
Definition imaginary_part (z : CK) : R := snd z.

(** real energies, every virtual orbital at least g > 0 above every occupied one *)
Definition real_gap (no nv : nat) (eo ev : tensor CK) (g : R) : Prop :=
  0 < g /\ (forall i, (i < no)%nat -> imaginary_part (dat eo [i]) = 0) /\
  (forall a, (a < nv)%nat -> imaginary_part (dat ev [a]) = 0) /\
  forall a i, (a < nv)%nat -> (i < no)%nat -> real_part (dat eo [i]) + g <= real_part (dat ev [a]).
(** W is the adjoint of V *)
Definition adjoint2 (no nv : nat) (V W : tensor CK) : Prop :=
  shp W = [no; nv] /\ forall i a, (i < no)%nat -> (a < nv)%nat -> dat W [i; a] = conj_of (dat V [a; i]).
Definition adjoint4 (no no' nv nv' : nat) (V W : tensor CK) : Prop :=
  shp W = [no; no'; nv; nv'] /\
  forall i j a b, (i < no)%nat -> (j < no')%nat -> (a < nv)%nat -> (b < nv')%nat -> dat W [i; j; a; b] = conj_of (dat V [a; b; i; j]).
(** sums of squared moduli; all entries are zero *)
Definition moduli2 (no nv : nat) (W : tensor CK) : R := Sum no (fun i => Sum nv (fun a => modulus2 (dat W [i; a]))).
Definition moduli4 (no no' nv nv' : nat) (W : tensor CK) : R :=
  Sum no (fun i => Sum no' (fun j => Sum nv (fun a => Sum nv' (fun b => modulus2 (dat W [i; j; a; b]))))).
Definition vanish2 (no nv : nat) (W : tensor CK) : Prop := forall i a, (i < no)%nat -> (a < nv)%nat -> dat W [i; a] = (0, 0).
Definition vanish4 (no no' nv nv' : nat) (W : tensor CK) : Prop :=
  forall i j a b, (i < no)%nat -> (j < no')%nat -> (a < nv)%nat -> (b < nv')%nat -> dat W [i; j; a; b] = (0, 0).

(** Hermitian integrals of a crystal: the conjugate of (mu nu|la si) at k1 k2 k3 k4
    is (nu mu|si la) at k2 k1 k4 k3, and k_bar is the complex conjugate *)
Definition k_hermitian (f : kscf CK) : Prop :=
  (forall z, k_bar f z = conj_of z) /\
  forall k1 k2 k3 k4 mu nu la si,
    conj_of (k_eri f k1 k2 k3 k4 [mu; nu; la; si]) = k_eri f k2 k1 k4 k3 [nu; mu; si; la].
