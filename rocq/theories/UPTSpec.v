(** Vocabulary for perturbation theory over spatial orbitals.  No reference to
    the program. *)
From Coq Require Import List Arith.
From Verif Require Import Scalar Tensor.
Import ListNotations.

(** energies of the occupied orbitals, then of the virtual orbitals *)
Definition orbital_energy {K : cring} (no : nat) (e_occ e_virt : tensor K) (p : nat) : K :=
  if Nat.ltb p no then dat e_occ [p] else dat e_virt [(p - no)%nat].
(** spin orbitals: n alpha, then n beta *)
Definition two_spins {K : cring} (n : nat) (ea eb : nat -> K) (p : nat) : K := if Nat.ltb p n then ea p else eb (p - n)%nat.
(** T is the array of quotients -V/D, and no entry of D is zero *)
Definition quotient {K : cring} (sh : list nat) (V D T : tensor K) : Prop :=
  shp T = sh /\
  forall idx, Forall2 lt idx sh -> (exists x, x * dat D idx = 1)%K /\ (dat T idx * dat D idx = - dat V idx)%K.
