(** Vocabulary for the statements about /repo/examples/kpt_hamiltonian.py and
    /repo/examples/kmp2.py: the crystal as one system of orbitals.  No
    reference to the programs. *)
From Coq Require Import List Arith ZArith.
From Verif Require Import Scalar Tensor IntegralsModel IntegralsSpec.
Import ListNotations.

Section KSpec.
  Variable K : cring.
  Local Open Scope K_scope.

  (** The k-points are closed under addition and subtraction modulo reciprocal
      lattice vectors, a finite commutative group, and kconserv gives
      k1 - k2 + k3. *)
  Definition momentum_group (f : kscf K) : Prop :=
    exists (plus : nat -> nat -> nat) (opp : nat -> nat) (gamma : nat),
      (gamma < k_n f)%nat /\
      (forall a, (a < k_n f)%nat -> (opp a < k_n f)%nat /\ plus a (opp a) = gamma /\ plus gamma a = a) /\
      (forall a b, (a < k_n f)%nat -> (b < k_n f)%nat -> (plus a b < k_n f)%nat /\ plus a b = plus b a) /\
      (forall a b c, (a < k_n f)%nat -> (b < k_n f)%nat -> (c < k_n f)%nat -> plus a (plus b c) = plus (plus a b) c) /\
      (forall a b c, (a < k_n f)%nat -> (b < k_n f)%nat -> (c < k_n f)%nat -> kconserv f a b c = plus (plus a (opp b)) c).

  (** The orbitals of a crystal with nk k-points, nocc occupied and nvir
      virtual orbitals at each: first the occupied ones, k-point by k-point, then
      the virtual ones, k-point by k-point.  Orbital P is orbital [orbital_of P]
      of the k-point [momentum_of P]. *)
  Definition momentum_of (nk nocc nvir P : nat) : nat :=
    if Nat.ltb P (nk * nocc) then P / nocc else (P - nk * nocc) / nvir.
  Definition orbital_of (nk nocc nvir P : nat) : nat :=
    if Nat.ltb P (nk * nocc) then P mod nocc else (nocc + (P - nk * nocc) mod nvir)%nat.

  (** the core Hamiltonian over the orbitals at one k-point *)
  Definition k_core (f : kscf K) (k p q : nat) : K :=
    sumN (k_nao f) (fun nu => sumN (k_nao f) (fun mu => k_bar f (korb f k p mu) * dat (k_hcore f k) [mu; nu]) * korb f k q nu).
  (** the matrix elements of the crystal, one-electron and two-electron: zero unless
      momentum is conserved.  w is 1/nk. *)
  Definition crystal_h (f : kscf K) (nocc nvir P Q : nat) : K :=
    let k := momentum_of (k_n f) nocc nvir in let o := orbital_of (k_n f) nocc nvir in
    if Nat.eqb (k P) (k Q) then k_core f (k P) (o P) (o Q) else 0.
  Definition crystal_I (f : kscf K) (w : K) (nocc nvir P Q R S : nat) : K :=
    let k := momentum_of (k_n f) nocc nvir in let o := orbital_of (k_n f) nocc nvir in
    let u X := korb f (k X) (o X) in
    if Nat.eqb (kconserv f (k P) (k R) (k Q)) (k S) then w * kERI f (k P) (k R) (k Q) (k S) (u P) (u R) (u Q) (u S) else 0.

  (** the Fock matrix of the closed shell of the nocc lowest orbitals of every k-point, over
      the orbitals at k-point k *)
  Definition k_fock (f : kscf K) (w : K) (nocc k p q : nat) : K :=
    k_core f k p q + w * sumN (k_n f) (fun l => sumN nocc (fun j =>
      (1 + 1) * kERI f k k l l (korb f k p) (korb f k q) (korb f l j) (korb f l j)
      - kERI f k l l k (korb f k p) (korb f l j) (korb f l j) (korb f k q))).

  (** the orbital energies e k p of all k-points as the energies of the orbitals of the
      crystal *)
  Definition crystal_levels (nk nocc nvir : nat) (e : nat -> nat -> K) (P : nat) : K :=
    e (momentum_of nk nocc nvir P) (orbital_of nk nocc nvir P).
End KSpec.
Arguments momentum_group {K}. Arguments k_core {K}. Arguments crystal_h {K}. Arguments crystal_I {K}. Arguments k_fock {K}. Arguments crystal_levels {K}.
