(** Specification vocabulary for configuration interaction with complex orbitals.
    No reference to the program. *)
From Coq Require Import List Arith Bool Reals.
From Verif Require Import Scalar Tensor CISpec UFockSpec RoundSpec VarSpec NegCSpec.
Import ListNotations.

(** the conjugate wave function, for the left side of an inner product *)
Definition bra (psi : det -> CK) (s : det) : CK := conj_of (psi s).
Definition nonzero_c (v : list CK) : Prop := exists x, In x v /\ x <> (0, 0)%R.
(** e bounds the real part of the form v^* A v of a matrix; of the expectation values *)
Definition form_bound_c (k : nat) (A : list CK -> list CK) (e : R) : Prop :=
  forall v : list CK, length v = k -> (e * real_part (dot (map conj_of v) v) <= real_part (dot (map conj_of v) (A v)))%R.
Definition energy_bound_c (n na nb : nat) (H : det -> det -> CK) (e : R) : Prop :=
  forall psi : det -> CK, sector_state n na nb psi ->
    (e * real_part (inner (n + n) (bra psi) psi) <= real_part (sandwich (n + n) H (bra psi) psi))%R.
(** the integrals of a Hermitian operator over complex orbitals *)
Definition hermitian_integrals (n : nat) (ha hb Ia Ib Iab : tensor CK) (c : CK) : Prop :=
  let h2 (h : tensor CK) := forall p q, p < n -> q < n -> dat h [p; q] = conj_of (dat h [q; p]) in
  let h4 (I : tensor CK) := forall p q r s, p < n -> q < n -> r < n -> s < n -> dat I [p; q; r; s] = conj_of (dat I [r; s; p; q]) in
  imaginary_part c = 0%R /\ h2 ha /\ h2 hb /\ h4 Ia /\ h4 Ib /\ h4 Iab.
