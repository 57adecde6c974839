(** Specification vocabulary for the variational property of configuration
    interaction: wave functions as functions of determinants, inner products and
    expectation values as sums over all determinants, quadratic forms.  No
    reference to the program. *)
From Coq Require Import List Arith Bool Reals.
From Verif Require Import Scalar Tensor CISpec UFockSpec RoundSpec.
Import ListNotations.

(** all determinants of m spin orbitals *)
Fixpoint all_dets (m : nat) : list det :=
  match m with
  | O => [[]]
  | S m' => map (cons false) (all_dets m') ++ map (cons true) (all_dets m')
  end.

Section VarSpec.
  Context {K : cring}.
  Local Open Scope K_scope.

  (** sum of products of corresponding entries *)
  Definition dot (u v : list K) : K := lsum (map (fun p => fst p * snd p) (combine u v)).

  (** the wave function sum_k v_k |L_k>: its value at the determinant s *)
  Definition combination (L : list (det * det)) (v : list K) (s : det) : K :=
    lsum (map (fun p => if det_eqb (fst (fst p) ++ snd (fst p)) s then snd p else 0) (combine L v)).

  (** <phi|psi> and <phi|H|psi>, H given by its matrix elements *)
  Definition inner (m : nat) (phi psi : det -> K) : K := lsum (map (fun s => phi s * psi s) (all_dets m)).
  Definition sandwich (m : nat) (H : det -> det -> K) (phi psi : det -> K) : K :=
    lsum (map (fun s => phi s * lsum (map (fun t => H s t * psi t) (all_dets m))) (all_dets m)).

  (** a basis of pairs of determinants of n alpha and n beta orbitals with na
      alpha and nb beta electrons, none of them repeated *)
  Definition sector (n na nb : nat) (x : det * det) : Prop :=
    length (fst x) = n /\ length (snd x) = n /\ nel (fst x) = na /\ nel (snd x) = nb.
  Definition sector_basis (n na nb : nat) (L : list (det * det)) : Prop :=
    NoDup L /\ forall x, In x L -> sector n na nb x.
  (** wave functions with na alpha and nb beta electrons *)
  Definition sector_state (n na nb : nat) (psi : det -> K) : Prop :=
    forall s, length s = (n + n)%nat -> psi s <> 0 -> nel (firstn n s) = na /\ nel (skipn n s) = nb.
End VarSpec.

(** real scalars: not the zero vector; e bounds the quadratic form of a matrix
    given by its action; e bounds the expectation values *)
Definition nonzero (v : list RK) : Prop := exists x, In x v /\ x <> 0%R.
Definition form_bound (k : nat) (A : list RK -> list RK) (e : R) : Prop :=
  forall v : list RK, length v = k -> (e * dot v v <= dot v (A v))%R.
Definition energy_bound (n na nb : nat) (H : det -> det -> RK) (e : R) : Prop :=
  forall psi : det -> RK, sector_state n na nb psi ->
    (e * inner (n + n) psi psi <= sandwich (n + n) H psi psi)%R.

(** integrals over n orbitals; and the symmetry of the integrals of a Hermitian
    operator over real orbitals *)
Definition integrals_ok {K : cring} (n : nat) (ha hb Ia Ib Iab : tensor K) : Prop :=
  shp ha = [n; n] /\ shp hb = [n; n] /\
  shp Ia = [n; n; n; n] /\ shp Ib = [n; n; n; n] /\ shp Iab = [n; n; n; n] /\
  pair_symmetric n (fun p q r s => dat Ia [p; q; r; s]) /\ pair_symmetric n (fun p q r s => dat Ib [p; q; r; s]).
Definition symmetric_h {K : cring} (n : nat) (h : tensor K) : Prop :=
  forall p q, p < n -> q < n -> dat h [p; q] = dat h [q; p].
Definition symmetric_I {K : cring} (n : nat) (I : tensor K) : Prop :=
  forall p q r s, p < n -> q < n -> r < n -> s < n -> dat I [p; q; r; s] = dat I [r; s; p; q].
(** the Hamiltonian of these integrals *)
Definition hamiltonian {K : cring} (n : nat) (ha hb Ia Ib Iab : tensor K) (c : K) : det -> det -> K :=
  H_spatial n c (fun p q => dat ha [p; q]) (fun p q => dat hb [p; q])
    (fun p q r s => dat Ia [p; q; r; s]) (fun p q r s => dat Ib [p; q; r; s]) (fun p q r s => dat Iab [p; q; r; s]).
