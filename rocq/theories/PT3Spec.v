(** Specification vocabulary for the second order wave function of
    Rayleigh-Schroedinger perturbation theory.  No reference to the program. *)
From Coq Require Import List Arith.
From Verif Require Import Scalar CISpec CIExpSpec PTSpec.
Import ListNotations.

Section PT3.
  Variable K : cring.
  Local Open Scope K_scope.
  Notation opsum := (list (K * list op)).

  (** Psi2|ref> is a second order wave function for the perturbation V that belongs
      to the first order wave function Psi1|ref>: it has as many electrons as |ref>,
      <ref|Psi2|ref> = 0, and, with E2 = <ref|V Psi1|ref>,
      (H0 - E0) Psi2|ref> = (E1 - V) Psi1|ref> + E2|ref> *)
  Definition second_order (n : nat) (ref : det) (H0 V : opsum) (E0 E1 : K) (Psi1 Psi2 : opsum) : Prop :=
    amp ref Psi2 ref = 0 /\
    (forall bra, length bra = n -> nel bra <> nel ref -> amp bra Psi2 ref = 0) /\
    (forall bra, length bra = n ->
       amp bra (opmul H0 Psi2) ref - E0 * amp bra Psi2 ref
       = E1 * amp bra Psi1 ref - amp bra (opmul V Psi1) ref + amp ref (opmul V Psi1) ref * amp bra one ref).

  (** the matrix f with the orbital energies taken off its diagonal *)
  Definition off_energies (e : nat -> K) (f : nat -> nat -> K) (p q : nat) : K :=
    f p q - (if Nat.eqb p q then e p else 0).
End PT3.
Arguments second_order {K}. Arguments off_energies {K}.
