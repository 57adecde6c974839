(** Specification vocabulary for Rayleigh-Schroedinger perturbation theory in
    Fock space.  No reference to the program. *)
From Coq Require Import List Arith.
From Verif Require Import Scalar CISpec CIExpSpec CCFockSpec.
Import ListNotations.

Section PT.
  Variable K : cring.
  Local Open Scope K_scope.
  Notation opsum := (list (K * list op)).

  (** H0 = sum e_p a+_p a_p over n orbitals *)
  Definition diagonal (n : nat) (e : nat -> K) : opsum := map (fun p => (e p, [Cre p; Ann p])) (seq 0 n).
  Definition one : opsum := [(1, [])].
  Definition minus (A B : opsum) : opsum := A ++ opscale (- (1)) B.

  (** |ref> is an eigenstate of H0 *)
  Definition eigenstate (n : nat) (ref : det) (H0 : opsum) (E0 : K) : Prop :=
    forall bra, length bra = n -> amp bra H0 ref = E0 * amp bra one ref.

  (** Psi|ref> is a first order wave function for the perturbation V: it has as
      many electrons as |ref>, <ref|Psi|ref> = 0, and
      (H0 - E0) Psi|ref> = (E1 - V)|ref> *)
  Definition first_order (n : nat) (ref : det) (H0 V : opsum) (E0 E1 : K) (Psi : opsum) : Prop :=
    amp ref Psi ref = 0 /\
    (forall bra, length bra = n -> nel bra <> nel ref -> amp bra Psi ref = 0) /\
    (forall bra, length bra = n ->
       amp bra (opmul H0 Psi) ref - E0 * amp bra Psi ref = E1 * amp bra one ref - amp bra V ref).
End PT.
Arguments diagonal {K}. Arguments one {K}. Arguments minus {K}. Arguments eigenstate {K}. Arguments first_order {K}.
