(** Specification vocabulary for the random phase approximation: the particle-hole
    matrix, and the particle-particle matrix over pairs of orbitals.  The occupied
    orbitals are 0 .. no-1, the virtual orbitals no .. no+nv-1; e are the orbital
    energies and g the antisymmetrised integrals <pq||rs>.  No reference to the
    program. *)
From Coq Require Import List Arith.
From Verif Require Import Scalar.
Import ListNotations.

Section RPA.
  Variable K : cring.
  Local Open Scope K_scope.
  Variables no nv : nat.
  Variable e : nat -> K.
  Variable g : nat -> nat -> nat -> nat -> K.

  (** 1 if p = q, else 0 *)
  Definition kron (p q : nat) : K := if Nat.eqb p q then 1 else 0.

  (** sum over all pairs of a virtual and an occupied orbital *)
  Definition sum_ph (f : nat -> nat -> K) : K := sumN nv (fun c => sumN no (fun k => f c k)).

  (** A_ai,bj = delta_ab delta_ij (e_a - e_i) + <aj||ib>;
      B_ai,bj = <ab||ij>;  B'_ai,bj = <ij||ab> *)
  Definition rpa_A (a i b j : nat) : K :=
    kron a b * kron i j * (e (no + a)%nat - e i) + g (no + a)%nat j i (no + b)%nat.
  Definition rpa_B (a i b j : nat) : K := g (no + a)%nat (no + b)%nat i j.
  Definition rpa_B' (a i b j : nat) : K := g i j (no + a)%nat (no + b)%nat.

  (** The columns of (t, 1) span an invariant subspace of the RPA matrix, on which
      it acts as W:
        ( A   B  ) ( t )   ( t )
        (-B' -A^T) ( 1 ) = ( 1 ) W *)
  Definition rpa_solution (t W : nat -> nat -> nat -> nat -> K) : Prop :=
    forall a i b j, (a < nv)%nat -> (i < no)%nat -> (b < nv)%nat -> (j < no)%nat ->
      sum_ph (fun c k => rpa_A a i c k * t c k b j) + rpa_B a i b j = sum_ph (fun c k => t a i c k * W c k b j) /\
      - sum_ph (fun c k => rpa_B' a i c k * t c k b j) - rpa_A b j a i = W a i b j.

  (** sums over pairs of virtual and of occupied orbitals; each pair occurs twice *)
  Definition sum_vv (f : nat -> nat -> K) : K := chalf * sumN nv (fun c => sumN nv (fun d => f c d)).
  Definition sum_oo (f : nat -> nat -> K) : K := chalf * sumN no (fun k => sumN no (fun l => f k l)).

  (** The same for the particle-particle matrix, on antisymmetric functions of a pair:
        (  e_a + e_b + <ab||cd>      <ab||kl>           ) ( t )   ( t )
        ( -<ij||cd>                  e_i + e_j - <ij||kl> ) ( 1 ) = ( 1 ) W *)
  Definition pair_one (i j k l : nat) : K := kron i k * kron j l - kron i l * kron j k.
  Definition pprpa_solution (t W : nat -> nat -> nat -> nat -> K) : Prop :=
    (forall a b i j, (a < nv)%nat -> (b < nv)%nat -> (i < no)%nat -> (j < no)%nat ->
      (e (no + a)%nat + e (no + b)%nat) * t a b i j
        + sum_vv (fun c d => g (no + a)%nat (no + b)%nat (no + c)%nat (no + d)%nat * t c d i j)
        + sum_oo (fun k l => g (no + a)%nat (no + b)%nat k l * pair_one k l i j)
      = sum_oo (fun k l => t a b k l * W k l i j)) /\
    (forall k l i j, (k < no)%nat -> (l < no)%nat -> (i < no)%nat -> (j < no)%nat ->
      - sum_vv (fun c d => g k l (no + c)%nat (no + d)%nat * t c d i j)
        + (e k + e l) * pair_one k l i j
        - sum_oo (fun m n => g k l m n * pair_one m n i j)
      = W k l i j).
End RPA.
Arguments kron {K}. Arguments sum_ph {K}. Arguments rpa_A {K}. Arguments rpa_B {K}. Arguments rpa_B' {K}.
Arguments rpa_solution {K}. Arguments sum_vv {K}. Arguments sum_oo {K}. Arguments pair_one {K}. Arguments pprpa_solution {K}.
