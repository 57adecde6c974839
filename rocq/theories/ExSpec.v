(** Specification vocabulary for the CI calculations in /repo/examples:
    eigenvectors, and the equations of configuration interaction with single
    excitations (CIS).  No reference to the program. *)
From Coq Require Import List Arith.
From Verif Require Import Scalar Tensor CISpec CIExpSpec UFockSpec.
Import ListNotations.

Section ExSpec.
  Variable K : cring.
  Local Open Scope K_scope.
  Notation opsum := (list (K * list op)).

  (** the matrix with rows M times the vector v *)
  Definition mat_vec (M : list (list K)) (v : list K) : list K :=
    map (fun row => lsum (map (fun p => fst p * snd p) (combine row v))) M.
  Definition eigenvector (M : list (list K)) (v : list K) (E : K) : Prop := mat_vec M v = map (cmul E) v.

  (** the coefficients of A|ref> in the basis L of pairs of determinants *)
  Definition coefficients (L : list (det * det)) (A : opsum) (ref : det) : list K :=
    map (fun x => amp (fst x ++ snd x) A ref) L.

  (** sum ta_ai a+_a a_i + sum tb_ai b+_a b_i, the virtual orbital a being
      orbital noa + a of the alpha orbitals and nob + a of the beta orbitals *)
  Definition u_singles (n noa nva nob nvb : nat) (ta tb : nat -> nat -> K) : opsum :=
    T_alpha1 noa nva ta ++ T_beta1 n nob nvb tb.

  (** The CIS matrix times the amplitudes.  For alpha:
      sum_b F_ab t_bi - sum_j F_ji t_aj + sum_bj <aj||ib> t_bj + sum_bj <aj|ib> t'_bj,
      t the alpha and t' the beta amplitudes. *)
  Definition cis_alpha (noa nva nob nvb : nat) (F : nat -> nat -> K) (Ia Iab : nat -> nat -> nat -> nat -> K)
      (ta tb : nat -> nat -> K) (a i : nat) : K :=
    sumN nva (fun b => F (noa + a)%nat (noa + b)%nat * ta b i) - sumN noa (fun j => F j i * ta a j)
    + sumN nva (fun b => sumN noa (fun j => anti Ia (noa + a) j i (noa + b) * ta b j))
    + sumN nvb (fun b => sumN nob (fun j => Iab (noa + a)%nat j i (nob + b)%nat * tb b j)).
  Definition cis_beta (noa nva nob nvb : nat) (F : nat -> nat -> K) (Ib Iab : nat -> nat -> nat -> nat -> K)
      (ta tb : nat -> nat -> K) (a i : nat) : K :=
    sumN nvb (fun b => F (nob + a)%nat (nob + b)%nat * tb b i) - sumN nob (fun j => F j i * tb a j)
    + sumN nvb (fun b => sumN nob (fun j => anti Ib (nob + a) j i (nob + b) * tb b j))
    + sumN nva (fun b => sumN noa (fun j => Iab j (nob + a)%nat (noa + b)%nat i * ta b j)).

  (** the energy of the reference determinant, without the constant *)
  Definition u_energy (noa nob : nat) (ha hb : nat -> nat -> K) (Ia Ib Iab : nat -> nat -> nat -> nat -> K) : K :=
    sumN noa (fun i => ha i i) + sumN nob (fun i => hb i i)
    + chalf * sumN noa (fun i => sumN noa (fun j => anti Ia i j i j))
    + chalf * sumN nob (fun i => sumN nob (fun j => anti Ib i j i j))
    + sumN noa (fun i => sumN nob (fun j => Iab i j i j)).

  (** Closed shells with no doubly occupied orbitals.  The Fock matrix, and the CIS
      (Tamm-Dancoff) matrices of singlet and triplet excitations times x:
      singlet: F_ab - F_ji + 2 <aj|ib> - <aj|bi>, triplet: F_ab - F_ji - <aj|bi>. *)
  Definition closed_fock (no : nat) (h : nat -> nat -> K) (I : nat -> nat -> nat -> nat -> K) (p q : nat) : K :=
    h p q + sumN no (fun i => (1 + 1) * I p i q i - I p i i q).
  Definition closed_energy (no : nat) (h : nat -> nat -> K) (I : nat -> nat -> nat -> nat -> K) : K :=
    (1 + 1) * sumN no (fun i => h i i) + sumN no (fun i => sumN no (fun j => (1 + 1) * I i j i j - I i j j i)).
  Definition cis_closed (no nv : nat) (s : K) (F : nat -> nat -> K) (I : nat -> nat -> nat -> nat -> K)
      (x : nat -> nat -> K) (a i : nat) : K :=
    sumN nv (fun b => F (no + a)%nat (no + b)%nat * x b i) - sumN no (fun j => F j i * x a j)
    + sumN nv (fun b => sumN no (fun j => (s * I (no + a)%nat j i (no + b)%nat - I (no + a)%nat j (no + b)%nat i) * x b j)).
  Definition tda_singlet no nv := cis_closed no nv (1 + 1).
  Definition tda_triplet no nv := cis_closed no nv 0.

  (** the amplitudes x solve the eigenvalue problem of A with eigenvalue w *)
  Definition solves (nv no : nat) (A : (nat -> nat -> K) -> nat -> nat -> K) (x : nat -> nat -> K) (w : K) : Prop :=
    forall a i, (a < nv)%nat -> (i < no)%nat -> A x a i = w * x a i.
End ExSpec.
Arguments mat_vec {K}. Arguments eigenvector {K}. Arguments coefficients {K}. Arguments u_singles {K}. Arguments cis_alpha {K}. Arguments cis_beta {K}. Arguments u_energy {K}.
Arguments closed_fock {K}. Arguments closed_energy {K}. Arguments cis_closed {K}. Arguments tda_singlet {K}. Arguments tda_triplet {K}. Arguments solves {K}.
