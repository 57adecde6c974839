(** Specification vocabulary for cluster expansions: sums of products of
    fermion operators, their powers and their exponential on a determinant. *)
From Coq Require Import List Arith Factorial.
From Verif Require Import Scalar CISpec.
Import ListNotations.

Section Exp.
  Variable K : cring.
  Local Open Scope K_scope.

  (** A list of coefficients and operator products stands for the sum of the
      products with their coefficients. *)
  Notation opsum := (list (K * list op)).

  (** the product and the powers of such operators *)
  Definition opmul (A B : opsum) : opsum :=
    flat_map (fun a => map (fun b => (fst a * fst b, snd a ++ snd b)%list) B) A.
  Fixpoint opow (T : opsum) (k : nat) : opsum :=
    match k with O => [(1, [])] | S k' => opmul T (opow T k') end.

  (** the amplitude of bra in T|ket> *)
  Definition amp (bra : det) (T : opsum) (ket : det) : K :=
    lsum (map (fun t => fst t * braket bra (snd t) ket) T).

  (** the amplitude of bra in (1 + T + T^2/2 + ... + T^M/M!)|ket>; inv d is the
      inverse of the number d *)
  Definition exp_amp (inv : nat -> K) (M : nat) (bra : det) (T : opsum) (ket : det) : K :=
    sumN (S M) (fun k => inv (fact k) * amp bra (opow T k) ket).

  (** Excitation operators.  o i is the i-th of no occupied orbitals, v a the
      a-th of nv virtual orbitals:
      sum_ia t_ai a+_a a_i,
      sum_(i<j, a<b) t_abij a+_a a+_b a_j a_i, and the sum over all i, j, a, b
      for two kinds of electrons. *)
  Definition singles (no nv : nat) (o v : nat -> nat) (t : nat -> nat -> K) : opsum :=
    flat_map (fun i => map (fun a => (t a i, [Cre (v a); Ann (o i)])) (seq 0 nv)) (seq 0 no).
  (** the pairs i < j below n *)
  Definition below (n : nat) : list (nat * nat) :=
    flat_map (fun i => map (fun j => (i, j)) (seq (i + 1) (n - (i + 1)))) (seq 0 n).
  Definition doubles (no nv : nat) (o v : nat -> nat) (t : nat -> nat -> nat -> nat -> K) : opsum :=
    flat_map (fun ij => map (fun ab =>
      (t (fst ab) (snd ab) (fst ij) (snd ij),
       [Cre (v (fst ab)); Cre (v (snd ab)); Ann (o (snd ij)); Ann (o (fst ij))])) (below nv)) (below no).
  Definition mixed_doubles (noa nva nob nvb : nat) (oa va ob vb : nat -> nat)
      (t : nat -> nat -> nat -> nat -> K) : opsum :=
    flat_map (fun ij => map (fun ab =>
      (t (fst ab) (snd ab) (fst ij) (snd ij),
       [Cre (va (fst ab)); Cre (vb (snd ab)); Ann (ob (snd ij)); Ann (oa (fst ij))]))
      (list_prod (seq 0 nva) (seq 0 nvb))) (list_prod (seq 0 noa) (seq 0 nob)).

  (** T1 + T2 for two spins of n orbitals each, the first noa and nob of which
      are occupied.  The alpha orbitals are 0 .. n-1, the beta orbitals n .. 2n-1. *)
  Definition T_alpha1 (noa nva : nat) (t1a : nat -> nat -> K) : opsum :=
    singles noa nva (fun i => i) (fun a => a + noa)%nat t1a.
  Definition T_beta1 (n nob nvb : nat) (t1b : nat -> nat -> K) : opsum :=
    singles nob nvb (fun i => n + i)%nat (fun a => n + (a + nob))%nat t1b.
  Definition T_alpha2 (noa nva : nat) (t2aa : nat -> nat -> nat -> nat -> K) : opsum :=
    doubles noa nva (fun i => i) (fun a => a + noa)%nat t2aa.
  Definition T_mixed2 (n noa nva nob nvb : nat) (t2ab : nat -> nat -> nat -> nat -> K) : opsum :=
    mixed_doubles noa nva nob nvb (fun i => i) (fun a => a + noa)%nat
      (fun i => n + i)%nat (fun a => n + (a + nob))%nat t2ab.
  Definition T_beta2 (n nob nvb : nat) (t2bb : nat -> nat -> nat -> nat -> K) : opsum :=
    doubles nob nvb (fun i => n + i)%nat (fun a => n + (a + nob))%nat t2bb.
  Definition T_spins (n noa nva nob nvb : nat) (t1a t1b : nat -> nat -> K)
      (t2aa t2ab t2bb : nat -> nat -> nat -> nat -> K) : opsum :=
    T_alpha1 noa nva t1a ++ T_beta1 n nob nvb t1b ++
    T_alpha2 noa nva t2aa ++ T_mixed2 n noa nva nob nvb t2ab ++ T_beta2 n nob nvb t2bb.

  (** T1 + T2 for spin orbitals, the occupied and virtual ones in the lists occ and vir *)
  Definition T_spin_orbitals (occ vir : list nat) (t1 : nat -> nat -> K)
      (t2 : nat -> nat -> nat -> nat -> K) : opsum :=
    let o i := nth i occ 0%nat in let v a := nth a vir 0%nat in
    singles (length occ) (length vir) o v t1 ++ doubles (length occ) (length vir) o v t2.
End Exp.
Arguments opmul {K}. Arguments opow {K}. Arguments amp {K}. Arguments exp_amp {K}.
Arguments singles {K}. Arguments doubles {K}. Arguments mixed_doubles {K}.
Arguments T_alpha1 {K}. Arguments T_beta1 {K}. Arguments T_alpha2 {K}. Arguments T_mixed2 {K}. Arguments T_beta2 {K}.
Arguments T_spins {K}. Arguments T_spin_orbitals {K}.
