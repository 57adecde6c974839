(** Specification vocabulary for coupled cluster theory in Fock space: the
    electronic Hamiltonian, the cluster operator, its exponential and the
    similarity transformed Hamiltonian, as sums of products of fermion
    operators (CIExpSpec.v).  No reference to the program. *)
From Coq Require Import List Arith Factorial.
From Verif Require Import Scalar Tensor CISpec CIExpSpec CCSpec.
Import ListNotations.

Section CCFock.
  Variable K : cring.
  Local Open Scope K_scope.
  Notation opsum := (list (K * list op)).

  (** c A, and 1 + A + A^2/2 + ... + A^M/M!; inv d is the inverse of the number d *)
  Definition opscale (c : K) (A : opsum) : opsum := map (fun a => (c * fst a, snd a)) A.
  Definition opexp (inv : nat -> K) (M : nat) (A : opsum) : opsum :=
    flat_map (fun k => opscale (inv (fact k)) (opow A k)) (seq 0 (S M)).
  Definition inverts (inv : nat -> K) (M : nat) : Prop :=
    forall k, (k <= M)%nat -> nK K (fact k) * inv (fact k) = 1.

  (** H = sum h_pq a+_p a_q + 1/4 sum g_pqrs a+_p a+_q a_s a_r over n orbitals *)
  Definition H_op (n : nat) (h : nat -> nat -> K) (g : nat -> nat -> nat -> nat -> K) : opsum :=
    flat_map (fun p => map (fun q => (h p q, [Cre p; Ann q])) (seq 0 n)) (seq 0 n) ++
    flat_map (fun p => flat_map (fun q => flat_map (fun r => map (fun s =>
      (quarter * g p q r s, [Cre p; Cre q; Ann s; Ann r])) (seq 0 n)) (seq 0 n)) (seq 0 n)) (seq 0 n).

  (** T = sum t_ai a+_a a_i + 1/4 sum t_abij a+_a a+_b a_j a_i; the occupied orbitals
      are 0 .. no-1, the virtual orbitals no .. no+nv-1 *)
  Definition T_op (no nv : nat) (t1 : nat -> nat -> K) (t2 : nat -> nat -> nat -> nat -> K) : opsum :=
    flat_map (fun a => map (fun i => (t1 a i, [Cre (no + a); Ann i])) (seq 0 no)) (seq 0 nv) ++
    flat_map (fun a => flat_map (fun b => flat_map (fun i => map (fun j =>
      (quarter * t2 a b i j, [Cre (no + a); Cre (no + b); Ann j; Ann i])) (seq 0 no)) (seq 0 no))
      (seq 0 nv)) (seq 0 nv).

  (** the cluster operator with the amplitudes in the arrays T1 and T2 *)
  Definition cluster (no nv : nat) (T1 T2 : tensor K) : opsum :=
    T_op no nv (fun a i => dat T1 [a; i]) (fun a b i j => dat T2 [a; b; i; j]).

  (** exp(-T) A exp(T) *)
  Definition transformed (inv : nat -> K) (M : nat) (T A : opsum) : opsum :=
    opmul (opexp inv M (opscale (- (1)) T)) (opmul A (opexp inv M T)).

  (** g is antisymmetric in its first two and in its last two orbitals *)
  Definition antisym_ints (n : nat) (g : nat -> nat -> nat -> nat -> K) : Prop :=
    forall p q r s, (p < n)%nat -> (q < n)%nat -> (r < n)%nat -> (s < n)%nat ->
      g p q r s = - g q p r s /\ g p q r s = - g p q s r.

  (** the Fock matrix f_pq = h_pq + sum_i g_piqi *)
  Definition fock (no : nat) (h : nat -> nat -> K) (g : nat -> nat -> nat -> nat -> K) (p q : nat) : K :=
    h p q + sumN no (fun i => g p i q i).

  (** F holds the blocks of the matrix f, I those of g *)
  Definition blocks1 (no nv : nat) (f : nat -> nat -> K) (F : one_e K) : Prop :=
    one_e_ok no nv F /\
    (forall i j, (i < no)%nat -> (j < no)%nat -> dat (oo F) [i; j] = f i j) /\
    (forall i a, (i < no)%nat -> (a < nv)%nat -> dat (ov F) [i; a] = f i (no + a)%nat) /\
    (forall a i, (a < nv)%nat -> (i < no)%nat -> dat (vo F) [a; i] = f (no + a)%nat i) /\
    (forall a b, (a < nv)%nat -> (b < nv)%nat -> dat (vv F) [a; b] = f (no + a)%nat (no + b)%nat).
  Definition block2 (t : tensor K) (g : nat -> nat -> nat -> nat -> K) (s1 d1 s2 d2 s3 d3 s4 d4 : nat) : Prop :=
    shp t = [d1; d2; d3; d4] /\
    forall p q r s, (p < d1)%nat -> (q < d2)%nat -> (r < d3)%nat -> (s < d4)%nat ->
      dat t [p; q; r; s] = g (s1 + p)%nat (s2 + q)%nat (s3 + r)%nat (s4 + s)%nat.
  Definition blocks2 (no nv : nat) (g : nat -> nat -> nat -> nat -> K) (I : two_e K) : Prop :=
    block2 (vvvv I) g no nv no nv no nv no nv /\
    block2 (vvvo I) g no nv no nv no nv 0 no /\
    block2 (vovv I) g no nv 0 no no nv no nv /\
    block2 (vvoo I) g no nv no nv 0 no 0 no /\
    block2 (vovo I) g no nv 0 no no nv 0 no /\
    block2 (oovv I) g 0 no 0 no no nv no nv /\
    block2 (vooo I) g no nv 0 no 0 no 0 no /\
    block2 (ooov I) g 0 no 0 no 0 no no nv /\
    block2 (oooo I) g 0 no 0 no 0 no 0 no.
End CCFock.
Arguments opscale {K}. Arguments opexp {K}. Arguments inverts {K}. Arguments H_op {K}. Arguments T_op {K}.
Arguments cluster {K}. Arguments transformed {K}. Arguments antisym_ints {K}. Arguments fock {K}. Arguments blocks1 {K}.
Arguments block2 {K}. Arguments blocks2 {K}.
