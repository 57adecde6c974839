(** Specification vocabulary for ci_utils.py: determinants as 0/1 strings and
    the fermionic operators on them, with Jordan-Wigner phases.  Independent of
    the model in CIModel.v. *)
From Coq Require Import List Bool Arith ZArith.
From Verif Require Import Scalar Tensor.
Import ListNotations.

(** A determinant of [length s] orbitals: [nth p s] says whether orbital p is
    occupied. *)
Definition det := list bool.
Definition occd (s : det) (p : nat) : bool := nth p s false.

(** number of electrons *)
Fixpoint nel (s : det) : nat :=
  match s with [] => 0 | b :: s' => (if b then 1 else 0) + nel s' end.

(** s with the occupation of orbital p replaced by b *)
Fixpoint put (p : nat) (b : bool) (s : det) {struct s} : det :=
  match s, p with
  | [], _ => []
  | _ :: s', O => b :: s'
  | x :: s', S p' => x :: put p' b s'
  end.

(** [true] iff an odd number of orbitals below p is occupied: the phase of an
    operator acting on orbital p *)
Fixpoint odd_below (p : nat) (s : det) : bool :=
  match p, s with
  | S p', b :: s' => xorb b (odd_below p' s')
  | _, _ => false
  end.

(** Operators.  A product of operators, the rightmost acting first, sends a
    determinant to zero ([None]) or to a determinant with a sign ([true] is
    minus). *)
Inductive op := Cre (p : nat) | Ann (p : nat).

Definition act1 (o : op) (s : det) : option (bool * det) :=
  match o with
  | Ann p => if occd s p then Some (odd_below p s, put p false s) else None
  | Cre p => if Nat.ltb p (length s) && negb (occd s p)
             then Some (odd_below p s, put p true s) else None
  end.

Fixpoint act (ops : list op) (s : det) : option (bool * det) :=
  match ops with
  | [] => Some (false, s)
  | o :: ops' =>
      match act ops' s with
      | Some (g, s') =>
          match act1 o s' with
          | Some (g', s'') => Some (xorb g' g, s'')
          | None => None
          end
      | None => None
      end
  end.

Fixpoint det_eqb (s t : det) : bool :=
  match s, t with
  | [], [] => true
  | a :: s', b :: t' => Bool.eqb a b && det_eqb s' t'
  | _, _ => false
  end.

(** number of orbitals with different occupation *)
Fixpoint ndiff (s t : det) : nat :=
  match s, t with
  | a :: s', b :: t' => (if Bool.eqb a b then 0 else 1) + ndiff s' t'
  | _, _ => 0
  end.

(** t has the electrons of s with k of them moved to other orbitals *)
Definition excited (k : nat) (s t : det) : Prop :=
  length t = length s /\ nel t = nel s /\ ndiff s t = 2 * k.

(** the alpha and beta determinants reached from A and B by at most m
    excitations in total, each within one spin *)
Definition u_space (m : nat) (A B : det) (x : det * det) : Prop :=
  exists ka kb, excited ka A (fst x) /\ excited kb B (snd x) /\ ka + kb <= m.

(** bra is ket with the electrons of o1 < o2 moved to the empty v1 < v2 *)
Definition moved2 (ket bra : det) (o1 o2 v1 v2 : nat) : Prop :=
  o1 < o2 /\ v1 < v2 /\ v2 < length ket /\
  occd ket o1 = true /\ occd ket o2 = true /\ occd ket v1 = false /\ occd ket v2 = false /\
  bra = put v1 true (put v2 true (put o2 false (put o1 false ket))).

(** binomial coefficients *)
Fixpoint binom (n k : nat) : nat :=
  match n, k with
  | _, O => 1
  | O, S _ => 0
  | S n', S k' => binom n' k' + binom n' k
  end.

(** the determinant with the first [k] of [n] orbitals occupied *)
Definition aufbau (n k : nat) : det := map (fun i => Nat.ltb i k) (seq 0 n).

Section Amplitudes.
  Variable K : cring.
  Local Open Scope K_scope.

  Definition sgn (g : bool) : K := if g then - (1) else 1.

  (** the amplitude of [bra] in [ops |ket>] *)
  Definition braket (bra : det) (ops : list op) (ket : det) : K :=
    match act ops ket with
    | Some (g, s) => if det_eqb s bra then sgn g else 0
    | None => 0
    end.

  (** <bra|H|ket> for a Hamiltonian in a basis of n spin orbitals,
      H = c + sum h_pq a+_p a_q + 1/2 sum I_pqrs a+_p a+_q a_s a_r
      (I_pqrs = <pq|rs>, physicists' order, not antisymmetrized) *)
  Definition H1 (n : nat) (h : nat -> nat -> K) (bra ket : det) : K :=
    sumN n (fun p => sumN n (fun q => h p q * braket bra [Cre p; Ann q] ket)).
  Definition H2 (n : nat) (I : nat -> nat -> nat -> nat -> K) (bra ket : det) : K :=
    sumN n (fun p => sumN n (fun q => sumN n (fun r => sumN n (fun s =>
      I p q r s * braket bra [Cre p; Cre q; Ann s; Ann r] ket)))).
  Definition H_spin_orbital (n : nat) (c : K) h I (bra ket : det) : K :=
    c * braket bra [] ket + H1 n h bra ket + chalf * H2 n I bra ket.

  (** The same for n alpha and n beta orbitals: the alpha orbitals come first
      in the order of the spin orbitals, a determinant is the string
      [alpha ++ beta]; ha, hb, Ia, Ib, Iab are the integrals over spatial
      orbitals. *)
  Definition H_spatial (n : nat) (c : K) (ha hb : nat -> nat -> K)
      (Ia Ib Iab : nat -> nat -> nat -> nat -> K) (bra ket : det) : K :=
    let b p := (n + p)%nat in
    c * braket bra [] ket
    + sumN n (fun p => sumN n (fun q => ha p q * braket bra [Cre p; Ann q] ket))
    + sumN n (fun p => sumN n (fun q => hb p q * braket bra [Cre (b p); Ann (b q)] ket))
    + chalf * sumN n (fun p => sumN n (fun q => sumN n (fun r => sumN n (fun s =>
        Ia p q r s * braket bra [Cre p; Cre q; Ann s; Ann r] ket))))
    + chalf * sumN n (fun p => sumN n (fun q => sumN n (fun r => sumN n (fun s =>
        Ib p q r s * braket bra [Cre (b p); Cre (b q); Ann (b s); Ann (b r)] ket))))
    + sumN n (fun p => sumN n (fun q => sumN n (fun r => sumN n (fun s =>
        Iab p q r s * braket bra [Cre p; Cre (b q); Ann (b s); Ann r] ket)))).

  (** The operator with matrix elements [amp J K] = <J|..|K> on the vector with
      coefficients [vec] in the basis [L], projected on that basis. *)
  Definition project {A} (amp : A -> A -> K) (L : list A) (vec : list K) : list K :=
    map (fun J => lsum (map (fun Kx => amp J (fst Kx) * snd Kx) (combine L vec))) L.
End Amplitudes.
Arguments sgn {K}. Arguments braket {K}. Arguments H1 {K}. Arguments H2 {K}.
Arguments H_spin_orbital {K}. Arguments H_spatial {K}. Arguments project {K A}.
