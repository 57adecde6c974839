(** Specification vocabulary for coupled cluster density matrices: the
    de-excitation operator Lambda, normal ordering with respect to the
    reference determinant, and expectation values between <0|(c + Lambda) exp(-T)
    and exp(T)|0>.  No reference to the program. *)
From Coq Require Import List Bool Arith.
From Verif Require Import Scalar Tensor CISpec CIExpSpec CCSpec CCFockSpec.
Import ListNotations.

(** Normal ordering: the operators that annihilate the reference (creators of
    occupied and annihilators of virtual orbitals) go to the right of the others,
    with a sign for every exchange of two operators. *)
Definition annihilates (no : nat) (o : op) : bool :=
  match o with Cre p => Nat.ltb p no | Ann p => Nat.leb no p end.
Definition nprod (no : nat) (w : list op) : list op :=
  filter (fun o => negb (annihilates no o)) w ++ filter (annihilates no) w.
Fixpoint nsign (no : nat) (w : list op) : bool :=
  match w with
  | [] => false
  | o :: w' => xorb (annihilates no o && Nat.odd (length (filter (fun x => negb (annihilates no x)) w'))) (nsign no w')
  end.

(** the operators of the element P_pq and P_pqrs of a density matrix *)
Definition rdm_word (l : list nat) : list op :=
  match l with
  | [p; q] => [Cre q; Ann p]
  | [p; q; r; s] => [Cre r; Cre s; Ann q; Ann p]
  | _ => []
  end.

(** blocks: true stands for virtual, false for occupied *)
Definition extent (no nv : nat) (v : bool) : nat := if v then nv else no.
Definition orbital (no : nat) (v : bool) (x : nat) : nat := if v then no + x else x.
Definition orbitals (no : nat) (vs : list bool) (xs : list nat) : list nat :=
  map (fun vx => orbital no (fst vx) (snd vx)) (combine vs xs).

Section CCDens.
  Variable K : cring.
  Local Open Scope K_scope.
  Notation opsum := (list (K * list op)).

  (** c + sum l_ia a+_i a_a + 1/4 sum l_ijab a+_i a+_j a_b a_a *)
  Definition lambda_op (no nv : nat) (c : K) (l1 : nat -> nat -> K) (l2 : nat -> nat -> nat -> nat -> K) : opsum :=
    (c, []) ::
    flat_map (fun i => map (fun a => (l1 i a, [Cre i; Ann (no + a)])) (seq 0 nv)) (seq 0 no) ++
    flat_map (fun i => flat_map (fun j => flat_map (fun a => map (fun b =>
      (quarter * l2 i j a b, [Cre i; Cre j; Ann (no + b); Ann (no + a)])) (seq 0 nv)) (seq 0 nv))
      (seq 0 no)) (seq 0 no).

  (** <0| (c + Lambda) exp(-T) A exp(T) |0> with the amplitudes in T1, T2, L1, L2 *)
  Definition cc_expect (inv : nat -> K) (M no nv : nat) (c : K) (T1 T2 L1 L2 : tensor K) (A : opsum) : K :=
    amp (aufbau (no + nv) no)
      (opmul (lambda_op no nv c (fun i a => dat L1 [i; a]) (fun i j a b => dat L2 [i; j; a; b]))
         (transformed inv M (cluster no nv T1 T2) A))
      (aufbau (no + nv) no).

  (** [A, B] = A B - B A *)
  Definition commutator (A B : opsum) : opsum := opmul A B ++ opscale (- (1)) (opmul B A).

  (** <0| (c + Lambda) [exp(-T) A exp(T), B] |0> *)
  Definition cc_commutator (inv : nat -> K) (M no nv : nat) (c : K) (T1 T2 L1 L2 : tensor K) (A B : opsum) : K :=
    amp (aufbau (no + nv) no)
      (opmul (lambda_op no nv c (fun i a => dat L1 [i; a]) (fun i j a b => dat L2 [i; j; a; b]))
         (commutator (transformed inv M (cluster no nv T1 T2) A) B))
      (aufbau (no + nv) no).

  (** the expectation value of a product of operators, and of its normal ordered form *)
  Definition word_expect inv M no nv c T1 T2 L1 L2 (w : list op) : K :=
    cc_expect inv M no nv c T1 T2 L1 L2 [(1, w)].
  Definition normal_expect inv M no nv c T1 T2 L1 L2 (w : list op) : K :=
    sgn (nsign no w) * word_expect inv M no nv c T1 T2 L1 L2 (nprod no w).
End CCDens.
Arguments lambda_op {K}. Arguments commutator {K}. Arguments cc_commutator {K}. Arguments cc_expect {K}. Arguments word_expect {K}. Arguments normal_expect {K}.
