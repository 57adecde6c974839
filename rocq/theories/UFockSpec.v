(** Specification vocabulary for unrestricted coupled cluster theory in Fock
    space.  There are n alpha orbitals 0 .. n-1 and n beta orbitals n .. 2n-1;
    a determinant is the string alpha ++ beta.  No reference to the program. *)
From Coq Require Import List Arith.
From Verif Require Import Scalar Tensor CISpec CIExpSpec CCSpec CCFockSpec.
Import ListNotations.

Section UFockSpec.
  Variable K : cring.
  Local Open Scope K_scope.
  Notation opsum := (list (K * list op)).

  (** The Hamiltonian of [H_spatial] (CISpec.v), as a sum of operator products:
      sum ha_pq a+_p a_q + sum hb_pq b+_p b_q + 1/2 sum Ia_pqrs a+_p a+_q a_s a_r
      + 1/2 sum Ib_pqrs b+_p b+_q b_s b_r + sum Iab_pqrs a+_p b+_q b_s a_r *)
  Definition one_body (n : nat) (x : nat -> nat) (h : nat -> nat -> K) : opsum :=
    flat_map (fun p => map (fun q => (h p q, [Cre (x p); Ann (x q)])) (seq 0 n)) (seq 0 n).
  Definition two_body (n : nat) (x y : nat -> nat) (I : nat -> nat -> nat -> nat -> K) : opsum :=
    flat_map (fun p => flat_map (fun q => flat_map (fun r => map (fun s =>
      (I p q r s, [Cre (x p); Cre (y q); Ann (y s); Ann (x r)])) (seq 0 n)) (seq 0 n)) (seq 0 n)) (seq 0 n).
  Definition H_spatial_op (n : nat) (ha hb : nat -> nat -> K) (Ia Ib Iab : nat -> nat -> nat -> nat -> K) : opsum :=
    let a p := p in let b p := (n + p)%nat in
    one_body n a ha ++ one_body n b hb ++
    two_body n a a (fun p q r s => chalf * Ia p q r s) ++
    two_body n b b (fun p q r s => chalf * Ib p q r s) ++
    two_body n a b Iab.

  (** <pq|rs> = <qp|sr>, and <pq||rs> = <pq|rs> - <pq|sr> *)
  Definition pair_symmetric (n : nat) (I : nat -> nat -> nat -> nat -> K) : Prop :=
    forall p q r s, (p < n)%nat -> (q < n)%nat -> (r < n)%nat -> (s < n)%nat -> I p q r s = I q p s r.
  Definition anti (I : nat -> nat -> nat -> nat -> K) (p q r s : nat) : K := I p q r s - I p q s r.

  (** the Fock matrices of the determinant with the first noa alpha and nob beta
      orbitals occupied *)
  Definition fock_alpha (noa nob : nat) (ha : nat -> nat -> K) (Ia Iab : nat -> nat -> nat -> nat -> K) (p q : nat) : K :=
    ha p q + sumN noa (fun i => anti Ia p i q i) + sumN nob (fun j => Iab p j q j).
  Definition fock_beta (noa nob : nat) (hb : nat -> nat -> K) (Ib Iab : nat -> nat -> nat -> nat -> K) (p q : nat) : K :=
    hb p q + sumN nob (fun j => anti Ib p j q j) + sumN noa (fun i => Iab i p i q).

  (** J holds the blocks of the alpha-beta integrals g: first and third orbital
      alpha, second and fourth beta *)
  Definition blocks2_mixed (noa nva nob nvb : nat) (g : nat -> nat -> nat -> nat -> K) (J : two_e_full K) : Prop :=
    block2 (fvvvv J) g noa nva nob nvb noa nva nob nvb /\
    block2 (fvvvo J) g noa nva nob nvb noa nva 0 nob /\
    block2 (fvvov J) g noa nva nob nvb 0 noa nob nvb /\
    block2 (fvovv J) g noa nva 0 nob noa nva nob nvb /\
    block2 (fovvv J) g 0 noa nob nvb noa nva nob nvb /\
    block2 (fvvoo J) g noa nva nob nvb 0 noa 0 nob /\
    block2 (fvovo J) g noa nva 0 nob noa nva 0 nob /\
    block2 (fvoov J) g noa nva 0 nob 0 noa nob nvb /\
    block2 (fovvo J) g 0 noa nob nvb noa nva 0 nob /\
    block2 (fovov J) g 0 noa nob nvb 0 noa nob nvb /\
    block2 (foovv J) g 0 noa 0 nob noa nva nob nvb /\
    block2 (fooov J) g 0 noa 0 nob 0 noa nob nvb /\
    block2 (foovo J) g 0 noa 0 nob noa nva 0 nob /\
    block2 (fovoo J) g 0 noa nob nvb 0 noa 0 nob /\
    block2 (fvooo J) g noa nva 0 nob 0 noa 0 nob /\
    block2 (foooo J) g 0 noa 0 nob 0 noa 0 nob.

  (** The arguments of the unrestricted functions for the Hamiltonian with
      integrals ha, hb, Ia, Ib, Iab and noa, nob occupied orbitals *)
  Definition u_hamiltonian (n noa nva nob nvb : nat) (ha hb : nat -> nat -> K) (Ia Ib Iab : nat -> nat -> nat -> nat -> K)
      (Fa Fb : one_e K) (Iaa Ibb : two_e K) (J : two_e_full K) : Prop :=
    (noa + nva)%nat = n /\ (nob + nvb)%nat = n /\ pair_symmetric n Ia /\ pair_symmetric n Ib /\
    blocks1 noa nva (fock_alpha noa nob ha Ia Iab) Fa /\ blocks1 nob nvb (fock_beta noa nob hb Ib Iab) Fb /\
    blocks2 noa nva (anti Ia) Iaa /\ blocks2 nob nvb (anti Ib) Ibb /\ blocks2_mixed noa nva nob nvb Iab J.

  (** the cluster operator with the amplitudes in the arrays T1a .. T2bb *)
  Definition u_cluster (n noa nva nob nvb : nat) (T1a T1b T2aa T2ab T2bb : tensor K) : opsum :=
    T_spins n noa nva nob nvb (fun a i => dat T1a [a; i]) (fun a i => dat T1b [a; i])
      (fun a b i j => dat T2aa [a; b; i; j]) (fun a b i j => dat T2ab [a; b; i; j])
      (fun a b i j => dat T2bb [a; b; i; j]).

  (** all entries of the residuals vanish *)
  Definition u_solved (noa nva nob nvb : nat) (Ra Rb Raa Rab Rbb : tensor K) : Prop :=
    (forall a i, (a < nva)%nat -> (i < noa)%nat -> dat Ra [a; i] = 0) /\
    (forall a i, (a < nvb)%nat -> (i < nob)%nat -> dat Rb [a; i] = 0) /\
    (forall a b i j, (a < nva)%nat -> (b < nva)%nat -> (i < noa)%nat -> (j < noa)%nat -> dat Raa [a; b; i; j] = 0) /\
    (forall a b i j, (a < nva)%nat -> (b < nvb)%nat -> (i < noa)%nat -> (j < nob)%nat -> dat Rab [a; b; i; j] = 0) /\
    (forall a b i j, (a < nvb)%nat -> (b < nvb)%nat -> (i < nob)%nat -> (j < nob)%nat -> dat Rbb [a; b; i; j] = 0).
End UFockSpec.
Arguments u_solved {K}.
Arguments one_body {K}. Arguments two_body {K}. Arguments H_spatial_op {K}. Arguments pair_symmetric {K}. Arguments anti {K}.
Arguments fock_alpha {K}. Arguments fock_beta {K}. Arguments blocks2_mixed {K}. Arguments u_hamiltonian {K}. Arguments u_cluster {K}.
