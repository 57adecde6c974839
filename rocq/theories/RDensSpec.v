(** Specification vocabulary for density matrices and Lambda equations of
    restricted (closed-shell) coupled cluster theory: Lambda written with the
    spin-summed generators of RFockSpec.v, n alpha orbitals 0 .. n-1 and n beta
    orbitals n .. 2n-1, the first no of each occupied in the reference
    determinant.  No reference to the program. *)
From Coq Require Import List Bool Arith.
From Verif Require Import Scalar Tensor CISpec CIExpSpec CCSpec CCFockSpec CCDensSpec UFockSpec UDensSpec RFockSpec.
Import ListNotations.

Section RDens.
  Variable K : cring.
  Local Open Scope K_scope.
  Notation opsum := (list (K * list op)).

  (** c + sum l_ia E_ia + 1/2 sum l_ijab E_ia E_jb *)
  Definition r_lambda (n no nv : nat) (c : K) (L1 L2 : tensor K) : opsum :=
    (c, []) ::
    flat_map (fun i => flat_map (fun a => opscale (dat L1 [i; a]) (generator n i (no + a))) (seq 0 nv)) (seq 0 no) ++
    flat_map (fun i => flat_map (fun j => flat_map (fun a => flat_map (fun b =>
      opscale (chalf * dat L2 [i; j; a; b]) (opmul (generator n i (no + a)) (generator n j (no + b))))
      (seq 0 nv)) (seq 0 nv)) (seq 0 no)) (seq 0 no).

  (** l_ijab = l_jiba *)
  Definition r_lams_ok (no nv : nat) (L1 L2 : tensor K) : Prop :=
    shp L1 = [no; nv] /\ shp L2 = [no; no; nv; nv] /\
    forall i j a b, (i < no)%nat -> (j < no)%nat -> (a < nv)%nat -> (b < nv)%nat ->
      dat L2 [i; j; a; b] = dat L2 [j; i; b; a].

  (** <0| (c + Lambda) exp(-T) A exp(T) |0> and <0| (c + Lambda) [exp(-T) A exp(T), B] |0> *)
  Definition r_expect (inv : nat -> K) (M n no nv : nat) (c : K) (T1 T2 L1 L2 : tensor K) (A : opsum) : K :=
    let ref := aufbau n no ++ aufbau n no in
    amp ref (opmul (r_lambda n no nv c L1 L2) (transformed inv M (r_cluster n no nv T1 T2) A)) ref.
  Definition r_commutator (inv : nat -> K) (M n no nv : nat) (c : K) (T1 T2 L1 L2 : tensor K) (A B : opsum) : K :=
    let ref := aufbau n no ++ aufbau n no in
    amp ref (opmul (r_lambda n no nv c L1 L2) (commutator (transformed inv M (r_cluster n no nv T1 T2) A) B)) ref.

  (** the expectation value of the normal ordered product w *)
  Definition r_normal_expect inv M n no nv c T1 T2 L1 L2 (w : list op) : K :=
    sgn (u_nsign n no no w) * r_expect inv M n no nv c T1 T2 L1 L2 [(1, u_nprod n no no w)].

  (** all entries of the residuals of the Lambda equations vanish *)
  Definition r_lambda_solved (no nv : nat) (S1 S2 : tensor K) : Prop :=
    (forall i a, (i < no)%nat -> (a < nv)%nat -> dat S1 [i; a] = 0) /\
    (forall i j a b, (i < no)%nat -> (j < no)%nat -> (a < nv)%nat -> (b < nv)%nat -> dat S2 [i; j; a; b] = 0).
End RDens.
Arguments r_lambda {K}. Arguments r_lams_ok {K}. Arguments r_expect {K}. Arguments r_commutator {K}. Arguments r_normal_expect {K}.
Arguments r_lambda_solved {K}.
