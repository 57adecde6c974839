(** Arguments of the restricted functions built from integrals, for examples. *)
From Coq Require Import List Bool Arith ZArith String QArith Qcanon Ring Lia.
From Verif Require Import Scalar Tensor PySyntax PySem CCProg CISpec CIExpSpec CCSpec CCFockSpec SpinSpec CCExamples UFockSpec UExamples RFockSpec.
Import ListNotations.
Local Open Scope string_scope.

(** every set of integrals has the arguments of [r_hamiltonian] *)
Lemma r_build_ok (K : cring) n no nv h I : (no + nv)%nat = n -> pair_symmetric n I ->
  r_hamiltonian (K := K) n no nv h I (build1 K no nv (r_fock no h I)) (build2_mixed K no nv no nv I).
Proof.
  intros N S. do 2 (split; [assumption|]). unfold blocks1, one_e_ok, blocks2_mixed, block2. repeat split.
Qed.

Record r_args := RArgs { rF : one_e QcK; rJ : two_e_full QcK; rT1 : tensor QcK; rT2 : tensor QcK }.
Definition r_build (no nv : nat) (h : nat -> nat -> Z) (I : nat -> nat -> nat -> nat -> Z) (T1 T2 : tensor QcK) : r_args :=
  RArgs (build1 QcK no nv (r_fock no (z2 h) (z4 I))) (build2_mixed QcK no nv no nv (z4 I)) T1 T2.
Definition r_run (x : r_args) : option (pyval QcK) :=
  u_sample "rccsd_stanton" [py_one_e (rF x); py_two_e_full (rJ x); arr (rT1 x); arr (rT2 x)].
Definition r_energy (x : r_args) : option Q :=
  sample_entry "rcc_energy" [arr (rT1 x); arr (rT2 x); arr (ov (rF x)); arr (foovv (rJ x))] 0 [].
Definition r_entry (r : pyval QcK) (k : nat) (idx : list nat) : option Q :=
  match r with
  | XTup [XArr a; XArr b] => Some (this (dat (nth k [a; b] a) idx))
  | _ => None
  end.

(** Four orbitals, four electrons: amplitudes that solve the equations of a
    Hamiltonian in a space with up to four excitations. *)
Definition y4_h (p q : nat) : Z := (Z.of_nat (p + q) - x4_s p - x4_at2 [[]; []; [70; -35]; [39; -4]] p q)%Z.
Definition y4_R (p q r s : nat) : Z :=
  (nth s (nth r (nth q (nth p [[]; []; [[]; []; [[14; 118]; [118; -162]]; [[-138; 188]; [94; -92]]];
    [[]; []; [[-138; 94]; [188; -92]]; [[-98; 84]; [84; 2]]]] []) []) []) 0)%Z.
Definition y4_I (p q r s : nat) : Z :=
  (x4_s (p + q) * x4_s (r + s) + x4_s (p * r + q * s) + Z.of_nat (p * s + q * r) - y4_R p q r s)%Z.
Definition y4 : r_args := r_build 2 2 y4_h y4_I
  (fill2 QcK 2 2 (fun a i => (Z.of_nat a - Z.of_nat i)%Z))
  (fill4 QcK 2 2 2 2 (fun a b i j => (Z.of_nat (a * i + b * j) - Z.of_nat (a * j + b * i) - x4_s (i + j))%Z)).

(** all entries of the residuals are zero *)
Definition r_check (no nv : nat) (x : r_args) : bool :=
  match r_run x with
  | Some r =>
      forallb (fun a => forallb (fun i => match r_entry r 0 [a; i] with Some q => Qeq_bool q 0 | None => false end) (seq 0 no)) (seq 0 nv) &&
      forallb (fun a => forallb (fun b => forallb (fun i => forallb (fun j =>
        match r_entry r 1 [a; b; i; j] with Some q => Qeq_bool q 0 | None => false end) (seq 0 no)) (seq 0 no)) (seq 0 nv)) (seq 0 nv)
  | None => false
  end.
Lemma r_check_solved no nv x R1 R2 : r_check no nv x = true ->
  returns (K := QcK) "rccsd_stanton" [py_one_e (rF x); py_two_e_full (rJ x); arr (rT1 x); arr (rT2 x)] (tup [arr R1; arr R2]) ->
  r_solved no nv R1 R2.
Proof.
  unfold r_check, r_run, u_sample, returns. intros H (args' & E & _). rewrite E in H. clear E.
  apply andb_prop in H as [H1 H2]. split.
  - intros a i La Li. pose proof (all_below _ _ (all_below _ _ H1 a La) i Li) as X. apply Qc_zero, X.
  - intros a b i j La Lb Li Lj.
    pose proof (all_below _ _ (all_below _ _ (all_below _ _ (all_below _ _ H2 a La) b Lb) i Li) j Lj) as X. apply Qc_zero, X.
Qed.

(** Three orbitals, two electrons *)
Definition y3_h (p q : nat) : Z := (Z.of_nat (p + q) - x4_s p - x4_at2 [[]; [16]; [21]] p q)%Z.
Definition y3_R (p q r s : nat) : Z :=
  (if Nat.eqb (r + s) 0 then x4_at2 [[]; [0; 30; 5]; [0; 5; -48]] p q else 0)%Z.
Definition y3_I (p q r s : nat) : Z := (x4_s (p + q) * x4_s (r + s) + x4_s (p * r + q * s) + Z.of_nat (p * s + q * r) - y3_R p q r s)%Z.
Definition y3 : r_args := r_build 1 2 y3_h y3_I
  (fill2 QcK 2 1 (fun a i => (Z.of_nat a + 1)%Z)) (fill4 QcK 2 2 1 1 (fun a b i j => (Z.of_nat (a + b) - 2)%Z)).
