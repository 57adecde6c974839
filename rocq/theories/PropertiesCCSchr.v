(** The CCSD equations and the Schroedinger equation: final statements.
    Vocabulary: CISpec.v (determinants, [excited]), CIExpSpec.v (sums of operator
    products), CCFockSpec.v (Hamiltonian, cluster operator, exponential),
    CCSpec.v (inputs of the program, [returns]). *)
From Coq Require Import List String ZArith QArith Factorial Lia.
From Verif Require Import Scalar Tensor PySyntax PySem CCProg CISpec CIExpSpec CCSpec CCFockSpec CCExamples CCFock CCSchr
  PropertiesCCFock.
Import ListNotations.
Local Open Scope string_scope.

(** all entries of the residuals vanish *)
Definition solved (K : cring) (no nv : nat) (R1 R2 : tensor K) : Prop :=
  (forall a i, (a < nv)%nat -> (i < no)%nat -> dat R1 [a; i] = c0) /\
  (forall a b i j, (a < nv)%nat -> (b < nv)%nat -> (i < no)%nat -> (j < no)%nat -> dat R2 [a; b; i; j] = c0).

(** C54: the amplitudes solve the CCSD equations (the residuals returned by
    ccsd_simple or ccsd_stanton are zero) if and only if |Psi> = exp(T)|0>
    satisfies <t|H|Psi> = E <t|Psi> for the reference and all singly and doubly
    excited determinants t, where E is <0|H|0> plus the number returned by
    cc_energy.  |Psi> has the component 1 along |0>. *)
Theorem C54_projected_schroedinger_equation (K : cring) no nv h g F I inv M T1 T2 f :
  antisym_ints (no + nv) g -> blocks1 no nv (fock no h g) F -> blocks2 no nv g I ->
  inverts inv M -> (nv < M)%nat -> t1_ok no nv T1 -> t2_ok no nv T2 ->
  f = "ccsd_simple" \/ f = "ccsd_stanton" ->
  let ref := aufbau (no + nv) no in
  let H := H_op (no + nv) h g in
  let Psi := opexp inv M (cluster no nv T1 T2) in
  exists e R1 R2,
    returns (K := K) "cc_energy" [arr T1; arr T2; arr (ov F); arr (oovv I)] (numv e) /\
    returns (K := K) f [py_one_e F; py_two_e I; arr T1; arr T2] (tup [arr R1; arr R2]) /\
    amp ref Psi ref = c1 /\
    (solved K no nv R1 R2 <->
     forall k t, (k <= 2)%nat -> excited k ref t ->
       amp t (opmul H Psi) ref = ((amp ref H ref + e) * amp t Psi ref)%K).
Proof.
  intros AG BF BI HI HM H1 H2 Hf.
  destruct (schroedinger K no nv h g F I AG BF BI inv M HI HM T1 T2 H1 H2 f Hf)
    as (e & R1 & R2 & He & HR & _ & _ & N & Q & _).
  exists e, R1, R2. exact (conj He (conj HR (conj N Q))).
Qed.
Print Assumptions C54_projected_schroedinger_equation.

(** C54, exactness: with at most two electrons (or two empty orbitals) a
    solution of the CCSD equations is an eigenvector of H: the Schroedinger
    equation H Psi = E Psi holds for every determinant. *)
Theorem C54_exact_for_two_electrons (K : cring) no nv h g F I inv M T1 T2 f :
  antisym_ints (no + nv) g -> blocks1 no nv (fock no h g) F -> blocks2 no nv g I ->
  inverts inv M -> (nv < M)%nat -> t1_ok no nv T1 -> t2_ok no nv T2 ->
  f = "ccsd_simple" \/ f = "ccsd_stanton" -> (no <= 2)%nat \/ (nv <= 2)%nat ->
  let ref := aufbau (no + nv) no in
  let H := H_op (no + nv) h g in
  let Psi := opexp inv M (cluster no nv T1 T2) in
  exists e R1 R2,
    returns (K := K) "cc_energy" [arr T1; arr T2; arr (ov F); arr (oovv I)] (numv e) /\
    returns (K := K) f [py_one_e F; py_two_e I; arr T1; arr T2] (tup [arr R1; arr R2]) /\
    amp ref Psi ref = c1 /\
    (solved K no nv R1 R2 ->
     forall t, List.length t = (no + nv)%nat ->
       amp t (opmul H Psi) ref = ((amp ref H ref + e) * amp t Psi ref)%K).
Proof.
  intros AG BF BI HI HM H1 H2 Hf Small.
  destruct (schroedinger K no nv h g F I AG BF BI inv M HI HM T1 T2 H1 H2 f Hf)
    as (e & R1 & R2 & He & HR & _ & _ & N & _ & Q).
  exists e, R1, R2. exact (conj He (conj HR (conj N (fun S => Q Small (proj1 S) (proj2 S))))).
Qed.
Print Assumptions C54_exact_for_two_electrons.

(** Two electrons in five orbitals: amplitudes, none of them trivial, that solve
    the equations of a Hamiltonian, with a correlation energy. *)
Definition ex_vo (i j : nat) : Z :=
  (poly i j 1 0 - nth j (nth i [[609; -335]; [170; -331]; [-141; -461]] []) 0)%Z.
Definition ex_tab (a b : nat) : Z :=
  (nth b (nth a [[0; -1996; -3686]; [0; 0; -1364]] []) 0)%Z.
Definition ex_vvoo (a b i j : nat) : Z :=
  (a_both a b i j - (ex_tab a b - ex_tab b a) * (Z.of_nat j - Z.of_nat i))%Z.
Definition exF : one_e QcK :=
  let F := sampleF QcK 2 3 in OneE QcK (oo F) (ov F) (fill2 QcK 3 2 ex_vo) (vv F).
Definition exI : two_e QcK :=
  let I := sampleI QcK 2 3 in
  TwoE QcK (vvvv I) (vvvo I) (vovv I) (fill4 QcK 3 3 2 2 ex_vvoo) (vovo I) (oovv I) (vooo I) (ooov I) (oooo I).
Definition exT1 : tensor QcK := fill2 QcK 3 2 (fun i j => Z.of_nat i - Z.of_nat j)%Z.
Definition exT2 : tensor QcK := sampleT2 QcK 2 3.
Definition ex_res (k : nat) (idx : list nat) : option Q :=
  sample_entry "ccsd_simple" [py_one_e exF; py_two_e exI; arr exT1; arr exT2] k idx.

Example C54_example :
  (exists h g, antisym_ints (K := QcK) 5 g /\ blocks1 2 3 (fock 2 h g) exF /\ blocks2 2 3 g exI) /\
  inverts (K := QcK) q_inv 4 /\ t1_ok 2 3 exT1 /\ t2_ok 2 3 exT2 /\ (2 <= 2)%nat /\
  (forall a i, (a < 3)%nat -> (i < 2)%nat -> ex_res 0 [a; i] = Some 0%Q) /\
  (forall a b i j, (a < 3)%nat -> (b < 3)%nat -> (i < 2)%nat -> (j < 2)%nat -> ex_res 1 [a; b; i; j] = Some 0%Q) /\
  sample_entry "cc_energy" [arr exT1; arr exT2; arr (ov exF); arr (oovv exI)] 0 [] = Some 200%Q.
Proof.
  destruct (sample_ok QcK 2 3) as (H1 & H2 & H3 & H4 & _).
  assert (HF : one_e_ok 2 3 exF) by (destruct H1 as (A & B & C & D); repeat split; assumption).
  assert (HI : two_e_ok 2 3 exI).
  { destruct H2 as ((A1 & A2 & A3 & A4 & A5 & A6 & A7 & A8 & A9) & B1 & B2 & B3 & B4 & B5 & B6 & B7 & B8).
    split; [repeat split; assumption|]. split; [exact B1|]. split; [exact B2|]. split; [exact B3|].
    split; [|split; [exact B5|split; [exact B6|split; [exact B7|exact B8]]]].
    split; [apply fill4_lead|apply fill4_tail]; intros i j k l; unfold ex_vvoo, a_both; ring. }
  split; [exact (blocks_realized QcK 2 3 _ _ HF HI)|]. split; [exact (proj1 C50_example)|].
  split; [split; reflexivity|]. split; [exact H4|]. split; [lia|]. split; [|split].
  - intros a i La Li. do 3 (destruct a as [|a]; [do 2 (destruct i as [|i]; [vm_compute; reflexivity|]); lia|]). lia.
  - intros a b i j La Lb Li Lj.
    do 3 (destruct a as [|a]; [do 3 (destruct b as [|b]; [do 2 (destruct i as [|i]; [do 2 (destruct j as [|j]; [vm_compute; reflexivity|]); lia|]); lia|]); lia|]). lia.
  - vm_compute. reflexivity.
Qed.
