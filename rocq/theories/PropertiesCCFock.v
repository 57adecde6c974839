(** Coupled cluster theory in Fock space: final statements.  Vocabulary:
    CISpec.v (fermion operators on determinants), CIExpSpec.v (sums of operator
    products), CCFockSpec.v (Hamiltonian, cluster operator, exp(-T) H exp(T)),
    CCSpec.v (inputs of the program, [returns]). *)
From Coq Require Import List String ZArith QArith Factorial Lia.
From Verif Require Import Scalar Tensor PySyntax PySem CCProg CISpec CIExpSpec CCSpec CCFockSpec CCExamples CCFock.
Import ListNotations.
Local Open Scope string_scope.

(** C50, energy: cc_energy returns <0|exp(-T) H exp(T)|0> - <0|H|0>.  The
    exponential series is cut at any order M > nv; all later terms vanish. *)
Theorem C50_cc_energy (K : cring) no nv h g F I inv M T1 T2 :
  antisym_ints (no + nv) g -> blocks1 no nv (fock no h g) F -> blocks2 no nv g I ->
  inverts inv M -> (nv < M)%nat -> t1_ok no nv T1 -> t2_ok no nv T2 ->
  let ref := aufbau (no + nv) no in
  let H := H_op (no + nv) h g in
  exists e,
    returns (K := K) "cc_energy" [arr T1; arr T2; arr (ov F); arr (oovv I)] (numv e) /\
    amp ref (transformed inv M (cluster no nv T1 T2) H) ref = (amp ref H ref + e)%K.
Proof.
  intros AG BF BI HI HM H1 H2. exact (cc_energy_expectation K no nv h g F I AG BF BI inv M HI HM T1 T2 H1 H2).
Qed.
Print Assumptions C50_cc_energy.

(** C50, residuals: the singles and doubles returned by ccsd_simple (and by
    ccsd_stanton) are the projections of exp(-T) H exp(T)|0> on the singly and
    doubly excited determinants a+_a a_i|0> and a+_a a+_b a_j a_i|0>; s is the
    sign with which the operators make the determinant [bra]. *)
Theorem C50_ccsd_residuals (K : cring) no nv h g F I inv M T1 T2 :
  antisym_ints (no + nv) g -> blocks1 no nv (fock no h g) F -> blocks2 no nv g I ->
  inverts inv M -> (nv < M)%nat -> t1_ok no nv T1 -> t2_ok no nv T2 ->
  let ref := aufbau (no + nv) no in
  let Hbar := transformed inv M (cluster no nv T1 T2) (H_op (no + nv) h g) in
  forall f, f = "ccsd_simple" \/ f = "ccsd_stanton" ->
  exists R1 R2,
    returns (K := K) f [py_one_e F; py_two_e I; arr T1; arr T2] (tup [arr R1; arr R2]) /\
    shp R1 = [nv; no] /\ shp R2 = [nv; nv; no; no] /\
    (forall a i s bra, (a < nv)%nat -> (i < no)%nat ->
       act [Cre (no + a); Ann i] ref = Some (s, bra) ->
       amp bra Hbar ref = (sgn s * dat R1 [a; i])%K) /\
    (forall a b i j s bra, (a < nv)%nat -> (b < nv)%nat -> (i < no)%nat -> (j < no)%nat ->
       act [Cre (no + a); Cre (no + b); Ann j; Ann i] ref = Some (s, bra) ->
       amp bra Hbar ref = (sgn s * dat R2 [a; b; i; j])%K).
Proof.
  intros AG BF BI HI HM H1 H2 ref Hbar f [-> | ->].
  - exact (ccsd_simple_projections K no nv h g F I AG BF BI inv M HI HM T1 T2 H1 H2).
  - exact (ccsd_stanton_projections K no nv h g F I inv M T1 T2 AG BF BI HI HM H1 H2).
Qed.
Print Assumptions C50_ccsd_residuals.

(** C50: the hypotheses on the blocks are no restriction: all Fock blocks and
    all antisymmetric integral blocks come from some Hamiltonian. *)
Theorem C50_every_block_set_has_a_hamiltonian (K : cring) no nv F I :
  one_e_ok no nv F -> two_e_ok no nv I ->
  exists h g, antisym_ints (K := K) (no + nv) g /\ blocks1 no nv (fock no h g) F /\ blocks2 no nv g I.
Proof. intros HF HI. exact (blocks_realized K no nv F I HF HI). Qed.
Print Assumptions C50_every_block_set_has_a_hamiltonian.

(** Over the rationals the factorials have inverses; the sample inputs meet the
    hypotheses; the determinants exist; the residual is not zero. *)
Definition q_inv (d : nat) : QcK := Qcanon.Q2Qc (1 # Pos.of_nat d).
Example C50_example :
  inverts (K := QcK) q_inv 4 /\ (3 < 4)%nat /\
  (exists h g, antisym_ints (K := QcK) 5 g /\ blocks1 2 3 (fock 2 h g) (sampleF QcK 2 3) /\
     blocks2 2 3 g (sampleI QcK 2 3)) /\
  t1_ok 2 3 (sampleT1 QcK 2 3) /\ t2_ok 2 3 (sampleT2 QcK 2 3) /\
  act [Cre 3; Ann 0] (aufbau 5 2) = Some (true, [false; true; false; true; false]) /\
  act [Cre 2; Cre 4; Ann 1; Ann 0] (aufbau 5 2) = Some (false, [false; false; true; false; true]) /\
  sample_entry "ccsd_simple" [py_one_e (sampleF QcK 2 3); py_two_e (sampleI QcK 2 3);
    arr (sampleT1 QcK 2 3); arr (sampleT2 QcK 2 3)] 0 [0; 1]%nat = Some (-73319)%Q.
Proof.
  destruct (sample_ok QcK 2 3) as (H1 & H2 & H3 & H4 & _).
  split; [|split; [lia|split; [exact (blocks_realized QcK 2 3 _ _ H1 H2)|split; [exact H3|split; [exact H4|]]]]].
  - intros k Hk. do 5 (destruct k as [|k]; [apply Qcanon.Qc_is_canon; vm_compute; reflexivity|]). lia.
  - vm_compute. repeat split; reflexivity.
Qed.
