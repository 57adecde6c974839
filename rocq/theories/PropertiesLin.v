(** Doubles-only and linearised coupled cluster and second order energy in Fock
    space: final statements.  Vocabulary: CISpec.v, CIExpSpec.v, CCFockSpec.v,
    CCLinSpec.v ([linearised T H] is H + [H, T], [doubles] the cluster operator
    without singles), CCSpec.v (inputs of the program, [returns]). *)
From Coq Require Import List String ZArith QArith Factorial Lia.
From Verif Require Import Scalar Tensor PySyntax PySem CCProg CISpec CIExpSpec CCSpec CCFockSpec CCExamples CCFock.
From Verif Require Import CCLinSpec FockLin PropertiesCCFock.
Import ListNotations.
Local Open Scope string_scope.

(** C77: the doubles of ccd_simple (and of ccd_stanton) are the projections of
    exp(-T2) H exp(T2)|0> on the doubly excited determinants. *)
Theorem C77_ccd_residuals (K : cring) no nv h g F I inv M T2 :
  antisym_ints (no + nv) g -> blocks1 no nv (fock no h g) F -> blocks2 no nv g I ->
  inverts inv M -> (nv < M)%nat -> t2_ok no nv T2 ->
  let ref := aufbau (no + nv) no in
  let Hbar := transformed inv M (doubles no nv T2) (H_op (no + nv) h g) in
  forall f, f = "ccd_simple" \/ f = "ccd_stanton" ->
  exists R2,
    returns (K := K) f [py_one_e F; py_two_e I; arr T2] (arr R2) /\
    shp R2 = [nv; nv; no; no] /\
    (forall a b i j s bra, (a < nv)%nat -> (b < nv)%nat -> (i < no)%nat -> (j < no)%nat ->
       act [Cre (no + a); Cre (no + b); Ann j; Ann i] ref = Some (s, bra) ->
       amp bra Hbar ref = (sgn s * dat R2 [a; b; i; j])%K).
Proof.
  intros AG BF BI HI HM H2 ref Hbar f Hf.
  exact (ccd_projections K no nv h g F I AG BF BI inv M T2 f Hf HI HM H2).
Qed.
Print Assumptions C77_ccd_residuals.

(** C77: the residuals of lccsd_simple are the projections of (H + [H, T])|0>;
    no inverses of factorials are involved. *)
Theorem C77_lccsd_residuals (K : cring) no nv h g F I T1 T2 :
  antisym_ints (no + nv) g -> blocks1 no nv (fock no h g) F -> blocks2 no nv g I ->
  t1_ok no nv T1 -> t2_ok no nv T2 ->
  let ref := aufbau (no + nv) no in
  let L := linearised (cluster no nv T1 T2) (H_op (no + nv) h g) in
  exists R1 R2,
    returns (K := K) "lccsd_simple" [py_one_e F; py_two_e I; arr T1; arr T2] (tup [arr R1; arr R2]) /\
    shp R1 = [nv; no] /\ shp R2 = [nv; nv; no; no] /\
    (forall a i s bra, (a < nv)%nat -> (i < no)%nat ->
       act [Cre (no + a); Ann i] ref = Some (s, bra) ->
       amp bra L ref = (sgn s * dat R1 [a; i])%K) /\
    (forall a b i j s bra, (a < nv)%nat -> (b < nv)%nat -> (i < no)%nat -> (j < no)%nat ->
       act [Cre (no + a); Cre (no + b); Ann j; Ann i] ref = Some (s, bra) ->
       amp bra L ref = (sgn s * dat R2 [a; b; i; j])%K).
Proof.
  intros AG BF BI H1 H2. exact (lccsd_projections K no nv h g F I AG BF BI T1 T2 H1 H2).
Qed.
Print Assumptions C77_lccsd_residuals.

(** C77: the same without singles for lccd_simple. *)
Theorem C77_lccd_residuals (K : cring) no nv h g F I T2 :
  antisym_ints (no + nv) g -> blocks1 no nv (fock no h g) F -> blocks2 no nv g I -> t2_ok no nv T2 ->
  let ref := aufbau (no + nv) no in
  let L := linearised (doubles no nv T2) (H_op (no + nv) h g) in
  exists R2,
    returns (K := K) "lccd_simple" [py_one_e F; py_two_e I; arr T2] (arr R2) /\
    shp R2 = [nv; nv; no; no] /\
    (forall a b i j s bra, (a < nv)%nat -> (b < nv)%nat -> (i < no)%nat -> (j < no)%nat ->
       act [Cre (no + a); Cre (no + b); Ann j; Ann i] ref = Some (s, bra) ->
       amp bra L ref = (sgn s * dat R2 [a; b; i; j])%K).
Proof.
  intros AG BF BI H2. exact (lccd_projections K no nv h g F I AG BF BI T2 H2).
Qed.
Print Assumptions C77_lccd_residuals.

(** C77: mp2_energy is the linear part of the energy, <0|H + [H, T]|0> - <0|H|0>. *)
Theorem C77_mp2_energy (K : cring) no nv h g F I T1 T2 :
  antisym_ints (no + nv) g -> blocks1 no nv (fock no h g) F -> blocks2 no nv g I ->
  t1_ok no nv T1 -> t2_ok no nv T2 ->
  let ref := aufbau (no + nv) no in
  let H := H_op (no + nv) h g in
  exists e,
    returns (K := K) "mp2_energy" [arr T1; arr T2; arr (ov F); arr (oovv I)] (numv e) /\
    amp ref (linearised (cluster no nv T1 T2) H) ref = (amp ref H ref + e)%K.
Proof.
  intros AG BF BI H1 H2. exact (mp2_linear K no nv h g F I AG BF BI T1 T2 H1 H2).
Qed.
Print Assumptions C77_mp2_energy.

(** The hypotheses are those of C50 (C50_example); the residuals are not zero
    and differ from those of the full methods. *)
Example C77_example :
  inverts (K := QcK) q_inv 4 /\
  (exists h g, antisym_ints (K := QcK) 5 g /\ blocks1 2 3 (fock 2 h g) (sampleF QcK 2 3) /\
     blocks2 2 3 g (sampleI QcK 2 3)) /\
  t1_ok 2 3 (sampleT1 QcK 2 3) /\ t2_ok 2 3 (sampleT2 QcK 2 3) /\
  sample_entry "lccsd_simple" [py_one_e (sampleF QcK 2 3); py_two_e (sampleI QcK 2 3);
    arr (sampleT1 QcK 2 3); arr (sampleT2 QcK 2 3)] 0 [0; 1]%nat = Some (-2903)%Q /\
  sample_entry "ccsd_simple" [py_one_e (sampleF QcK 2 3); py_two_e (sampleI QcK 2 3);
    arr (sampleT1 QcK 2 3); arr (sampleT2 QcK 2 3)] 0 [0; 1]%nat = Some (-73319)%Q /\
  sample_entry "lccd_simple" [py_one_e (sampleF QcK 2 3); py_two_e (sampleI QcK 2 3);
    arr (sampleT2 QcK 2 3)] 0 [0; 1; 0; 1]%nat = Some (-245)%Q /\
  sample_entry "ccd_simple" [py_one_e (sampleF QcK 2 3); py_two_e (sampleI QcK 2 3);
    arr (sampleT2 QcK 2 3)] 0 [0; 1; 0; 1]%nat = Some (-845)%Q.
Proof.
  destruct (sample_ok QcK 2 3) as (H1 & H2 & H3 & H4 & _).
  split; [exact (proj1 C50_example)|].
  split; [exact (blocks_realized QcK 2 3 _ _ H1 H2)|split; [exact H3|split; [exact H4|]]].
  vm_compute. repeat split; reflexivity.
Qed.
