(** Configuration interaction with singles and doubles in terms of lccsd_simple
    and mp2_energy: final statements.  Vocabulary: CISpec.v, CIExpSpec.v,
    CCFockSpec.v, CISDSpec.v ([ci_equations]), PTSpec.v ([one]), CCSpec.v. *)
From Coq Require Import List String ZArith QArith Bool Lia.
From Verif Require Import Scalar Tensor PySyntax PySem CCProg CISpec CIExpSpec CCSpec CCFockSpec CCExamples CCFock.
From Verif Require Import PTSpec CISDSpec FockCISD.
Import ListNotations.
Local Open Scope string_scope.

(** C81: lccsd_simple and mp2_energy give H (1 + T)|0>, projected on the
    reference and on the singly and doubly excited determinants. *)
Theorem C81_sigma (K : cring) no nv h g F I T1 T2 :
  antisym_ints (no + nv) g -> blocks1 no nv (fock no h g) F -> blocks2 no nv g I ->
  t1_ok no nv T1 -> t2_ok no nv T2 ->
  let ref := aufbau (no + nv) no in
  let H := H_op (no + nv) h g in
  let C := (one ++ cluster no nv T1 T2)%list in
  let E0 := amp ref H ref in
  exists R1 R2 e,
    returns (K := K) "lccsd_simple" [py_one_e F; py_two_e I; arr T1; arr T2] (tup [arr R1; arr R2]) /\
    returns (K := K) "mp2_energy" [arr T1; arr T2; arr (ov F); arr (oovv I)] (numv e) /\
    shp R1 = [nv; no] /\ shp R2 = [nv; nv; no; no] /\
    amp ref (opmul H C) ref = (E0 + e)%K /\
    (forall a i s bra, (a < nv)%nat -> (i < no)%nat -> act [Cre (no + a); Ann i] ref = Some (s, bra) ->
       amp bra (opmul H C) ref = (sgn s * (dat R1 [a; i] + E0 * dat T1 [a; i]))%K) /\
    (forall a b i j s bra, (a < nv)%nat -> (b < nv)%nat -> (i < no)%nat -> (j < no)%nat ->
       act [Cre (no + a); Cre (no + b); Ann j; Ann i] ref = Some (s, bra) ->
       amp bra (opmul H C) ref
       = (sgn s * (dat R2 [a; b; i; j] + E0 * dat T2 [a; b; i; j]
           + (dat (vo F) [a; i] * dat T1 [b; j] - dat (vo F) [a; j] * dat T1 [b; i]
              - dat (vo F) [b; i] * dat T1 [a; j] + dat (vo F) [b; j] * dat T1 [a; i])))%K).
Proof.
  intros AG BF BI H1 H2. exact (cisd_projections K no nv h g F I AG BF BI T1 T2 H1 H2).
Qed.
Print Assumptions C81_sigma.

(** C81: (1 + T)|0> solves the CISD equations with energy E exactly when
    E = <0|H|0> + mp2_energy and the residuals of lccsd_simple are mp2_energy
    times the amplitudes, up to the product of the Fock matrix and the singles. *)
Theorem C81_cisd (K : cring) no nv h g F I T1 T2 :
  antisym_ints (no + nv) g -> blocks1 no nv (fock no h g) F -> blocks2 no nv g I ->
  t1_ok no nv T1 -> t2_ok no nv T2 ->
  let ref := aufbau (no + nv) no in
  let H := H_op (no + nv) h g in
  exists R1 R2 e,
    returns (K := K) "lccsd_simple" [py_one_e F; py_two_e I; arr T1; arr T2] (tup [arr R1; arr R2]) /\
    returns (K := K) "mp2_energy" [arr T1; arr T2; arr (ov F); arr (oovv I)] (numv e) /\
    shp R1 = [nv; no] /\ shp R2 = [nv; nv; no; no] /\
    forall E, ci_equations 2 ref H (cluster no nv T1 T2) E <->
      (E = amp ref H ref + e)%K /\
      (forall a i, (a < nv)%nat -> (i < no)%nat -> (dat R1 [a; i] = e * dat T1 [a; i])%K) /\
      (forall a b i j, (a < nv)%nat -> (b < nv)%nat -> (i < no)%nat -> (j < no)%nat -> a <> b -> i <> j ->
         (dat R2 [a; b; i; j]
          + (dat (vo F) [a; i] * dat T1 [b; j] - dat (vo F) [a; j] * dat T1 [b; i]
             - dat (vo F) [b; i] * dat T1 [a; j] + dat (vo F) [b; j] * dat T1 [a; i])
          = e * dat T2 [a; b; i; j])%K).
Proof.
  intros AG BF BI H1 H2. exact (cisd K no nv h g F I AG BF BI T1 T2 H1 H2).
Qed.
Print Assumptions C81_cisd.

(** C81: T1|0> is an eigenvector of the block of H between single excitations
    exactly when the singles of lccsd_simple, without F_ai, are the excitation
    energy times the amplitudes. *)
Theorem C81_cis (K : cring) no nv h g F I T1 :
  antisym_ints (no + nv) g -> blocks1 no nv (fock no h g) F -> blocks2 no nv g I -> t1_ok no nv T1 ->
  let ref := aufbau (no + nv) no in
  let H := H_op (no + nv) h g in
  let T2 := tzeros K [nv; nv; no; no] in
  let T := cluster no nv T1 T2 in
  exists R1 R2,
    returns (K := K) "lccsd_simple" [py_one_e F; py_two_e I; arr T1; arr T2] (tup [arr R1; arr R2]) /\
    shp R1 = [nv; no] /\
    forall E, (forall bra, excited 1 ref bra -> amp bra (opmul H T) ref = (E * amp bra T ref)%K) <->
      (forall a i, (a < nv)%nat -> (i < no)%nat ->
         (dat R1 [a; i] - dat (vo F) [a; i] = (E - amp ref H ref) * dat T1 [a; i])%K).
Proof.
  intros AG BF BI H1.
  exact (cis K no nv h g F I AG BF BI T1 _ H1 (SOCtx.zeroT2_ok K no nv) eq_refl).
Qed.
Print Assumptions C81_cis.

(** A CISD problem with two occupied and two virtual orbitals: the blocks F_ai and
    I_abij are chosen so that the sample amplitudes solve it with energy
    <0|H|0> + 1003. *)
Definition ciF : one_e QcK :=
  OneE QcK (oo (sampleF QcK 2 2)) (ov (sampleF QcK 2 2))
    (fill2 QcK 2 2 (fun a i => match a, i with O, O => 18496 | O, S _ => 25623 | S _, O => 24912 | S _, S _ => 34957 end%Z))
    (vv (sampleF QcK 2 2)).
Definition ciI : two_e QcK :=
  let J := sampleI QcK 2 2 in
  TwoE QcK (vvvv J) (vvvo J) (vovv J)
    (fill4 QcK 2 2 2 2 (fun a b i j => - (21560 * (Z.of_nat b - Z.of_nat a) * (Z.of_nat j - Z.of_nat i)))%Z)
    (vovo J) (oovv J) (vooo J) (ooov J) (oooo J).
Example C81_example :
  (exists h g, antisym_ints (K := QcK) 4 g /\ blocks1 2 2 (fock 2 h g) ciF /\ blocks2 2 2 g ciI) /\
  t1_ok 2 2 (sampleT1 QcK 2 2) /\ t2_ok 2 2 (sampleT2 QcK 2 2) /\
  let call f idx k := sample_entry f [py_one_e ciF; py_two_e ciI; arr (sampleT1 QcK 2 2); arr (sampleT2 QcK 2 2)] k idx in
  sample_entry "mp2_energy" [arr (sampleT1 QcK 2 2); arr (sampleT2 QcK 2 2); arr (ov ciF); arr (oovv ciI)] 0 [] = Some 1003%Q /\
  forallb (fun ai => match call "lccsd_simple" [fst ai; snd ai] 0%nat with
    | Some r => Qeq_bool r (1003 * Qcanon.this (dat (sampleT1 QcK 2 2) [fst ai; snd ai]))
    | None => false end) [(0, 0); (0, 1); (1, 0); (1, 1)]%nat = true /\
  match call "lccsd_simple" [0; 1; 0; 1]%nat 1%nat with
  | Some r => let o := 0%nat in let l := 1%nat in let f (a i : nat) := Qcanon.this (dat (vo ciF) [a; i]) in let t (a i : nat) := Qcanon.this (dat (sampleT1 QcK 2 2) [a; i]) in
      Qeq_bool (r + (f o o * t l l - f o l * t l o - f l o * t o l + f l l * t o o))
        (1003 * Qcanon.this (dat (sampleT2 QcK 2 2) [0; 1; 0; 1]%nat)) = true
  | None => False
  end.
Proof.
  destruct (sample_ok QcK 2 2) as (H1 & H2 & H3 & H4 & _).
  split; [apply (blocks_realized QcK 2 2 ciF ciI)|split; [exact H3|split; [exact H4|vm_compute; repeat split; reflexivity]]].
  - destruct H1 as (A & B & C & D). repeat split; assumption.
  - destruct H2 as [(A1 & A2 & A3 & _ & A5 & A6 & A7 & A8 & A9) (B1 & B2 & B3 & _ & B5 & B6 & B7 & B8)].
    split; [repeat split; assumption|].
    split; [exact B1|]. split; [exact B2|]. split; [exact B3|].
    split; [split; [apply fill4_lead|apply fill4_tail]; intros; ring|].
    split; [exact B5|]. split; [exact B6|]. split; [exact B7|exact B8].
Qed.
