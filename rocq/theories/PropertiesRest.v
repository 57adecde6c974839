(** Properties relating the restricted functions to the unrestricted ones on
    closed-shell inputs: final statements.  [anti_of I] holds
    <pq|rs> - <pq|sr>, [tminus T (swap_ket T)] is T - T.transpose(0,1,3,2),
    [pair_sym] says an array equals its transpose (1,0,3,2) (SpinSpec.v). *)
From Coq Require Import List String ZArith QArith.
From Verif Require Import Scalar Tensor PySyntax PySem CCProg CCSpec CCExamples NpModel SpinModel
  SpinSpec SpinExamples CCRest.
Import ListNotations.
Local Open Scope string_scope.

(** C09: rccsd_stanton returns the alpha singles and alpha-beta doubles of
    uccsd_stanton; the other outputs of uccsd_stanton follow from them, and
    the doubles keep their pair symmetry. *)
Theorem C09_rccsd_is_closed_shell_uccsd (K : cring) no nv (F : one_e K) (I : two_e_full K)
    (T1 T2 : tensor K) :
  one_e_ok no nv F -> two_e_full_ok no nv no nv I -> pair_sym_full I ->
  shp T1 = [nv; no] -> shp T2 = [nv; nv; no; no] -> pair_sym T2 ->
  exists S1 S2 ta tb aa ab bb,
    returns "rccsd_stanton" [py_one_e F; py_two_e_full I; arr T1; arr T2]
      (tup [arr S1; arr S2]) /\
    returns "uccsd_stanton"
      [py_one_e F; py_one_e F; py_two_e (anti_of I); py_two_e (anti_of I); py_two_e_full I;
       tup [arr T1; arr T1];
       tup [arr (tminus T2 (swap_ket T2)); arr T2; arr (tminus T2 (swap_ket T2))]]
      (tup [tup [arr ta; arr tb]; tup [arr aa; arr ab; arr bb]]) /\
    teq ta S1 /\ teq tb S1 /\ teq aa (tminus S2 (swap_ket S2)) /\ teq ab S2 /\
    teq bb (tminus S2 (swap_ket S2)) /\ pair_sym S2.
Proof. exact (c09 K no nv F I T1 T2). Qed.
Print Assumptions C09_rccsd_is_closed_shell_uccsd.

Notation rF := (sampleF QcK 2 2). Notation rI := (sampleR QcK 2 2).
Notation rT1 := (sampleT1 QcK 2 2). Notation rT2 := (sampleT2r QcK 2 2).
Notation rL1 := (sampleL1 QcK 2 2). Notation rL2 := (sampleL2r QcK 2 2).

Example C09_example :
  one_e_ok 2 2 rF /\ two_e_full_ok 2 2 2 2 rI /\ pair_sym_full rI /\
  shp rT1 = [2; 2]%nat /\ shp rT2 = [2; 2; 2; 2]%nat /\ pair_sym rT2 /\
  sample_entry "rccsd_stanton" [py_one_e rF; py_two_e_full rI; arr rT1; arr rT2] 1 [1; 0; 1; 1]%nat
  = Some 201771676%Q.
Proof.
  destruct (r_sample_ok QcK 2 2) as (H1 & H2 & (H3 & H4) & _).
  repeat (split; [first [assumption | reflexivity | repeat split]|]). vm_compute. reflexivity.
Qed.

(** C10, restricted against unrestricted *)
Theorem C10_rcc_energy_is_ucc_energy (K : cring) no nv (F : one_e K) (I : two_e_full K)
    (T1 T2 : tensor K) :
  one_e_ok no nv F -> two_e_full_ok no nv no nv I -> pair_sym_full I ->
  shp T1 = [nv; no] -> shp T2 = [nv; nv; no; no] -> pair_sym T2 ->
  exists e, returns "rcc_energy" [arr T1; arr T2; arr (ov F); arr (foovv I)] (numv e) /\
    returns "ucc_energy"
      [tup [arr T1; arr T1];
       tup [arr (tminus T2 (swap_ket T2)); arr T2; arr (tminus T2 (swap_ket T2))];
       arr (ov F); arr (ov F); arr (oovv (anti_of I)); arr (oovv (anti_of I)); arr (foovv I)]
      (numv e).
Proof. exact (c10r_ok K no nv F I T1 T2). Qed.
Print Assumptions C10_rcc_energy_is_ucc_energy.

(** hypotheses: as in C09_example *)
Example C10_restricted_example :
  sample_entry "rcc_energy" [arr rT1; arr rT2; arr (ov rF); arr (foovv rI)] 0 [] = Some 266448%Q.
Proof. vm_compute. reflexivity. Qed.

(** C17: rccsd_lambda_opt and uccsd_lambda_opt *)
Theorem C17_rlambda_is_closed_shell_ulambda (K : cring) no nv (F : one_e K) (I : two_e_full K)
    (T1 T2 L1 L2 : tensor K) :
  one_e_ok no nv F -> two_e_full_ok no nv no nv I -> pair_sym_full I ->
  shp T1 = [nv; no] -> shp T2 = [nv; nv; no; no] -> pair_sym T2 ->
  shp L1 = [no; nv] -> shp L2 = [no; no; nv; nv] -> pair_sym L2 ->
  exists S1 S2 la lb aa ab bb,
    returns "rccsd_lambda_opt" [py_one_e F; py_two_e_full I; arr L1; arr L2; arr T1; arr T2]
      (tup [arr S1; arr S2]) /\
    returns "uccsd_lambda_opt"
      [py_one_e F; py_one_e F; py_two_e (anti_of I); py_two_e (anti_of I); py_two_e_full I;
       tup [arr L1; arr L1];
       tup [arr (tminus L2 (swap_ket L2)); arr L2; arr (tminus L2 (swap_ket L2))];
       tup [arr T1; arr T1];
       tup [arr (tminus T2 (swap_ket T2)); arr T2; arr (tminus T2 (swap_ket T2))]]
      (tup [tup [arr la; arr lb]; tup [arr aa; arr ab; arr bb]]) /\
    teq la S1 /\ teq lb S1 /\ teq aa (tminus S2 (swap_ket S2)) /\ teq ab S2 /\
    teq bb (tminus S2 (swap_ket S2)) /\ pair_sym S2.
Proof. exact (c17 K no nv F I T1 T2 L1 L2). Qed.
Print Assumptions C17_rlambda_is_closed_shell_ulambda.

Example C17_example :
  shp rL1 = [2; 2]%nat /\ shp rL2 = [2; 2; 2; 2]%nat /\ pair_sym rL2 /\
  sample_entry "rccsd_lambda_opt" [py_one_e rF; py_two_e_full rI; arr rL1; arr rL2; arr rT1; arr rT2]
    1 [1; 0; 1; 1]%nat = Some (-714421)%Q.
Proof.
  destruct (r_sample_ok QcK 2 2) as (_ & _ & _ & H3 & H4).
  repeat (split; [first [assumption | reflexivity | repeat split]|]). vm_compute. reflexivity.
Qed.

(** C22: every restricted density matrix function returns the alpha block
    (1-RDM) or the alpha-beta block (2-RDM) of the unrestricted function, and
    the other blocks follow from it.  [us r] lists the blocks in the order in
    which the unrestricted function returns them. *)
Theorem C22_rrdm_blocks (K : cring) no nv (T1 T2 L1 L2 : tensor K) (fac : K) :
  shp T1 = [nv; no] -> shp T2 = [nv; nv; no; no] -> pair_sym T2 ->
  shp L1 = [no; nv] -> shp L2 = [no; no; nv; nv] -> pair_sym L2 ->
  let rargs := [arr T1; arr T2; arr L1; arr L2] in
  let uargs := [arr T1; arr T1; arr (tminus T2 (swap_ket T2)); arr T2;
      arr (tminus T2 (swap_ket T2)); arr L1; arr L1; arr (tminus L2 (swap_ket L2)); arr L2;
      arr (tminus L2 (swap_ket L2))] in
  let claim f g (ra ua : list (pyval K)) (us : tensor K -> list (tensor K)) :=
    exists r ts, returns f ra (arr r) /\ returns g ua (tup (map arr ts)) /\
      Forall2 teq ts (us r) in
  let one r := [r; r] in
  let ket3 r := [tminus r (swap_ket r); tminus r (swap_ket r); r] in
  let ket4 r := [tminus r (swap_ket r); tminus r (swap_ket r); r; r] in
  let bra4 r := [tminus r (swap_bra r); tminus r (swap_bra r); r; r] in
  claim "rccsd_1rdm_ba" "uccsd_1rdm_ba" rargs uargs one /\
  claim "rccsd_1rdm_ji" "uccsd_1rdm_ji" rargs uargs one /\
  claim "rccsd_1rdm_ai" "uccsd_1rdm_ai" rargs uargs one /\
  claim "rccsd_1rdm_ai" "uccsd_1rdm_ai" (rargs ++ [numv fac])%list (uargs ++ [numv fac])%list one /\
  claim "rccsd_2rdm_ciab" "uccsd_2rdm_ciab" rargs uargs ket4 /\
  claim "rccsd_2rdm_jkai" "uccsd_2rdm_jkai" rargs uargs bra4 /\
  claim "rccsd_2rdm_cdab" "uccsd_2rdm_cdab" rargs uargs ket3 /\
  claim "rccsd_2rdm_klij" "uccsd_2rdm_klij" rargs uargs ket3 /\
  claim "rccsd_2rdm_bcai" "uccsd_2rdm_bcai" rargs uargs bra4 /\
  claim "rccsd_2rdm_kaij" "uccsd_2rdm_kaij" rargs uargs ket4 /\
  claim "rccsd_2rdm_abij" "uccsd_2rdm_abij" rargs uargs ket3.
Proof.
  intros H1 H2 P2 H3 H4 P4. cbn zeta.
  repeat match goal with |- _ /\ _ => split end.
  - apply (rrdm_use K no nv T1 T2 L1 L2 fac H1 H2 P2 H3 H4 P4 _ _ false HOne); cbn; tauto.
  - apply (rrdm_use K no nv T1 T2 L1 L2 fac H1 H2 P2 H3 H4 P4 _ _ false HOne); cbn; tauto.
  - apply (rrdm_use K no nv T1 T2 L1 L2 fac H1 H2 P2 H3 H4 P4 _ _ false HOne); cbn; tauto.
  - apply (rrdm_use K no nv T1 T2 L1 L2 fac H1 H2 P2 H3 H4 P4 _ _ true HOne); cbn; tauto.
  - apply (rrdm_use K no nv T1 T2 L1 L2 fac H1 H2 P2 H3 H4 P4 _ _ false HKet4); cbn; tauto.
  - apply (rrdm_use K no nv T1 T2 L1 L2 fac H1 H2 P2 H3 H4 P4 _ _ false HBra4); cbn; tauto.
  - apply (rrdm_use K no nv T1 T2 L1 L2 fac H1 H2 P2 H3 H4 P4 _ _ false HKet3); cbn; tauto.
  - apply (rrdm_use K no nv T1 T2 L1 L2 fac H1 H2 P2 H3 H4 P4 _ _ false HKet3); cbn; tauto.
  - apply (rrdm_use K no nv T1 T2 L1 L2 fac H1 H2 P2 H3 H4 P4 _ _ false HBra4); cbn; tauto.
  - apply (rrdm_use K no nv T1 T2 L1 L2 fac H1 H2 P2 H3 H4 P4 _ _ false HKet4); cbn; tauto.
  - apply (rrdm_use K no nv T1 T2 L1 L2 fac H1 H2 P2 H3 H4 P4 _ _ false HKet3); cbn; tauto.
Qed.
Print Assumptions C22_rrdm_blocks.

(** The vovo part: rccsd_2rdm_bjai is the abab block, rccsd_2rdm_bjia is minus
    the abba block with its last two indices exchanged. *)
Theorem C22_rrdm_vovo_blocks (K : cring) no nv (T1 T2 L1 L2 : tensor K) :
  shp T1 = [nv; no] -> shp T2 = [nv; nv; no; no] -> pair_sym T2 ->
  shp L1 = [no; nv] -> shp L2 = [no; no; nv; nv] -> pair_sym L2 ->
  exists r r' ts,
    returns "rccsd_2rdm_bjai" [arr T1; arr T2; arr L1; arr L2] (arr r) /\
    returns "rccsd_2rdm_bjia" [arr T1; arr T2; arr L1; arr L2] (arr r') /\
    returns "uccsd_2rdm_bjai" [arr T1; arr T1; arr (tminus T2 (swap_ket T2)); arr T2;
      arr (tminus T2 (swap_ket T2)); arr L1; arr L1; arr (tminus L2 (swap_ket L2)); arr L2;
      arr (tminus L2 (swap_ket L2))] (tup (map arr ts)) /\
    Forall2 teq ts [tminus r (swap_ket r'); tminus r (swap_ket r'); r;
                    tneg (swap_ket r'); tneg (swap_ket r'); r].
Proof. exact (bj_sound K no nv T1 T2 L1 L2). Qed.
Print Assumptions C22_rrdm_vovo_blocks.

(** hypotheses: as in C09_example and C17_example *)
Example C22_example :
  sample_entry "rccsd_2rdm_abij" [arr rT1; arr rT2; arr rL1; arr rL2] 0 [1; 0; 0; 1]%nat = Some 143572581%Q /\
  sample_entry "rccsd_2rdm_bjia" [arr rT1; arr rT2; arr rL1; arr rL2] 0 [1; 0; 0; 1]%nat = Some (-59664)%Q.
Proof. split; [vm_compute; reflexivity|]. vm_compute. reflexivity. Qed.
