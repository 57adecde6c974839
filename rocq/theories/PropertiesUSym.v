(** Fermionic symmetry of what the unrestricted and restricted functions
    return: final statements.  The vocabulary is CCSpec.v and SpinSpec.v. *)
From Coq Require Import List String ZArith QArith.
From Verif Require Import Scalar Tensor PySyntax PySem CCProg CCSpec CCExamples NpModel SpinModel
  SpinSpec SpinExamples PropertiesSpin USym.
Import ListNotations.
Local Open Scope string_scope.

(** C05, unrestricted: the same-spin doubles returned by uccsd_stanton change
    sign under exchange of their virtual indices and of their occupied indices,
    so the result can be fed back in: [u_amps_ok] is an invariant of the
    iteration. *)
Theorem C05_uccsd_antisymmetric (K : cring) noa nva nob nvb Fa Fb Ia Ib (Iab : two_e_full K)
    T1a T1b T2aa T2ab T2bb :
  u_ham_ok noa nva nob nvb Fa Fb Ia Ib Iab ->
  u_amps_ok noa nva nob nvb T1a T1b T2aa T2ab T2bb ->
  exists ta tb aa ab bb,
    returns "uccsd_stanton" [py_one_e Fa; py_one_e Fb; py_two_e Ia; py_two_e Ib; py_two_e_full Iab;
        tup [arr T1a; arr T1b]; tup [arr T2aa; arr T2ab; arr T2bb]]
      (tup [tup [arr ta; arr tb]; tup [arr aa; arr ab; arr bb]]) /\
    u_amps_ok noa nva nob nvb ta tb aa ab bb /\
    antisym_lead aa /\ antisym_tail aa /\ antisym_lead bb /\ antisym_tail bb.
Proof.
  intros HH HT. destruct (uccsd_sym K noa nva nob nvb Fa Fb Ia Ib Iab T1a T1b T2aa T2ab T2bb HH HT)
    as (ta & tb & aa & ab & bb & R & S).
  exists ta, tb, aa, ab, bb. split; [exact R|]. split; [exact S|].
  destruct S as (_ & _ & (_ & S1 & S2) & _ & (_ & S3 & S4)). auto.
Qed.
Print Assumptions C05_uccsd_antisymmetric.

(** two alpha electrons in four orbitals, one beta electron in two *)
Definition yFa := sampleF QcK 2 2. Definition yFb := sampleF QcK 1 1.
Definition yIa := sampleI QcK 2 2. Definition yIb := sampleI QcK 1 1.
Definition yJ := sampleJ QcK 2 2 1 1.
Definition yT1a := sampleT1 QcK 2 2. Definition yT1b := sampleT1 QcK 1 1.
Definition yT2aa := sampleT2 QcK 2 2. Definition yT2ab := sampleT2ab QcK 2 2 1 1.
Definition yT2bb := sampleT2 QcK 1 1.
Definition yL1a := sampleL1 QcK 2 2. Definition yL1b := sampleL1 QcK 1 1.
Definition yL2aa := sampleL2 QcK 2 2. Definition yL2ab := sampleL2ab QcK 2 2 1 1.
Definition yL2bb := sampleL2 QcK 1 1.

Example C05_u_example :
  u_ham_ok 2 2 1 1 yFa yFb yIa yIb yJ /\ u_amps_ok 2 2 1 1 yT1a yT1b yT2aa yT2ab yT2bb /\
  let args := [py_one_e yFa; py_one_e yFb; py_two_e yIa; py_two_e yIb; py_two_e_full yJ;
    tup [arr yT1a; arr yT1b]; tup [arr yT2aa; arr yT2ab; arr yT2bb]] in
  sample_entry2 "uccsd_stanton" args 1 0 [0; 1; 0; 1]%nat = Some (-104728)%Q /\
  sample_entry2 "uccsd_stanton" args 1 0 [0; 1; 1; 0]%nat = Some 104728%Q.
Proof.
  destruct (u_sample_ok QcK 2 2 1 1) as (H1 & H2 & _).
  do 2 (split; [assumption|]). vm_compute. auto.
Qed.

(** C15, unrestricted: the same for uccsd_lambda_opt *)
Theorem C15_ulambda_antisymmetric (K : cring) noa nva nob nvb Fa Fb Ia Ib (Iab : two_e_full K)
    L1a L1b L2aa L2ab L2bb T1a T1b T2aa T2ab T2bb :
  u_ham_ok noa nva nob nvb Fa Fb Ia Ib Iab ->
  u_lams_ok noa nva nob nvb L1a L1b L2aa L2ab L2bb ->
  u_amps_ok noa nva nob nvb T1a T1b T2aa T2ab T2bb ->
  exists la lb aa ab bb,
    returns "uccsd_lambda_opt" [py_one_e Fa; py_one_e Fb; py_two_e Ia; py_two_e Ib; py_two_e_full Iab;
        tup [arr L1a; arr L1b]; tup [arr L2aa; arr L2ab; arr L2bb];
        tup [arr T1a; arr T1b]; tup [arr T2aa; arr T2ab; arr T2bb]]
      (tup [tup [arr la; arr lb]; tup [arr aa; arr ab; arr bb]]) /\
    u_lams_ok noa nva nob nvb la lb aa ab bb /\
    antisym_lead aa /\ antisym_tail aa /\ antisym_lead bb /\ antisym_tail bb.
Proof.
  intros HH HL HT. destruct (ulambda_sym K noa nva nob nvb Fa Fb Ia Ib Iab L1a L1b L2aa L2ab L2bb
    T1a T1b T2aa T2ab T2bb HH HL HT) as (la & lb & aa & ab & bb & R & S).
  exists la, lb, aa, ab, bb. split; [exact R|]. split; [exact S|].
  destruct S as (_ & _ & (_ & S1 & S2) & _ & (_ & S3 & S4)). auto.
Qed.
Print Assumptions C15_ulambda_antisymmetric.

Example C15_u_example :
  u_ham_ok 2 2 1 1 yFa yFb yIa yIb yJ /\ u_lams_ok 2 2 1 1 yL1a yL1b yL2aa yL2ab yL2bb /\
  u_amps_ok 2 2 1 1 yT1a yT1b yT2aa yT2ab yT2bb /\
  sample_entry2 "uccsd_lambda_opt" [py_one_e yFa; py_one_e yFb; py_two_e yIa; py_two_e yIb; py_two_e_full yJ;
    tup [arr yL1a; arr yL1b]; tup [arr yL2aa; arr yL2ab; arr yL2bb];
    tup [arr yT1a; arr yT1b]; tup [arr yT2aa; arr yT2ab; arr yT2bb]] 1 0 [0; 1; 0; 1]%nat = Some (-116102)%Q.
Proof.
  destruct (u_sample_ok QcK 2 2 1 1) as (H1 & H2 & H3).
  do 3 (split; [assumption|]). vm_compute. auto.
Qed.

(** C20, unrestricted: the alpha-alpha and the beta-beta block (the first two
    arrays of the tuple) *)
Theorem C20_urdm_bra_antisymmetric (K : cring) noa nva nob nvb
    (T1a T1b T2aa T2ab T2bb L1a L1b L2aa L2ab L2bb : tensor K) f :
  In f ["uccsd_2rdm_cdab"; "uccsd_2rdm_klij"; "uccsd_2rdm_abij"; "uccsd_2rdm_bcai"; "uccsd_2rdm_jkai"] ->
  u_amps_ok noa nva nob nvb T1a T1b T2aa T2ab T2bb ->
  u_lams_ok noa nva nob nvb L1a L1b L2aa L2ab L2bb ->
  exists us, returns f [arr T1a; arr T1b; arr T2aa; arr T2ab; arr T2bb; arr L1a; arr L1b;
      arr L2aa; arr L2ab; arr L2bb] (tup (map arr us)) /\
    antisym_lead (pick us 0) /\ antisym_lead (pick us 1).
Proof.
  intros Hf HT HL.
  exact (urdm_lead K noa nva nob nvb T1a T1b T2aa T2ab T2bb L1a L1b L2aa L2ab L2bb HT HL f Hf).
Qed.
Print Assumptions C20_urdm_bra_antisymmetric.

Theorem C20_urdm_ket_antisymmetric (K : cring) noa nva nob nvb
    (T1a T1b T2aa T2ab T2bb L1a L1b L2aa L2ab L2bb : tensor K) f :
  In f ["uccsd_2rdm_cdab"; "uccsd_2rdm_klij"; "uccsd_2rdm_abij"; "uccsd_2rdm_ciab"; "uccsd_2rdm_kaij"] ->
  u_amps_ok noa nva nob nvb T1a T1b T2aa T2ab T2bb ->
  u_lams_ok noa nva nob nvb L1a L1b L2aa L2ab L2bb ->
  exists us, returns f [arr T1a; arr T1b; arr T2aa; arr T2ab; arr T2bb; arr L1a; arr L1b;
      arr L2aa; arr L2ab; arr L2bb] (tup (map arr us)) /\
    antisym_tail (pick us 0) /\ antisym_tail (pick us 1).
Proof.
  intros Hf HT HL.
  exact (urdm_tail K noa nva nob nvb T1a T1b T2aa T2ab T2bb L1a L1b L2aa L2ab L2bb HT HL f Hf).
Qed.
Print Assumptions C20_urdm_ket_antisymmetric.

Example C20_u_example :
  u_amps_ok 2 2 1 1 yT1a yT1b yT2aa yT2ab yT2bb /\ u_lams_ok 2 2 1 1 yL1a yL1b yL2aa yL2ab yL2bb /\
  let args := [arr yT1a; arr yT1b; arr yT2aa; arr yT2ab; arr yT2bb; arr yL1a; arr yL1b;
    arr yL2aa; arr yL2ab; arr yL2bb] in
  sample_entry "uccsd_2rdm_bcai" args 0 [0; 1; 0; 1]%nat = Some (-3263)%Q /\
  sample_entry "uccsd_2rdm_kaij" args 0 [0; 1; 0; 1]%nat = Some 3263%Q.
Proof.
  destruct (u_sample_ok QcK 2 2 1 1) as (_ & H2 & H3).
  do 2 (split; [assumption|]). vm_compute. auto.
Qed.

(** C20, restricted: blocks whose bra indices share a space and whose ket
    indices share a space do not change when the two particles are exchanged,
    G[p,q,r,s] = G[q,p,s,r] *)
Theorem C20_rrdm_pair_symmetric (K : cring) no nv (T1 T2 L1 L2 : tensor K) f :
  In f ["rccsd_2rdm_cdab"; "rccsd_2rdm_klij"; "rccsd_2rdm_abij"] ->
  shp T1 = [nv; no] -> shp T2 = [nv; nv; no; no] -> pair_sym T2 ->
  shp L1 = [no; nv] -> shp L2 = [no; no; nv; nv] -> pair_sym L2 ->
  exists r, returns f [arr T1; arr T2; arr L1; arr L2] (arr r) /\ pair_sym r.
Proof. exact (rrdm_pair K no nv T1 T2 L1 L2 f). Qed.
Print Assumptions C20_rrdm_pair_symmetric.

Example C20_r_example :
  let T1 := sampleT1 QcK 2 2 in let T2 := sampleT2r QcK 2 2 in
  let L1 := sampleL1 QcK 2 2 in let L2 := sampleL2r QcK 2 2 in
  shp T1 = [2; 2]%nat /\ shp L1 = [2; 2]%nat /\
  (shp T2 = [2; 2; 2; 2]%nat /\ pair_sym T2) /\ (shp L2 = [2; 2; 2; 2]%nat /\ pair_sym L2) /\
  sample_entry "rccsd_2rdm_abij" [arr T1; arr T2; arr L1; arr L2] 0 [0; 1; 0; 0]%nat = Some 102545825%Q.
Proof.
  destruct (r_sample_ok QcK 2 2) as (_ & _ & H2 & H3).
  do 4 (split; [assumption || reflexivity|]). vm_compute. auto.
Qed.
