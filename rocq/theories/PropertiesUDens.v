(** C65-C67: density matrices, Lambda equations and Lagrangian of unrestricted
    coupled cluster theory over spatial orbitals.  Specifications: UDensSpec.v
    (Lambda, normal ordering, expectation values), UFockSpec.v (the Hamiltonian
    and the arguments of the program in terms of integrals), CISpec.v
    (determinants), CIExpSpec.v, CCFockSpec.v, CCDensSpec.v (operator products,
    [opexp], [rdm_word]). *)
From Coq Require Import List String ZArith QArith Factorial Lia.
From Verif Require Import Scalar Tensor PySyntax PySem CCProg CISpec CIFacts CIExpSpec CCSpec CCFockSpec CCDensSpec SpinSpec CCExamples SpinExamples
  UFockSpec UDensSpec CIExpG CCEquiv UExamples UDens2 UDens3 PropertiesSpin PropertiesUCC.
Import ListNotations.
Local Open Scope string_scope.

(** C65: every unrestricted density matrix function returns a tuple of blocks, in
    the order of the given spin patterns (false: alpha, true: beta).  Element by
    element a block holds <0|(c + Lambda) exp(-T) {a+_q a_p} exp(T)|0> for P_pq and
    {a+_r a+_s a_q a_p} for P_pqrs, {} being the normal ordered product, where the
    spaces of the indices are given by a list (true: virtual).  These blocks do
    not depend on c. *)
Theorem C65_density_matrices (K : cring) n noa nva nob nvb T1a T1b T2aa T2ab T2bb L1a L1b L2aa L2ab L2bb inv M f vs spins c :
  (noa + nva)%nat = n -> (nob + nvb)%nat = n ->
  u_amps_ok noa nva nob nvb T1a T1b T2aa T2ab T2bb -> u_lams_ok noa nva nob nvb L1a L1b L2aa L2ab L2bb ->
  inverts inv M -> (nva + nvb < M)%nat ->
  let s2 := [[false; false]; [true; true]] in
  let s3 := [[false; false; false; false]; [true; true; true; true]; [false; true; false; true]] in
  let s4 := (s3 ++ [[true; false; true; false]])%list in
  let s6 := (s3 ++ [[false; true; true; false]; [true; false; false; true]; [true; false; true; false]])%list in
  In (f, vs, spins)
    [("uccsd_1rdm_ba", [true; true], s2); ("uccsd_1rdm_ji", [false; false], s2);
     ("uccsd_2rdm_cdab", [true; true; true; true], s3); ("uccsd_2rdm_ciab", [true; false; true; true], s4);
     ("uccsd_2rdm_bcai", [true; true; true; false], s4); ("uccsd_2rdm_bjai", [true; false; true; false], s6);
     ("uccsd_2rdm_jkai", [false; false; true; false], s4); ("uccsd_2rdm_kaij", [false; true; false; false], s4);
     ("uccsd_2rdm_klij", [false; false; false; false], s3)] ->
  exists Ps,
    returns (K := K) f [arr T1a; arr T1b; arr T2aa; arr T2ab; arr T2bb; arr L1a; arr L1b; arr L2aa; arr L2ab; arr L2bb]
      (tup (map arr Ps)) /\
    Forall2 (fun ss P =>
      shp P = u_extents noa nva nob nvb vs ss /\
      forall xs, inrange (u_extents noa nva nob nvb vs ss) xs ->
        dat P xs = u_normal_expect inv M n noa nva nob nvb c T1a T1b T2aa T2ab T2bb L1a L1b L2aa L2ab L2bb
          (rdm_word (u_orbitals n noa nob vs ss xs))) spins Ps.
Proof.
  intros Na Nb OT OL HI HM s2 s3 s4 s6 Hin.
  exact (u_densities K n noa nva nob nvb Na Nb T1a T1b T2aa T2ab T2bb OT L1a L1b L2aa L2ab L2bb OL inv M HI HM f vs spins c Hin).
Qed.
Print Assumptions C65_density_matrices.

(** ... and the two blocks that depend on c take it as an optional argument, 1
    when it is not given. *)
Theorem C65_density_matrices_tfac (K : cring) n noa nva nob nvb T1a T1b T2aa T2ab T2bb L1a L1b L2aa L2ab L2bb inv M f vs spins c more :
  (noa + nva)%nat = n -> (nob + nvb)%nat = n ->
  u_amps_ok noa nva nob nvb T1a T1b T2aa T2ab T2bb -> u_lams_ok noa nva nob nvb L1a L1b L2aa L2ab L2bb ->
  inverts inv M -> (nva + nvb < M)%nat ->
  In (f, vs, spins)
    [("uccsd_1rdm_ai", [true; false], [[false; false]; [true; true]]);
     ("uccsd_2rdm_abij", [true; true; false; false],
        [[false; false; false; false]; [true; true; true; true]; [false; true; false; true]])] ->
  more = [numv c] \/ more = [] /\ c = c1 ->
  exists Ps,
    returns (K := K) f ([arr T1a; arr T1b; arr T2aa; arr T2ab; arr T2bb; arr L1a; arr L1b; arr L2aa; arr L2ab; arr L2bb] ++ more)
      (tup (map arr Ps)) /\
    Forall2 (fun ss P =>
      shp P = u_extents noa nva nob nvb vs ss /\
      forall xs, inrange (u_extents noa nva nob nvb vs ss) xs ->
        dat P xs = u_normal_expect inv M n noa nva nob nvb c T1a T1b T2aa T2ab T2bb L1a L1b L2aa L2ab L2bb
          (rdm_word (u_orbitals n noa nob vs ss xs))) spins Ps.
Proof.
  intros Na Nb OT OL HI HM Hin Hm.
  destruct (u_densities_fac K n noa nva nob nvb Na Nb T1a T1b T2aa T2ab T2bb OT L1a L1b L2aa L2ab L2bb OL inv M HI HM f vs spins c Hin) as [A B].
  destruct Hm as [->|[-> ->]]; [exact A|exact B].
Qed.
Print Assumptions C65_density_matrices_tfac.

(** Sample amplitudes with one alpha and two beta electrons in three orbitals. *)
Example C65_example :
  u_amps_ok 1 2 2 1 uT1a uT1b uT2aa uT2ab uT2bb /\ u_lams_ok 1 2 2 1 uL1a uL1b uL2aa uL2ab uL2bb /\
  inverts (K := QcK) qinv 4 /\
  u_extents 1 2 2 1 [true; false; true; false] [true; false; false; true] = [1; 1; 2; 2]%nat /\
  rdm_word (u_orbitals 3 1 2 [true; false; true; false] [true; false; false; true] [0; 0; 1; 1]%nat) = [Cre 2; Cre 4; Ann 0; Ann 5] /\
  u_nprod 3 1 2 [Cre 2; Cre 4; Ann 0; Ann 5] = [Cre 2; Ann 0; Cre 4; Ann 5] /\
  u_nsign 3 1 2 [Cre 2; Cre 4; Ann 0; Ann 5] = true /\
  sample_entry "uccsd_2rdm_bjai" [arr uT1a; arr uT1b; arr uT2aa; arr uT2ab; arr uT2bb; arr uL1a;
    arr uL1b; arr uL2aa; arr uL2ab; arr uL2bb] 4 [0; 0; 1; 1]%nat = Some 6456%Q.
Proof.
  destruct (u_sample_ok QcK 1 2 2 1) as (_ & H1 & H2). do 2 (split; [assumption|]).
  split; [intros k _; apply qinv_ok, lt_O_fact|]. vm_compute. repeat split; reflexivity.
Qed.

(** C66: the residuals of the unrestricted Lambda equations are
    <0|(1 + Lambda) [exp(-T) H exp(T), tau]|0> with the excitation operators tau of
    each spin, H being the Hamiltonian over spatial orbitals (C58). *)
Theorem C66_lambda_equations (K : cring) n noa nva nob nvb ha hb Ia Ib Iab Fa Fb Iaa Ibb J
    T1a T1b T2aa T2ab T2bb L1a L1b L2aa L2ab L2bb inv M :
  u_hamiltonian n noa nva nob nvb ha hb Ia Ib Iab Fa Fb Iaa Ibb J ->
  u_amps_ok noa nva nob nvb T1a T1b T2aa T2ab T2bb -> u_lams_ok noa nva nob nvb L1a L1b L2aa L2ab L2bb ->
  inverts inv M -> (nva + nvb < M)%nat ->
  let H := H_spatial_op n ha hb Ia Ib Iab in
  let comm w := u_commutator inv M n noa nva nob nvb c1 T1a T1b T2aa T2ab T2bb L1a L1b L2aa L2ab L2bb H [(c1, w)] in
  exists la lb laa lab lbb,
    returns (K := K) "uccsd_lambda_opt" [py_one_e Fa; py_one_e Fb; py_two_e Iaa; py_two_e Ibb;
        py_two_e_full J; tup [arr L1a; arr L1b]; tup [arr L2aa; arr L2ab; arr L2bb];
        tup [arr T1a; arr T1b]; tup [arr T2aa; arr T2ab; arr T2bb]]
      (tup [tup [arr la; arr lb]; tup [arr laa; arr lab; arr lbb]]) /\
    (shp la = [noa; nva] /\ shp lb = [nob; nvb] /\ shp laa = [noa; noa; nva; nva] /\
     shp lab = [noa; nob; nva; nvb] /\ shp lbb = [nob; nob; nvb; nvb]) /\
    (forall i a, (i < noa)%nat -> (a < nva)%nat -> dat la [i; a] = comm [Cre (noa + a); Ann i]) /\
    (forall i a, (i < nob)%nat -> (a < nvb)%nat -> dat lb [i; a] = comm [Cre (n + (nob + a)); Ann (n + i)]) /\
    (forall i j a b, (i < noa)%nat -> (j < noa)%nat -> (a < nva)%nat -> (b < nva)%nat ->
       dat laa [i; j; a; b] = comm [Cre (noa + a); Cre (noa + b); Ann j; Ann i]) /\
    (forall i j a b, (i < noa)%nat -> (j < nob)%nat -> (a < nva)%nat -> (b < nvb)%nat ->
       dat lab [i; j; a; b] = comm [Cre (noa + a); Cre (n + (nob + b)); Ann (n + j); Ann i]) /\
    (forall i j a b, (i < nob)%nat -> (j < nob)%nat -> (a < nvb)%nat -> (b < nvb)%nat ->
       dat lbb [i; j; a; b] = comm [Cre (n + (nob + a)); Cre (n + (nob + b)); Ann (n + j); Ann (n + i)]).
Proof.
  intros HU HT HL HI HM.
  destruct (u_lambda_main K n noa nva nob nvb ha hb Ia Ib Iab Fa Fb Iaa Ibb J HU T1a T1b T2aa T2ab T2bb HT L1a L1b L2aa L2ab L2bb HL inv M HI HM)
    as (e & ta & tb & aa & ab & bb & la & lb & laa & lab & lbb & _ & _ & R & S & Q & _).
  exists la, lb, laa, lab, lbb. exact (conj R (conj S Q)).
Qed.
Print Assumptions C66_lambda_equations.

(** C66: when T solves the unrestricted equations, the Lambda residuals vanish if
    and only if <0|(1 + Lambda) is a left eigenvector of exp(-T) H exp(T) in the
    space of at most two excitations, with the energy as the eigenvalue. *)
Theorem C66_left_eigenvector (K : cring) n noa nva nob nvb ha hb Ia Ib Iab Fa Fb Iaa Ibb J
    T1a T1b T2aa T2ab T2bb L1a L1b L2aa L2ab L2bb inv M :
  u_hamiltonian n noa nva nob nvb ha hb Ia Ib Iab Fa Fb Iaa Ibb J ->
  u_amps_ok noa nva nob nvb T1a T1b T2aa T2ab T2bb -> u_lams_ok noa nva nob nvb L1a L1b L2aa L2ab L2bb ->
  inverts inv M -> (nva + nvb < M)%nat ->
  let A := aufbau n noa in let B := aufbau n nob in let ref := (A ++ B)%list in
  let H := H_spatial_op n ha hb Ia Ib Iab in
  let Hbar := transformed inv M (u_cluster n noa nva nob nvb T1a T1b T2aa T2ab T2bb) H in
  let Lam := u_lambda n noa nva nob nvb c1 L1a L1b L2aa L2ab L2bb in
  exists e ta tb aa ab bb la lb laa lab lbb,
    returns (K := K) "ucc_energy" [tup [arr T1a; arr T1b]; tup [arr T2aa; arr T2ab; arr T2bb];
      arr (ov Fa); arr (ov Fb); arr (oovv Iaa); arr (oovv Ibb); arr (foovv J)] (numv e) /\
    returns (K := K) "uccsd_stanton" [py_one_e Fa; py_one_e Fb; py_two_e Iaa; py_two_e Ibb; py_two_e_full J;
        tup [arr T1a; arr T1b]; tup [arr T2aa; arr T2ab; arr T2bb]]
      (tup [tup [arr ta; arr tb]; tup [arr aa; arr ab; arr bb]]) /\
    returns (K := K) "uccsd_lambda_opt" [py_one_e Fa; py_one_e Fb; py_two_e Iaa; py_two_e Ibb;
        py_two_e_full J; tup [arr L1a; arr L1b]; tup [arr L2aa; arr L2ab; arr L2bb];
        tup [arr T1a; arr T1b]; tup [arr T2aa; arr T2ab; arr T2bb]]
      (tup [tup [arr la; arr lb]; tup [arr laa; arr lab; arr lbb]]) /\
    (u_solved noa nva nob nvb ta tb aa ab bb ->
     (u_lambda_solved noa nva nob nvb la lb laa lab lbb <->
      forall x, u_space 2 A B x ->
        amp ref (opmul Lam Hbar) (fst x ++ snd x)%list = ((amp ref H ref + e) * amp ref Lam (fst x ++ snd x)%list)%K)).
Proof.
  intros HU HT HL HI HM.
  destruct (u_lambda_main K n noa nva nob nvb ha hb Ia Ib Iab Fa Fb Iaa Ibb J HU T1a T1b T2aa T2ab T2bb HT L1a L1b L2aa L2ab L2bb HL inv M HI HM)
    as (e & ta & tb & aa & ab & bb & la & lb & laa & lab & lbb & He & Rt & Rl & _ & _ & Q & _).
  exists e, ta, tb, aa, ab, bb, la, lb, laa, lab, lbb. exact (conj He (conj Rt (conj Rl Q))).
Qed.
Print Assumptions C66_left_eigenvector.

(** C67: <0|(1 + Lambda) exp(-T) H exp(T)|0> is <0|H|0> plus the energy returned by
    ucc_energy plus the residuals returned by uccsd_stanton weighted with Lambda. *)
Theorem C67_expectation_of_the_hamiltonian (K : cring) n noa nva nob nvb ha hb Ia Ib Iab Fa Fb Iaa Ibb J
    T1a T1b T2aa T2ab T2bb L1a L1b L2aa L2ab L2bb inv M :
  u_hamiltonian n noa nva nob nvb ha hb Ia Ib Iab Fa Fb Iaa Ibb J ->
  u_amps_ok noa nva nob nvb T1a T1b T2aa T2ab T2bb -> u_lams_ok noa nva nob nvb L1a L1b L2aa L2ab L2bb ->
  inverts inv M -> (nva + nvb < M)%nat ->
  let ref := (aufbau n noa ++ aufbau n nob)%list in
  let H := H_spatial_op n ha hb Ia Ib Iab in
  exists e ta tb aa ab bb,
    returns (K := K) "ucc_energy" [tup [arr T1a; arr T1b]; tup [arr T2aa; arr T2ab; arr T2bb];
      arr (ov Fa); arr (ov Fb); arr (oovv Iaa); arr (oovv Ibb); arr (foovv J)] (numv e) /\
    returns (K := K) "uccsd_stanton" [py_one_e Fa; py_one_e Fb; py_two_e Iaa; py_two_e Ibb; py_two_e_full J;
        tup [arr T1a; arr T1b]; tup [arr T2aa; arr T2ab; arr T2bb]]
      (tup [tup [arr ta; arr tb]; tup [arr aa; arr ab; arr bb]]) /\
    u_expect inv M n noa nva nob nvb c1 T1a T1b T2aa T2ab T2bb L1a L1b L2aa L2ab L2bb H
    = (amp ref H ref + (e +
        (dot2 noa nva (dat L1a) (dat ta) + dot2 nob nvb (dat L1b) (dat tb) +
         (quarter * dot4 noa noa nva nva (dat L2aa) (dat aa) + quarter * dot4 nob nob nvb nvb (dat L2bb) (dat bb) +
          dot4 noa nob nva nvb (dat L2ab) (dat ab)))))%K.
Proof.
  intros HU HT HL HI HM.
  destruct (u_lambda_main K n noa nva nob nvb ha hb Ia Ib Iab Fa Fb Iaa Ibb J HU T1a T1b T2aa T2ab T2bb HT L1a L1b L2aa L2ab L2bb HL inv M HI HM)
    as (e & ta & tb & aa & ab & bb & la & lb & laa & lab & lbb & He & Rt & _ & _ & _ & _ & Q).
  exists e, ta, tb, aa, ab, bb. exact (conj He (conj Rt Q)).
Qed.
Print Assumptions C67_expectation_of_the_hamiltonian.

(** The two-electron Hamiltonian of C58 and the Lambda that belongs to the left
    eigenvector (1, 2, 3, 4): <0|(1 + Lambda) is (30, 14, 11, 4)/30. *)
Definition x2_l (z : Z) : QcK := Qcanon.Q2Qc (z # 30).
Definition x2_L2 (z : Z) : tensor QcK := mkT [1; 1]%nat (fun _ => x2_l z).
Definition x2_L4 (z : Z) : tensor QcK := mkT [1; 1; 1; 1]%nat (fun _ => x2_l z).
Definition x2_lam_args : list (pyval QcK) :=
  [py_one_e (UExamples.uFa x2); py_one_e (UExamples.uFb x2); py_two_e (uIaa x2); py_two_e (uIbb x2);
   py_two_e_full (UExamples.uJ x2); tup [arr (x2_L2 14); arr (x2_L2 11)]; tup [arr (x2_L4 0); arr (x2_L4 4); arr (x2_L4 0)];
   tup [arr (UExamples.uT1a x2); arr (UExamples.uT1b x2)]; tup [arr (UExamples.uT2aa x2); arr (UExamples.uT2ab x2); arr (UExamples.uT2bb x2)]].
Example C66_example :
  u_hamiltonian 2 1 1 1 1 (z2 x2_ha) (z2 x2_hb) (z4 x2_Ia) (z4 x2_Ib) (z4 x2_Iab)
    (UExamples.uFa x2) (UExamples.uFb x2) (uIaa x2) (uIbb x2) (UExamples.uJ x2) /\
  u_amps_ok 1 1 1 1 (UExamples.uT1a x2) (UExamples.uT1b x2) (UExamples.uT2aa x2) (UExamples.uT2ab x2) (UExamples.uT2bb x2) /\
  u_lams_ok 1 1 1 1 (x2_L2 14) (x2_L2 11) (x2_L4 0) (x2_L4 4) (x2_L4 0) /\
  (exists ta tb aa ab bb,
    returns (K := QcK) "uccsd_stanton" [py_one_e (UExamples.uFa x2); py_one_e (UExamples.uFb x2); py_two_e (uIaa x2); py_two_e (uIbb x2); py_two_e_full (UExamples.uJ x2);
        tup [arr (UExamples.uT1a x2); arr (UExamples.uT1b x2)]; tup [arr (UExamples.uT2aa x2); arr (UExamples.uT2ab x2); arr (UExamples.uT2bb x2)]]
      (tup [tup [arr ta; arr tb]; tup [arr aa; arr ab; arr bb]]) /\ u_solved 1 1 1 1 ta tb aa ab bb) /\
  (exists la lb laa lab lbb,
    returns "uccsd_lambda_opt" x2_lam_args (tup [tup [arr la; arr lb]; tup [arr laa; arr lab; arr lbb]]) /\
    u_lambda_solved 1 1 1 1 la lb laa lab lbb).
Proof.
  destruct C58_example as (A2 & B2 & _ & S2 & _).
  assert (HL : u_lams_ok (K := QcK) 1 1 1 1 (x2_L2 14) (x2_L2 11) (x2_L4 0) (x2_L4 4) (x2_L4 0)).
  { repeat split; first [reflexivity|red; intros; apply Qcanon.Qc_is_canon; vm_compute; reflexivity]. }
  split; [exact A2|]. split; [exact B2|]. split; [exact HL|]. split; [exact S2|].
  destruct (C66_lambda_equations QcK 2 1 1 1 1 _ _ _ _ _ _ _ _ _ _ _ _ _ _ _ _ _ _ _ _ qinv 3 A2 B2 HL
    (fun k _ => qinv_ok _ (lt_O_fact k)) ltac:(lia)) as (la & lb & laa & lab & lbb & R & _).
  exists la, lb, laa, lab, lbb. split; [exact R|].
  assert (H : u_zeros 1 1 1 1 (u_sample "uccsd_lambda_opt" x2_lam_args) = true) by (vm_compute; reflexivity).
  destruct R as (args' & E & _). unfold u_sample, x2_lam_args in H. rewrite E in H.
  exact (u_zeros_ok 1 1 1 1 _ _ _ _ _ H).
Qed.
