(** Properties relating the unrestricted functions to the spin-orbital ones:
    final statements.  The vocabulary is CCSpec.v and SpinSpec.v; the model of
    spin_utils.py is SpinModel.v. *)
From Coq Require Import List String ZArith QArith.
From Verif Require Import Scalar Tensor PySyntax PySem CCProg CCSpec CCExamples NpModel SpinModel
  SpinSpec SpinExamples CCSpin.
Import ListNotations.
Local Open Scope string_scope.

(** C08: ccsd_stanton on the spin-orbital arrays built from unrestricted
    pieces returns what T1_to_spin and T2_to_spin build from the result of
    uccsd_stanton. *)
Theorem C08_uccsd_is_spin_orbital_ccsd (K : cring) noa nva nob nvb Fa Fb Ia Ib
    (Iab : two_e_full K) T1a T1b T2aa T2ab T2bb :
  u_ham_ok noa nva nob nvb Fa Fb Ia Ib Iab ->
  u_amps_ok noa nva nob nvb T1a T1b T2aa T2ab T2bb ->
  exists F I T1 T2 S1 S2 ta tb aa ab bb S1' S2',
    F_to_spin Fa Fb noa nva nob nvb = Some F /\
    int_to_spin2 Ia Ib Iab noa nva nob nvb = Some I /\
    T1_to_spin T1a T1b noa nva nob nvb = Some T1 /\
    T2_to_spin T2aa T2ab T2bb noa nva nob nvb = Some T2 /\
    returns "ccsd_stanton" [py_one_e F; py_two_e I; arr T1; arr T2] (tup [arr S1; arr S2]) /\
    returns "uccsd_stanton" [py_one_e Fa; py_one_e Fb; py_two_e Ia; py_two_e Ib; py_two_e_full Iab;
        tup [arr T1a; arr T1b]; tup [arr T2aa; arr T2ab; arr T2bb]]
      (tup [tup [arr ta; arr tb]; tup [arr aa; arr ab; arr bb]]) /\
    T1_to_spin ta tb noa nva nob nvb = Some S1' /\ teq S1 S1' /\
    T2_to_spin aa ab bb noa nva nob nvb = Some S2' /\ teq S2 S2'.
Proof.
  exact (uccsd_is_spin_orbital K noa nva nob nvb Fa Fb Ia Ib Iab T1a T1b T2aa T2ab T2bb).
Qed.
Print Assumptions C08_uccsd_is_spin_orbital_ccsd.

(** Sample inputs with one occupied and two virtual alpha orbitals, two
    occupied and one virtual beta orbital. *)
Notation uFa := (sampleF QcK 1 2). Notation uFb := (sampleF QcK 2 1).
Notation uIa := (sampleI QcK 1 2). Notation uIb := (sampleI QcK 2 1).
Notation uJ := (sampleJ QcK 1 2 2 1).
Notation uT1a := (sampleT1 QcK 1 2). Notation uT1b := (sampleT1 QcK 2 1).
Notation uT2aa := (sampleT2 QcK 1 2). Notation uT2ab := (sampleT2ab QcK 1 2 2 1).
Notation uT2bb := (sampleT2 QcK 2 1).
Notation uL1a := (sampleL1 QcK 1 2). Notation uL1b := (sampleL1 QcK 2 1).
Notation uL2aa := (sampleL2 QcK 1 2). Notation uL2ab := (sampleL2ab QcK 1 2 2 1).
Notation uL2bb := (sampleL2 QcK 2 1).

(** an entry of the [j]-th array of the [k]-th tuple of a result *)
Definition sample_entry2 (f : string) (args : list (pyval QcK)) (k j : nat) (idx : list nat)
  : option Q :=
  match pycall (conc_alg QcK) cc_prog f args with
  | Ok (XTup l, _) => match nth_error l k with Some r => entry r j idx | None => None end
  | _ => None
  end.

Example C08_example :
  u_ham_ok 1 2 2 1 uFa uFb uIa uIb uJ /\ u_amps_ok 1 2 2 1 uT1a uT1b uT2aa uT2ab uT2bb /\
  sample_entry2 "uccsd_stanton" [py_one_e uFa; py_one_e uFb; py_two_e uIa; py_two_e uIb;
    py_two_e_full uJ; tup [arr uT1a; arr uT1b]; tup [arr uT2aa; arr uT2ab; arr uT2bb]] 1 1
    [1; 0; 0; 1]%nat = Some 5203742%Q.
Proof.
  destruct (u_sample_ok QcK 1 2 2 1) as (H1 & H2 & _).
  repeat (split; [assumption|]). vm_compute. reflexivity.
Qed.

(** C10, unrestricted against spin-orbital: cc_energy and ucc_energy agree,
    mp2_energy and ump2_energy agree. *)
Theorem C10_energies_agree_with_spin_orbital (K : cring) noa nva nob nvb Fa Fb Ia Ib
    (Iab : two_e_full K) T1a T1b T2aa T2ab T2bb F I T1 T2 :
  u_ham_ok noa nva nob nvb Fa Fb Ia Ib Iab ->
  u_amps_ok noa nva nob nvb T1a T1b T2aa T2ab T2bb ->
  F_to_spin Fa Fb noa nva nob nvb = Some F ->
  int_to_spin2 Ia Ib Iab noa nva nob nvb = Some I ->
  T1_to_spin T1a T1b noa nva nob nvb = Some T1 ->
  T2_to_spin T2aa T2ab T2bb noa nva nob nvb = Some T2 ->
  Forall (fun fg => exists E,
    returns (fst fg) [arr T1; arr T2; arr (ov F); arr (oovv I)] (numv E) /\
    returns (snd fg) [tup [arr T1a; arr T1b]; tup [arr T2aa; arr T2ab; arr T2bb];
      arr (ov Fa); arr (ov Fb); arr (oovv Ia); arr (oovv Ib); arr (foovv Iab)] (numv E))
    [("cc_energy", "ucc_energy"); ("mp2_energy", "ump2_energy")].
Proof.
  intros H1 H2 H3 H4 H5 H6. constructor; [|constructor; [|constructor]].
  - exact (en_sound K _ _ _ _ _ _ _ _ _ _ _ _ _ _ _ _ _ _ _ _ _ c10_chk1 H1 H2 H3 H4 H5 H6).
  - exact (en_sound K _ _ _ _ _ _ _ _ _ _ _ _ _ _ _ _ _ _ _ _ _ c10_chk2 H1 H2 H3 H4 H5 H6).
Qed.
Print Assumptions C10_energies_agree_with_spin_orbital.

Definition is_some {A} (o : option A) : bool := match o with Some _ => true | None => false end.
Example C10_example :
  u_ham_ok 1 2 2 1 uFa uFb uIa uIb uJ /\ u_amps_ok 1 2 2 1 uT1a uT1b uT2aa uT2ab uT2bb /\
  is_some (F_to_spin uFa uFb 1 2 2 1) = true /\ is_some (int_to_spin2 uIa uIb uJ 1 2 2 1) = true /\
  is_some (T1_to_spin uT1a uT1b 1 2 2 1) = true /\
  is_some (T2_to_spin uT2aa uT2ab uT2bb 1 2 2 1) = true /\
  sample_entry "ucc_energy" [tup [arr uT1a; arr uT1b]; tup [arr uT2aa; arr uT2ab; arr uT2bb];
      arr (ov uFa); arr (ov uFb); arr (oovv uIa); arr (oovv uIb); arr (foovv uJ)] 0 [] = Some 9561%Q.
Proof.
  destruct (u_sample_ok QcK 1 2 2 1) as (H1 & H2 & _).
  repeat (split; [assumption || (vm_compute; reflexivity)|]). vm_compute. reflexivity.
Qed.

(** C16: the same as C08 for the Lambda equations. *)
Theorem C16_ulambda_is_spin_orbital_lambda (K : cring) noa nva nob nvb Fa Fb Ia Ib
    (Iab : two_e_full K) L1a L1b L2aa L2ab L2bb T1a T1b T2aa T2ab T2bb :
  u_ham_ok noa nva nob nvb Fa Fb Ia Ib Iab ->
  u_lams_ok noa nva nob nvb L1a L1b L2aa L2ab L2bb ->
  u_amps_ok noa nva nob nvb T1a T1b T2aa T2ab T2bb ->
  exists F I L1 L2 T1 T2 S1 S2 la lb laa lab lbb S1' S2',
    F_to_spin Fa Fb noa nva nob nvb = Some F /\
    int_to_spin2 Ia Ib Iab noa nva nob nvb = Some I /\
    T1_to_spin L1a L1b nva noa nvb nob = Some L1 /\
    T2_to_spin L2aa L2ab L2bb nva noa nvb nob = Some L2 /\
    T1_to_spin T1a T1b noa nva nob nvb = Some T1 /\
    T2_to_spin T2aa T2ab T2bb noa nva nob nvb = Some T2 /\
    returns "ccsd_lambda_opt" [py_one_e F; py_two_e I; arr L1; arr L2; arr T1; arr T2]
      (tup [arr S1; arr S2]) /\
    returns "uccsd_lambda_opt" [py_one_e Fa; py_one_e Fb; py_two_e Ia; py_two_e Ib;
        py_two_e_full Iab; tup [arr L1a; arr L1b]; tup [arr L2aa; arr L2ab; arr L2bb];
        tup [arr T1a; arr T1b]; tup [arr T2aa; arr T2ab; arr T2bb]]
      (tup [tup [arr la; arr lb]; tup [arr laa; arr lab; arr lbb]]) /\
    T1_to_spin la lb nva noa nvb nob = Some S1' /\ teq S1 S1' /\
    T2_to_spin laa lab lbb nva noa nvb nob = Some S2' /\ teq S2 S2'.
Proof.
  exact (ulambda_is_spin_orbital K noa nva nob nvb Fa Fb Ia Ib Iab L1a L1b L2aa L2ab L2bb
    T1a T1b T2aa T2ab T2bb).
Qed.
Print Assumptions C16_ulambda_is_spin_orbital_lambda.

Example C16_example :
  u_ham_ok 1 2 2 1 uFa uFb uIa uIb uJ /\ u_lams_ok 1 2 2 1 uL1a uL1b uL2aa uL2ab uL2bb /\
  u_amps_ok 1 2 2 1 uT1a uT1b uT2aa uT2ab uT2bb /\
  sample_entry2 "uccsd_lambda_opt" [py_one_e uFa; py_one_e uFb; py_two_e uIa; py_two_e uIb;
    py_two_e_full uJ; tup [arr uL1a; arr uL1b]; tup [arr uL2aa; arr uL2ab; arr uL2bb];
    tup [arr uT1a; arr uT1b]; tup [arr uT2aa; arr uT2ab; arr uT2bb]] 1 1
    [0; 1; 1; 0]%nat = Some (-29114)%Q.
Proof.
  destruct (u_sample_ok QcK 1 2 2 1) as (H1 & H2 & H3).
  repeat (split; [assumption|]). vm_compute. reflexivity.
Qed.

(** C21: the spin-orbital density matrices, evaluated on spin-orbital
    amplitudes built from unrestricted pieces, hold at every spin pattern the
    block that the unrestricted function returns (and zeros at the other
    patterns).  Each line names the two functions, the number of blocks the
    unrestricted one returns, the alpha and beta sizes of the axes, and where
    the blocks go. *)
Theorem C21_urdm_blocks (K : cring) noa nva nob nvb (T1a T1b T2aa T2ab T2bb L1a L1b L2aa L2ab L2bb
    T1 T2 L1 L2 : tensor K) (tfac : K) :
  u_amps_ok noa nva nob nvb T1a T1b T2aa T2ab T2bb ->
  u_lams_ok noa nva nob nvb L1a L1b L2aa L2ab L2bb ->
  T1_to_spin T1a T1b noa nva nob nvb = Some T1 ->
  T2_to_spin T2aa T2ab T2bb noa nva nob nvb = Some T2 ->
  T1_to_spin L1a L1b nva noa nvb nob = Some L1 ->
  T2_to_spin L2aa L2ab L2bb nva noa nvb nob = Some L2 ->
  let claim (more : list (pyval K)) (e : string * string * nat * list nat * list nat *
        (list (tensor K) -> list bool -> option (tensor K))) :=
    let '(f, g, n, na, nb, blocks) := e in
    exists S us,
      returns f ([arr T1; arr T2; arr L1; arr L2] ++ more)%list (arr S) /\
      returns g ([arr T1a; arr T1b; arr T2aa; arr T2ab; arr T2bb; arr L1a; arr L1b;
        arr L2aa; arr L2ab; arr L2bb] ++ more)%list (tup (map arr us)) /\
      List.length us = n /\ holds na nb S (blocks us) in
  Forall (claim [])
    [ ("ccsd_1rdm_ba", "uccsd_1rdm_ba", 2%nat, [nva; nva], [nvb; nvb], rdm2);
      ("ccsd_1rdm_ji", "uccsd_1rdm_ji", 2%nat, [noa; noa], [nob; nob], rdm2);
      ("ccsd_1rdm_ai", "uccsd_1rdm_ai", 2%nat, [nva; noa], [nvb; nob], rdm2);
      ("ccsd_2rdm_ciab", "uccsd_2rdm_ciab", 4%nat, [nva; noa; nva; nva], [nvb; nob; nvb; nvb],
        rdm4_ket);
      ("ccsd_2rdm_jkai", "uccsd_2rdm_jkai", 4%nat, [noa; noa; nva; noa], [nob; nob; nvb; nob],
        rdm4_bra);
      ("ccsd_2rdm_cdab", "uccsd_2rdm_cdab", 3%nat, [nva; nva; nva; nva], [nvb; nvb; nvb; nvb],
        rdm3);
      ("ccsd_2rdm_bjai", "uccsd_2rdm_bjai", 6%nat, [nva; noa; nva; noa], [nvb; nob; nvb; nob],
        rdm6);
      ("ccsd_2rdm_klij", "uccsd_2rdm_klij", 3%nat, [noa; noa; noa; noa], [nob; nob; nob; nob],
        rdm3);
      ("ccsd_2rdm_bcai", "uccsd_2rdm_bcai", 4%nat, [nva; nva; nva; noa], [nvb; nvb; nvb; nob],
        rdm4_bra);
      ("ccsd_2rdm_kaij", "uccsd_2rdm_kaij", 4%nat, [noa; nva; noa; noa], [nob; nvb; nob; nob],
        rdm4_ket);
      ("ccsd_2rdm_abij", "uccsd_2rdm_abij", 3%nat, [nva; nva; noa; noa], [nvb; nvb; nob; nob],
        rdm3) ] /\
  Forall (claim [numv tfac])
    [ ("ccsd_1rdm_ai", "uccsd_1rdm_ai", 2%nat, [nva; noa], [nvb; nob], rdm2);
      ("ccsd_2rdm_abij", "uccsd_2rdm_abij", 3%nat, [nva; nva; noa; noa], [nvb; nvb; nob; nob],
        rdm3) ].
Proof.
  intros HT HL E1 E2 E3 E4 claim.
  pose proof (conj E1 E2) as HTT. pose proof (conj E3 E4) as HLL.
  pose proof (fun k f g fac n pt cs sh b => rdm_use K noa nva nob nvb T1a T1b T2aa T2ab T2bb
    L1a L1b L2aa L2ab L2bb T1 T2 L1 L2 tfac HT HL HTT HLL k f g fac n pt cs sh b) as U.
  Ltac c21 U k := refine (U k _ _ _ _ _ _ _ _ eq_refl eq_refl eq_refl _);
    intros us; apply spin_list_ext; repeat constructor.
  split; repeat (constructor; [cbv beta iota delta [claim]|]); try solve [constructor].
  - c21 U 0%nat.
  - c21 U 1%nat.
  - c21 U 2%nat.
  - c21 U 4%nat.
  - c21 U 5%nat.
  - c21 U 6%nat.
  - c21 U 7%nat.
  - c21 U 8%nat.
  - c21 U 9%nat.
  - c21 U 10%nat.
  - c21 U 11%nat.
  - c21 U 3%nat.
  - c21 U 12%nat.
Qed.
Print Assumptions C21_urdm_blocks.

Example C21_example :
  u_amps_ok 1 2 2 1 uT1a uT1b uT2aa uT2ab uT2bb /\ u_lams_ok 1 2 2 1 uL1a uL1b uL2aa uL2ab uL2bb /\
  is_some (T1_to_spin uL1a uL1b 2 1 1 2) = true /\
  is_some (T2_to_spin uL2aa uL2ab uL2bb 2 1 1 2) = true /\
  sample_entry "uccsd_2rdm_bjai" [arr uT1a; arr uT1b; arr uT2aa; arr uT2ab; arr uT2bb; arr uL1a;
    arr uL1b; arr uL2aa; arr uL2ab; arr uL2bb] 4 [0; 0; 1; 1]%nat = Some 6456%Q.
Proof.
  destruct (u_sample_ok QcK 1 2 2 1) as (_ & H1 & H2).
  repeat (split; [assumption || (vm_compute; reflexivity)|]). vm_compute. reflexivity.
Qed.
