(** Orbital energies in the coupled cluster equations: final statements.  The
    vocabulary is CCSpec.v, SpinSpec.v and ShiftSpec.v; D1, D2 and D2u are the
    library's functions for the energy denominators (UtilsModel.v). *)
From Coq Require Import List String ZArith QArith Qcanon.
From Verif Require Import Scalar Tensor PySyntax PySem CCProg CCSpec CCExamples NpModel SpinModel
  SpinSpec SpinExamples SOCtx UCtx CCSpin CCRest UtilsModel PropertiesSpin PropertiesUSym ShiftSpec Shift.
Import ListNotations.
Local Open Scope string_scope.

(** C98: any blocks of the right shape can be added to a Fock matrix. *)
Theorem C98_change_exists (K : cring) no nv (F : one_e K) (hoo hvv : tensor K) :
  one_e_ok no nv F -> shp hoo = [no; no] -> shp hvv = [nv; nv] ->
  exists F', fock_plus F hoo hvv F' /\ one_e_ok no nv F'.
Proof. intros H1 H2 H3. exists (addF K F hoo hvv). exact (addF_ok K no nv F hoo hvv H1 H2 H3). Qed.
Print Assumptions C98_change_exists.

(** Adding a block-diagonal matrix to the Fock matrix adds its commutator with
    the cluster operator to the residuals; adding orbital energies adds the
    denominators times the amplitudes, so that the residuals for the full Fock
    matrix vanish exactly where denominators times amplitudes balance the
    residuals without these energies. *)
Theorem C98_fock_change (K : cring) no nv (F F' : one_e K) (I : two_e K) (hoo hvv T1 T2 : tensor K) f :
  In f ["lccsd_simple"; "ccsd_simple"; "ccsd_stanton"] ->
  one_e_ok no nv F -> two_e_ok no nv I -> t1_ok no nv T1 -> t2_ok no nv T2 ->
  fock_plus F hoo hvv F' ->
  exists r s r' s', returns f [py_one_e F; py_two_e I; arr T1; arr T2] (tup [arr r; arr s]) /\
    returns f [py_one_e F'; py_two_e I; arr T1; arr T2] (tup [arr r'; arr s']) /\
    plus r (comm1 no nv hoo hvv T1) r' /\
    plus s (comm2 no nv no nv hoo hvv hoo hvv T2) s'.
Proof.
  intros Hf HF HI HT1 HT2 HP.
  exact (shift_sd K no nv F F' I hoo hvv T1 T2 (tzeros K [no; nv]) (tzeros K [no; no; nv; nv]) HF HI HP f Hf HT1 HT2 (zeroL1_ok K no nv) (zeroL2_ok K no nv)).
Qed.
Print Assumptions C98_fock_change.

Theorem C98_denominators (K : cring) no nv (F F' : one_e K) (I : two_e K) (eo ev T1 T2 : tensor K) f :
  In f ["lccsd_simple"; "ccsd_simple"; "ccsd_stanton"] ->
  one_e_ok no nv F -> two_e_ok no nv I -> t1_ok no nv T1 -> t2_ok no nv T2 ->
  energy_shift no nv eo ev F F' ->
  exists d1 d2 r s r' s', D1 ev eo = Some d1 /\ D2 ev eo = Some d2 /\
    returns f [py_one_e F; py_two_e I; arr T1; arr T2] (tup [arr r; arr s]) /\
    returns f [py_one_e F'; py_two_e I; arr T1; arr T2] (tup [arr r'; arr s']) /\
    raised r (times d1 T1) r' /\ raised s (times d2 T2) s'.
Proof.
  intros Hf HF HI HT1 HT2 (So & Sv & HP).
  destruct (C98_fock_change K no nv F F' I _ _ T1 T2 f Hf HF HI HT1 HT2 HP) as (r & s & r' & s' & R1 & R2 & P0 & P1).
  destruct (diag1 K no nv eo ev So Sv T1 HT1) as (d1 & D1E & E1).
  destruct (diag2 K no nv eo ev So Sv T2 (proj1 HT2)) as (d2 & D2E & E2).
  exists d1, d2, r, s, r', s'. split; [exact D1E|]. split; [exact D2E|]. split; [exact R1|]. split; [exact R2|].
  split; [exact (raise K _ _ _ _ P0 E1)|exact (raise K _ _ _ _ P1 E2)].
Qed.
Print Assumptions C98_denominators.

(** doubles only *)
Theorem C98_doubles_fock_change (K : cring) no nv (F F' : one_e K) (I : two_e K) (hoo hvv T2 : tensor K) f :
  In f ["lccd_simple"; "ccd_simple"; "ccd_stanton"] ->
  one_e_ok no nv F -> two_e_ok no nv I -> t2_ok no nv T2 ->
  fock_plus F hoo hvv F' ->
  exists r r', returns f [py_one_e F; py_two_e I; arr T2] (arr r) /\
    returns f [py_one_e F'; py_two_e I; arr T2] (arr r') /\
    plus r (comm2 no nv no nv hoo hvv hoo hvv T2) r'.
Proof.
  intros Hf HF HI HT2 HP.
  exact (shift_d K no nv F F' I hoo hvv (tzeros K [nv; no]) T2 (tzeros K [no; nv]) (tzeros K [no; no; nv; nv]) HF HI HP f Hf (zeroT1_ok K no nv) HT2 (zeroL1_ok K no nv) (zeroL2_ok K no nv)).
Qed.
Print Assumptions C98_doubles_fock_change.

Theorem C98_doubles_denominators (K : cring) no nv (F F' : one_e K) (I : two_e K) (eo ev T2 : tensor K) f :
  In f ["lccd_simple"; "ccd_simple"; "ccd_stanton"] ->
  one_e_ok no nv F -> two_e_ok no nv I -> t2_ok no nv T2 ->
  energy_shift no nv eo ev F F' ->
  exists d2 r r', D2 ev eo = Some d2 /\
    returns f [py_one_e F; py_two_e I; arr T2] (arr r) /\
    returns f [py_one_e F'; py_two_e I; arr T2] (arr r') /\
    raised r (times d2 T2) r'.
Proof.
  intros Hf HF HI HT2 (So & Sv & HP).
  destruct (C98_doubles_fock_change K no nv F F' I _ _ T2 f Hf HF HI HT2 HP) as (r & r' & R1 & R2 & P0).
  destruct (diag2 K no nv eo ev So Sv T2 (proj1 HT2)) as (d2 & D2E & E2).
  exists d2, r, r'. split; [exact D2E|]. split; [exact R1|]. split; [exact R2|].
  exact (raise K _ _ _ _ P0 E2).
Qed.
Print Assumptions C98_doubles_denominators.

(** Lambda *)
Theorem C98_lambda_fock_change (K : cring) no nv (F F' : one_e K) (I : two_e K) (hoo hvv T1 T2 L1 L2 : tensor K) f :
  In f ["ccsd_lambda_simple"; "ccsd_lambda_opt"; "ccsd_lambda_stanton"] ->
  one_e_ok no nv F -> two_e_ok no nv I -> t1_ok no nv T1 -> t2_ok no nv T2 -> l1_ok no nv L1 -> l2_ok no nv L2 ->
  fock_plus F hoo hvv F' ->
  exists r s r' s', returns f [py_one_e F; py_two_e I; arr L1; arr L2; arr T1; arr T2] (tup [arr r; arr s]) /\
    returns f [py_one_e F'; py_two_e I; arr L1; arr L2; arr T1; arr T2] (tup [arr r'; arr s']) /\
    plus r (lcomm1 no nv hoo hvv L1) r' /\
    plus s (lcomm2 no nv no nv hoo hvv hoo hvv L2) s'.
Proof.
  intros Hf HF HI HT1 HT2 HL1 HL2 HP.
  exact (shift_l K no nv F F' I hoo hvv T1 T2 L1 L2 HF HI HP f Hf HT1 HT2 HL1 HL2).
Qed.
Print Assumptions C98_lambda_fock_change.

Theorem C98_lambda_denominators (K : cring) no nv (F F' : one_e K) (I : two_e K) (eo ev T1 T2 L1 L2 : tensor K) f :
  In f ["ccsd_lambda_simple"; "ccsd_lambda_opt"; "ccsd_lambda_stanton"] ->
  one_e_ok no nv F -> two_e_ok no nv I -> t1_ok no nv T1 -> t2_ok no nv T2 -> l1_ok no nv L1 -> l2_ok no nv L2 ->
  energy_shift no nv eo ev F F' ->
  exists d1 d2 r s r' s', D1 ev eo = Some d1 /\ D2 ev eo = Some d2 /\
    returns f [py_one_e F; py_two_e I; arr L1; arr L2; arr T1; arr T2] (tup [arr r; arr s]) /\
    returns f [py_one_e F'; py_two_e I; arr L1; arr L2; arr T1; arr T2] (tup [arr r'; arr s']) /\
    raised r (times_l d1 L1) r' /\ raised s (times_l d2 L2) s'.
Proof.
  intros Hf HF HI HT1 HT2 HL1 HL2 (So & Sv & HP).
  destruct (C98_lambda_fock_change K no nv F F' I _ _ T1 T2 L1 L2 f Hf HF HI HT1 HT2 HL1 HL2 HP) as (r & s & r' & s' & R1 & R2 & P0 & P1).
  destruct (diagl1 K no nv eo ev So Sv L1 HL1) as (d1 & D1E & E1).
  destruct (diagl2 K no nv eo ev So Sv L2 (proj1 HL2)) as (d2 & D2E & E2).
  exists d1, d2, r, s, r', s'. split; [exact D1E|]. split; [exact D2E|]. split; [exact R1|]. split; [exact R2|].
  split; [exact (raise K _ _ _ _ P0 E1)|exact (raise K _ _ _ _ P1 E2)].
Qed.
Print Assumptions C98_lambda_denominators.

(** Lambda, doubles only *)
Theorem C98_doubles_lambda_fock_change (K : cring) no nv (F F' : one_e K) (I : two_e K) (hoo hvv T2 L2 : tensor K) f :
  In f ["ccd_lambda_simple"] ->
  one_e_ok no nv F -> two_e_ok no nv I -> t2_ok no nv T2 -> l2_ok no nv L2 ->
  fock_plus F hoo hvv F' ->
  exists r r', returns f [py_one_e F; py_two_e I; arr L2; arr T2] (arr r) /\
    returns f [py_one_e F'; py_two_e I; arr L2; arr T2] (arr r') /\
    plus r (lcomm2 no nv no nv hoo hvv hoo hvv L2) r'.
Proof.
  intros Hf HF HI HT2 HL2 HP.
  exact (shift_dl K no nv F F' I hoo hvv (tzeros K [nv; no]) T2 (tzeros K [no; nv]) L2 HF HI HP f Hf (zeroT1_ok K no nv) HT2 (zeroL1_ok K no nv) HL2).
Qed.
Print Assumptions C98_doubles_lambda_fock_change.

Theorem C98_doubles_lambda_denominators (K : cring) no nv (F F' : one_e K) (I : two_e K) (eo ev T2 L2 : tensor K) f :
  In f ["ccd_lambda_simple"] ->
  one_e_ok no nv F -> two_e_ok no nv I -> t2_ok no nv T2 -> l2_ok no nv L2 ->
  energy_shift no nv eo ev F F' ->
  exists d2 r r', D2 ev eo = Some d2 /\
    returns f [py_one_e F; py_two_e I; arr L2; arr T2] (arr r) /\
    returns f [py_one_e F'; py_two_e I; arr L2; arr T2] (arr r') /\
    raised r (times_l d2 L2) r'.
Proof.
  intros Hf HF HI HT2 HL2 (So & Sv & HP).
  destruct (C98_doubles_lambda_fock_change K no nv F F' I _ _ T2 L2 f Hf HF HI HT2 HL2 HP) as (r & r' & R1 & R2 & P0).
  destruct (diagl2 K no nv eo ev So Sv L2 (proj1 HL2)) as (d2 & D2E & E2).
  exists d2, r, r'. split; [exact D2E|]. split; [exact R1|]. split; [exact R2|].
  exact (raise K _ _ _ _ P0 E2).
Qed.
Print Assumptions C98_doubles_lambda_denominators.

Example C98_example :
  let F := sampleF QcK 2 3 in let I := sampleI QcK 2 3 in
  let T1 := sampleT1 QcK 2 3 in let T2 := sampleT2 QcK 2 3 in
  let L1 := sampleL1 QcK 2 3 in let L2 := sampleL2 QcK 2 3 in
  let eo := mkT (K := QcK) [2]%nat (fun idx => match idx with [i] => nth i [Q2Qc (-5); Q2Qc (-3)] (Q2Qc 0) | _ => Q2Qc 0 end) in
  let ev := mkT (K := QcK) [3]%nat (fun idx => match idx with [a] => nth a [Q2Qc 2; Q2Qc 7; Q2Qc 11] (Q2Qc 0) | _ => Q2Qc 0 end) in
  let F' := addF QcK F (diag 2 eo) (diag 3 ev) in
  (one_e_ok 2 3 F /\ two_e_ok 2 3 I /\ t1_ok 2 3 T1 /\ t2_ok 2 3 T2 /\ l1_ok 2 3 L1 /\ l2_ok 2 3 L2) /\
  energy_shift 2 3 eo ev F F' /\
  sample_entry "ccsd_stanton" [py_one_e F; py_two_e I; arr T1; arr T2] 0 [2; 1]%nat = Some (-131591)%Q /\
  sample_entry "ccsd_stanton" [py_one_e F'; py_two_e I; arr T1; arr T2] 0 [2; 1]%nat = Some (-130975)%Q /\
  Qcanon.this (dat T1 [2; 1]%nat) = 44%Q.
Proof.
  intros F I T1 T2 L1 L2 eo ev F'. pose proof (sample_ok QcK 2 3) as S.
  split; [exact S|]. destruct S as (S1 & _).
  split. { split; [reflexivity|]. split; [reflexivity|]. apply (addF_ok QcK 2 3); [exact S1|reflexivity|reflexivity]. }
  vm_compute. auto.
Qed.

(** *** Unrestricted *)
Theorem C98_unrestricted_fock_change (K : cring) noa nva nob nvb (Fa Fa' Fb Fb' : one_e K) (Ia Ib : two_e K) (J : two_e_full K)
    (ha ga hb gb T1a T1b T2aa T2ab T2bb : tensor K) :
  u_ham_ok noa nva nob nvb Fa Fb Ia Ib J -> u_amps_ok noa nva nob nvb T1a T1b T2aa T2ab T2bb ->
  fock_plus Fa ha ga Fa' -> fock_plus Fb hb gb Fb' ->
  exists ra rb raa rab rbb ra' rb' raa' rab' rbb',
    returns "uccsd_stanton" [py_one_e Fa; py_one_e Fb; py_two_e Ia; py_two_e Ib; py_two_e_full J; tup [arr T1a; arr T1b]; tup [arr T2aa; arr T2ab; arr T2bb]]
      (tup [tup [arr ra; arr rb]; tup [arr raa; arr rab; arr rbb]]) /\
    returns "uccsd_stanton" [py_one_e Fa'; py_one_e Fb'; py_two_e Ia; py_two_e Ib; py_two_e_full J; tup [arr T1a; arr T1b]; tup [arr T2aa; arr T2ab; arr T2bb]]
      (tup [tup [arr ra'; arr rb']; tup [arr raa'; arr rab'; arr rbb']]) /\
    plus ra (comm1 noa nva ha ga T1a) ra' /\
    plus rb (comm1 nob nvb hb gb T1b) rb' /\
    plus raa (comm2 noa nva noa nva ha ga ha ga T2aa) raa' /\
    plus rab (comm2 noa nva nob nvb ha ga hb gb T2ab) rab' /\
    plus rbb (comm2 nob nvb nob nvb hb gb hb gb T2bb) rbb'.
Proof.
  intros HH HT PA PB.
  exact (shift_ut K noa nva nob nvb Fa Fa' Fb Fb' Ia Ib J ha ga hb gb T1a T1b T2aa T2ab T2bb _ _ _ _ _ HH PA PB HT (zero_lams K noa nva nob nvb)).
Qed.
Print Assumptions C98_unrestricted_fock_change.

Theorem C98_unrestricted_denominators (K : cring) noa nva nob nvb (Fa Fa' Fb Fb' : one_e K) (Ia Ib : two_e K) (J : two_e_full K)
    (eoa eva eob evb T1a T1b T2aa T2ab T2bb : tensor K) :
  u_ham_ok noa nva nob nvb Fa Fb Ia Ib J -> u_amps_ok noa nva nob nvb T1a T1b T2aa T2ab T2bb ->
  energy_shift noa nva eoa eva Fa Fa' -> energy_shift nob nvb eob evb Fb Fb' ->
  exists da db daa dab dbb ra rb raa rab rbb ra' rb' raa' rab' rbb',
    D1 eva eoa = Some da /\ D1 evb eob = Some db /\ D2 eva eoa = Some daa /\ D2u eva evb eoa eob = Some dab /\
    D2 evb eob = Some dbb /\
    returns "uccsd_stanton" [py_one_e Fa; py_one_e Fb; py_two_e Ia; py_two_e Ib; py_two_e_full J; tup [arr T1a; arr T1b]; tup [arr T2aa; arr T2ab; arr T2bb]]
      (tup [tup [arr ra; arr rb]; tup [arr raa; arr rab; arr rbb]]) /\
    returns "uccsd_stanton" [py_one_e Fa'; py_one_e Fb'; py_two_e Ia; py_two_e Ib; py_two_e_full J; tup [arr T1a; arr T1b]; tup [arr T2aa; arr T2ab; arr T2bb]]
      (tup [tup [arr ra'; arr rb']; tup [arr raa'; arr rab'; arr rbb']]) /\
    raised ra (times da T1a) ra' /\ raised rb (times db T1b) rb' /\ raised raa (times daa T2aa) raa' /\ raised rab (times dab T2ab) rab' /\ raised rbb (times dbb T2bb) rbb'.
Proof.
  intros HH HT (Sa & Va & PA) (Sb & Vb & PB).
  destruct (C98_unrestricted_fock_change K noa nva nob nvb Fa Fa' Fb Fb' Ia Ib J _ _ _ _ T1a T1b T2aa T2ab T2bb HH HT PA PB)
    as (ra & rb & raa & rab & rbb & ra' & rb' & raa' & rab' & rbb' & R1 & R2 & P1 & P2 & P3 & P4 & P5).
  destruct HT as (S1 & S2 & (S3 & _) & S4 & (S5 & _)).
  destruct (diag1 K noa nva eoa eva Sa Va T1a S1) as (da & E1 & Q1).
  destruct (diag1 K nob nvb eob evb Sb Vb T1b S2) as (db & E2 & Q2).
  destruct (diag2 K noa nva eoa eva Sa Va T2aa S3) as (daa & E3 & Q3).
  destruct (diag2u K noa nva nob nvb eoa eva eob evb Sa Va Sb Vb T2ab S4) as (dab & E4 & Q4).
  destruct (diag2 K nob nvb eob evb Sb Vb T2bb S5) as (dbb & E5 & Q5).
  exists da, db, daa, dab, dbb, ra, rb, raa, rab, rbb, ra', rb', raa', rab', rbb'. do 5 (split; [assumption|]). split; [exact R1|]. split; [exact R2|].
  split; [exact (raise K _ _ _ _ P1 Q1)|]. split; [exact (raise K _ _ _ _ P2 Q2)|].
  split; [exact (raise K _ _ _ _ P3 Q3)|]. split; [exact (raise K _ _ _ _ P4 Q4)|exact (raise K _ _ _ _ P5 Q5)].
Qed.
Print Assumptions C98_unrestricted_denominators.

Theorem C98_unrestricted_lambda_fock_change (K : cring) noa nva nob nvb (Fa Fa' Fb Fb' : one_e K) (Ia Ib : two_e K) (J : two_e_full K)
    (ha ga hb gb T1a T1b T2aa T2ab T2bb L1a L1b L2aa L2ab L2bb : tensor K) :
  u_ham_ok noa nva nob nvb Fa Fb Ia Ib J -> u_amps_ok noa nva nob nvb T1a T1b T2aa T2ab T2bb ->
  u_lams_ok noa nva nob nvb L1a L1b L2aa L2ab L2bb ->
  fock_plus Fa ha ga Fa' -> fock_plus Fb hb gb Fb' ->
  exists ra rb raa rab rbb ra' rb' raa' rab' rbb',
    returns "uccsd_lambda_opt" [py_one_e Fa; py_one_e Fb; py_two_e Ia; py_two_e Ib; py_two_e_full J; tup [arr L1a; arr L1b]; tup [arr L2aa; arr L2ab; arr L2bb]; tup [arr T1a; arr T1b]; tup [arr T2aa; arr T2ab; arr T2bb]]
      (tup [tup [arr ra; arr rb]; tup [arr raa; arr rab; arr rbb]]) /\
    returns "uccsd_lambda_opt" [py_one_e Fa'; py_one_e Fb'; py_two_e Ia; py_two_e Ib; py_two_e_full J; tup [arr L1a; arr L1b]; tup [arr L2aa; arr L2ab; arr L2bb]; tup [arr T1a; arr T1b]; tup [arr T2aa; arr T2ab; arr T2bb]]
      (tup [tup [arr ra'; arr rb']; tup [arr raa'; arr rab'; arr rbb']]) /\
    plus ra (lcomm1 noa nva ha ga L1a) ra' /\
    plus rb (lcomm1 nob nvb hb gb L1b) rb' /\
    plus raa (lcomm2 noa nva noa nva ha ga ha ga L2aa) raa' /\
    plus rab (lcomm2 noa nva nob nvb ha ga hb gb L2ab) rab' /\
    plus rbb (lcomm2 nob nvb nob nvb hb gb hb gb L2bb) rbb'.
Proof.
  intros HH HT HL PA PB.
  exact (shift_ul K noa nva nob nvb Fa Fa' Fb Fb' Ia Ib J ha ga hb gb T1a T1b T2aa T2ab T2bb L1a L1b L2aa L2ab L2bb HH PA PB HT HL).
Qed.
Print Assumptions C98_unrestricted_lambda_fock_change.

Theorem C98_unrestricted_lambda_denominators (K : cring) noa nva nob nvb (Fa Fa' Fb Fb' : one_e K) (Ia Ib : two_e K) (J : two_e_full K)
    (eoa eva eob evb T1a T1b T2aa T2ab T2bb L1a L1b L2aa L2ab L2bb : tensor K) :
  u_ham_ok noa nva nob nvb Fa Fb Ia Ib J -> u_amps_ok noa nva nob nvb T1a T1b T2aa T2ab T2bb ->
  u_lams_ok noa nva nob nvb L1a L1b L2aa L2ab L2bb ->
  energy_shift noa nva eoa eva Fa Fa' -> energy_shift nob nvb eob evb Fb Fb' ->
  exists da db daa dab dbb ra rb raa rab rbb ra' rb' raa' rab' rbb',
    D1 eva eoa = Some da /\ D1 evb eob = Some db /\ D2 eva eoa = Some daa /\ D2u eva evb eoa eob = Some dab /\
    D2 evb eob = Some dbb /\
    returns "uccsd_lambda_opt" [py_one_e Fa; py_one_e Fb; py_two_e Ia; py_two_e Ib; py_two_e_full J; tup [arr L1a; arr L1b]; tup [arr L2aa; arr L2ab; arr L2bb]; tup [arr T1a; arr T1b]; tup [arr T2aa; arr T2ab; arr T2bb]]
      (tup [tup [arr ra; arr rb]; tup [arr raa; arr rab; arr rbb]]) /\
    returns "uccsd_lambda_opt" [py_one_e Fa'; py_one_e Fb'; py_two_e Ia; py_two_e Ib; py_two_e_full J; tup [arr L1a; arr L1b]; tup [arr L2aa; arr L2ab; arr L2bb]; tup [arr T1a; arr T1b]; tup [arr T2aa; arr T2ab; arr T2bb]]
      (tup [tup [arr ra'; arr rb']; tup [arr raa'; arr rab'; arr rbb']]) /\
    raised ra (times_l da L1a) ra' /\ raised rb (times_l db L1b) rb' /\ raised raa (times_l daa L2aa) raa' /\ raised rab (times_l dab L2ab) rab' /\ raised rbb (times_l dbb L2bb) rbb'.
Proof.
  intros HH HT HL (Sa & Va & PA) (Sb & Vb & PB).
  destruct (C98_unrestricted_lambda_fock_change K noa nva nob nvb Fa Fa' Fb Fb' Ia Ib J _ _ _ _ T1a T1b T2aa T2ab T2bb L1a L1b L2aa L2ab L2bb HH HT HL PA PB)
    as (ra & rb & raa & rab & rbb & ra' & rb' & raa' & rab' & rbb' & R1 & R2 & P1 & P2 & P3 & P4 & P5).
  destruct HL as (S1 & S2 & (S3 & _) & S4 & (S5 & _)).
  destruct (diagl1 K noa nva eoa eva Sa Va L1a S1) as (da & E1 & Q1).
  destruct (diagl1 K nob nvb eob evb Sb Vb L1b S2) as (db & E2 & Q2).
  destruct (diagl2 K noa nva eoa eva Sa Va L2aa S3) as (daa & E3 & Q3).
  destruct (diagl2u K noa nva nob nvb eoa eva eob evb Sa Va Sb Vb L2ab S4) as (dab & E4 & Q4).
  destruct (diagl2 K nob nvb eob evb Sb Vb L2bb S5) as (dbb & E5 & Q5).
  exists da, db, daa, dab, dbb, ra, rb, raa, rab, rbb, ra', rb', raa', rab', rbb'. do 5 (split; [assumption|]). split; [exact R1|]. split; [exact R2|].
  split; [exact (raise K _ _ _ _ P1 Q1)|]. split; [exact (raise K _ _ _ _ P2 Q2)|].
  split; [exact (raise K _ _ _ _ P3 Q3)|]. split; [exact (raise K _ _ _ _ P4 Q4)|exact (raise K _ _ _ _ P5 Q5)].
Qed.
Print Assumptions C98_unrestricted_lambda_denominators.

(** *** Restricted; no symmetry of the integrals is used *)
Theorem C98_restricted_fock_change (K : cring) no nv (F F' : one_e K) (J : two_e_full K) (hoo hvv T1 T2 : tensor K) :
  one_e_ok no nv F -> two_e_full_ok no nv no nv J ->
  shp T1 = [nv; no] -> shp T2 = [nv; nv; no; no] -> pair_sym T2 ->
  fock_plus F hoo hvv F' ->
  exists r s r' s',
    returns "rccsd_stanton" [py_one_e F; py_two_e_full J; arr T1; arr T2] (tup [arr r; arr s]) /\
    returns "rccsd_stanton" [py_one_e F'; py_two_e_full J; arr T1; arr T2] (tup [arr r'; arr s']) /\
    plus r (comm1 no nv hoo hvv T1) r' /\
    plus s (comm2 no nv no nv hoo hvv hoo hvv T2) s'.
Proof.
  intros HF HJ S1 S2 P2 HP.
  exact (shift_rt K no nv F F' J hoo hvv T1 T2 (tzeros K [no; nv]) (tzeros K [no; no; nv; nv]) HF HJ HP S1 (conj S2 P2)
    (conj eq_refl (zero_pair K no nv))).
Qed.
Print Assumptions C98_restricted_fock_change.

Theorem C98_restricted_denominators (K : cring) no nv (F F' : one_e K) (J : two_e_full K) (eo ev T1 T2 : tensor K) :
  one_e_ok no nv F -> two_e_full_ok no nv no nv J ->
  shp T1 = [nv; no] -> shp T2 = [nv; nv; no; no] -> pair_sym T2 ->
  energy_shift no nv eo ev F F' ->
  exists d1 d2 r s r' s', D1 ev eo = Some d1 /\ D2 ev eo = Some d2 /\
    returns "rccsd_stanton" [py_one_e F; py_two_e_full J; arr T1; arr T2] (tup [arr r; arr s]) /\
    returns "rccsd_stanton" [py_one_e F'; py_two_e_full J; arr T1; arr T2] (tup [arr r'; arr s']) /\
    raised r (times d1 T1) r' /\ raised s (times d2 T2) s'.
Proof.
  intros HF HJ S1 S2 P2 (So & Sv & HP).
  destruct (C98_restricted_fock_change K no nv F F' J _ _ T1 T2 HF HJ S1 S2 P2 HP) as (r & s & r' & s' & R1 & R2 & Q1 & Q2).
  destruct (diag1 K no nv eo ev So Sv T1 S1) as (d1 & D1E & E1).
  destruct (diag2 K no nv eo ev So Sv T2 S2) as (d2 & D2E & E2).
  exists d1, d2, r, s, r', s'. do 4 (split; [assumption|]).
  split; [exact (raise K _ _ _ _ Q1 E1)|exact (raise K _ _ _ _ Q2 E2)].
Qed.
Print Assumptions C98_restricted_denominators.

Theorem C98_restricted_lambda_fock_change (K : cring) no nv (F F' : one_e K) (J : two_e_full K) (hoo hvv T1 T2 L1 L2 : tensor K) :
  one_e_ok no nv F -> two_e_full_ok no nv no nv J ->
  shp T1 = [nv; no] -> shp T2 = [nv; nv; no; no] -> pair_sym T2 ->
  shp L1 = [no; nv] -> shp L2 = [no; no; nv; nv] -> pair_sym L2 ->
  fock_plus F hoo hvv F' ->
  exists r s r' s',
    returns "rccsd_lambda_opt" [py_one_e F; py_two_e_full J; arr L1; arr L2; arr T1; arr T2] (tup [arr r; arr s]) /\
    returns "rccsd_lambda_opt" [py_one_e F'; py_two_e_full J; arr L1; arr L2; arr T1; arr T2] (tup [arr r'; arr s']) /\
    plus r (lcomm1 no nv hoo hvv L1) r' /\
    plus s (lcomm2 no nv no nv hoo hvv hoo hvv L2) s'.
Proof.
  intros HF HJ S1 S2 P2 S3 S4 P4 HP.
  exact (shift_rl K no nv F F' J hoo hvv T1 T2 L1 L2 HF HJ HP S1 (conj S2 P2) S3 (conj S4 P4)).
Qed.
Print Assumptions C98_restricted_lambda_fock_change.

Theorem C98_restricted_lambda_denominators (K : cring) no nv (F F' : one_e K) (J : two_e_full K) (eo ev T1 T2 L1 L2 : tensor K) :
  one_e_ok no nv F -> two_e_full_ok no nv no nv J ->
  shp T1 = [nv; no] -> shp T2 = [nv; nv; no; no] -> pair_sym T2 ->
  shp L1 = [no; nv] -> shp L2 = [no; no; nv; nv] -> pair_sym L2 ->
  energy_shift no nv eo ev F F' ->
  exists d1 d2 r s r' s', D1 ev eo = Some d1 /\ D2 ev eo = Some d2 /\
    returns "rccsd_lambda_opt" [py_one_e F; py_two_e_full J; arr L1; arr L2; arr T1; arr T2] (tup [arr r; arr s]) /\
    returns "rccsd_lambda_opt" [py_one_e F'; py_two_e_full J; arr L1; arr L2; arr T1; arr T2] (tup [arr r'; arr s']) /\
    raised r (times_l d1 L1) r' /\ raised s (times_l d2 L2) s'.
Proof.
  intros HF HJ S1 S2 P2 S3 S4 P4 (So & Sv & HP).
  destruct (C98_restricted_lambda_fock_change K no nv F F' J _ _ T1 T2 L1 L2 HF HJ S1 S2 P2 S3 S4 P4 HP) as (r & s & r' & s' & R1 & R2 & Q1 & Q2).
  destruct (diagl1 K no nv eo ev So Sv L1 S3) as (d1 & D1E & E1).
  destruct (diagl2 K no nv eo ev So Sv L2 S4) as (d2 & D2E & E2).
  exists d1, d2, r, s, r', s'. do 4 (split; [assumption|]).
  split; [exact (raise K _ _ _ _ Q1 E1)|exact (raise K _ _ _ _ Q2 E2)].
Qed.
Print Assumptions C98_restricted_lambda_denominators.

Definition vec_ (l : list Z) : tensor QcK :=
  mkT (K := QcK) [List.length l] (fun idx => match idx with [i] => Q2Qc (nth i l 0%Z # 1) | _ => Q2Qc 0 end).
Example C98_u_example :
  let eoa := vec_ [-5; -3]%Z in let eva := vec_ [2; 7]%Z in let eob := vec_ [-4]%Z in let evb := vec_ [9]%Z in
  let Fa' := addF QcK yFa (diag 2 eoa) (diag 2 eva) in let Fb' := addF QcK yFb (diag 1 eob) (diag 1 evb) in
  u_ham_ok 2 2 1 1 yFa yFb yIa yIb yJ /\ u_amps_ok 2 2 1 1 yT1a yT1b yT2aa yT2ab yT2bb /\
  u_lams_ok 2 2 1 1 yL1a yL1b yL2aa yL2ab yL2bb /\
  energy_shift 2 2 eoa eva yFa Fa' /\ energy_shift 1 1 eob evb yFb Fb' /\
  sample_entry2 "uccsd_stanton" [py_one_e yFa; py_one_e yFb; py_two_e yIa; py_two_e yIb; py_two_e_full yJ;
    tup [arr yT1a; arr yT1b]; tup [arr yT2aa; arr yT2ab; arr yT2bb]] 1 1 [0; 0; 1; 0]%nat = Some 3983193%Q /\
  sample_entry2 "uccsd_stanton" [py_one_e Fa'; py_one_e Fb'; py_two_e yIa; py_two_e yIb; py_two_e_full yJ;
    tup [arr yT1a; arr yT1b]; tup [arr yT2aa; arr yT2ab; arr yT2bb]] 1 1 [0; 0; 1; 0]%nat = Some 3983301%Q /\
  Qcanon.this (dat yT2ab [0; 0; 1; 0]%nat) = 6%Q.
Proof.
  intros. destruct (u_sample_ok QcK 2 2 1 1) as (E1 & E2 & E3).
  split; [exact E1|]. split; [exact E2|]. split; [exact E3|]. destruct E1 as (D1 & D2 & _).
  split. { split; [reflexivity|]. split; [reflexivity|]. apply (addF_ok QcK 2 2); [exact D1|reflexivity|reflexivity]. }
  split. { split; [reflexivity|]. split; [reflexivity|]. apply (addF_ok QcK 1 1); [exact D2|reflexivity|reflexivity]. }
  vm_compute. auto.
Qed.

Example C98_r_example :
  let F := sampleF QcK 2 3 in let J := sampleR QcK 2 3 in
  let T1 := sampleT1 QcK 2 3 in let T2 := sampleT2r QcK 2 3 in
  let eo := vec_ [-5; -3]%Z in let ev := vec_ [2; 7; 11]%Z in
  let F' := addF QcK F (diag 2 eo) (diag 3 ev) in
  (one_e_ok 2 3 F /\ two_e_full_ok 2 3 2 3 J /\
   shp T1 = [3; 2]%nat /\ shp T2 = [3; 3; 2; 2]%nat /\ pair_sym T2) /\
  energy_shift 2 3 eo ev F F' /\
  sample_entry "rccsd_stanton" [py_one_e F; py_two_e_full J; arr T1; arr T2] 0 [2; 1]%nat = Some (-80789724)%Q /\
  sample_entry "rccsd_stanton" [py_one_e F'; py_two_e_full J; arr T1; arr T2] 0 [2; 1]%nat = Some (-80789108)%Q.
Proof.
  intros. destruct (r_sample_ok QcK 2 3) as (E1 & E2 & (E3 & E4) & _). pose proof (sample_ok QcK 2 3) as (S & _).
  split. { split; [exact S|]. split; [exact E1|]. split; [reflexivity|]. split; [exact E3|exact E4]. }
  split. { split; [reflexivity|]. split; [reflexivity|]. apply (addF_ok QcK 2 3); [exact S|reflexivity|reflexivity]. }
  vm_compute. auto.
Qed.
