(** Exchange of electrons and holes: final statements.  The vocabulary is
    CCSpec.v, SpinSpec.v and PHSpec.v. *)
From Coq Require Import List String ZArith QArith.
From Verif Require Import Scalar Tensor PySyntax PySem CCProg CCSpec CCExamples NpModel SpinModel
  SpinSpec SpinExamples SOCtx UCtx CCSpin CCRest PropertiesSpin PropertiesUSym PHSpec PH PHThm.
Import ListNotations.
Local Open Scope string_scope.

(** C97: there are exchanged arguments, and they are arguments for a system in
    which the numbers of occupied and virtual orbitals have changed places. *)
Theorem C97_exchange_exists (K : cring) no nv (F : one_e K) (I : two_e K) (T1 T2 L1 L2 : tensor K) :
  one_e_ok no nv F -> two_e_ok no nv I -> t1_ok no nv T1 -> t2_ok no nv T2 ->
  l1_ok no nv L1 -> l2_ok no nv L2 ->
  exists F' I' T1' T2' L1' L2',
    (holes_F F F' /\ one_e_ok nv no F') /\ (holes_I I I' /\ two_e_ok nv no I') /\
    (holes H1 T1 T1' /\ t1_ok nv no T1') /\ (holes H2 T2 T2' /\ t2_ok nv no T2') /\
    (holes H1 L1 L1' /\ l1_ok nv no L1') /\ (holes H2 L2 L2' /\ l2_ok nv no L2').
Proof.
  intros HF HI E1 (E2 & A2 & B2) E3 (E4 & A4 & B4).
  exists (xF K F), (xI K I), (top K H1 T1), (top K H2 T2), (top K H1 L1), (top K H2 L2).
  split; [apply xF_ok; exact HF|]. split; [apply xI_ok; exact HI|].
  unfold t1_ok, l1_ok in *.
  split; [split; [apply top_ok; rewrite E1; reflexivity|cbn; rewrite E1; reflexivity]|].
  split; [split; [apply top_ok; rewrite E2; reflexivity|]|].
  { split; [cbn; rewrite E2; reflexivity|]. split; [eapply lead_top|eapply tail_top]; eassumption. }
  split; [split; [apply top_ok; rewrite E3; reflexivity|cbn; rewrite E3; reflexivity]|].
  split; [apply top_ok; rewrite E4; reflexivity|].
  split; [cbn; rewrite E4; reflexivity|]. split; [eapply lead_top|eapply tail_top]; eassumption.
Qed.
Print Assumptions C97_exchange_exists.

(** The residuals of the singles and doubles equations for holes are those for
    electrons, exchanged. *)
Theorem C97_amplitudes (K : cring) no nv (F F' : one_e K) (I I' : two_e K) (T1 T1' T2 T2' : tensor K) f :
  In f ["lccsd_simple"; "ccsd_simple"; "ccsd_stanton"] ->
  one_e_ok no nv F -> two_e_ok no nv I -> t1_ok no nv T1 -> t2_ok no nv T2 ->
  holes_F F F' -> holes_I I I' -> holes H1 T1 T1' -> holes H2 T2 T2' ->
  exists r s r' s', returns f [py_one_e F; py_two_e I; arr T1; arr T2] (tup [arr r; arr s]) /\
    returns f [py_one_e F'; py_two_e I'; arr T1'; arr T2'] (tup [arr r'; arr s']) /\
    holes H1 r r' /\ holes H2 s s'.
Proof.
  intros Hf HF HI HT1 HT2.
  exact (ph_sd K no nv F F' I I' T1 T2 (tzeros K [no; nv]) _ T1' T2' c0 HF HI HT1 HT2 (zeroL2_ok K no nv) f Hf).
Qed.
Print Assumptions C97_amplitudes.

(** doubles only *)
Theorem C97_doubles (K : cring) no nv (F F' : one_e K) (I I' : two_e K) (T2 T2' : tensor K) f :
  In f ["lccd_simple"; "ccd_simple"; "ccd_stanton"] ->
  one_e_ok no nv F -> two_e_ok no nv I -> t2_ok no nv T2 ->
  holes_F F F' -> holes_I I I' -> holes H2 T2 T2' ->
  exists s s', returns f [py_one_e F; py_two_e I; arr T2] (arr s) /\
    returns f [py_one_e F'; py_two_e I'; arr T2'] (arr s') /\ holes H2 s s'.
Proof.
  intros Hf HF HI HT2.
  exact (ph_d K no nv F F' I I' (tzeros K [nv; no]) T2 (tzeros K [no; nv]) _ T2' c0 HF HI HT2 (zeroL2_ok K no nv) f Hf).
Qed.
Print Assumptions C97_doubles.

Theorem C97_ladder_ring (K : cring) no nv (I I' : two_e K) (T2 T2' : tensor K) f :
  In f ["ccd_ladder_simple"; "ccd_ring_simple"] ->
  two_e_ok no nv I -> t2_ok no nv T2 -> holes_I I I' -> holes H2 T2 T2' ->
  exists s s', returns f [py_two_e I; arr T2] (arr s) /\
    returns f [py_two_e I'; arr T2'] (arr s') /\ holes H2 s s'.
Proof.
  intros Hf HI HT2.
  exact (ph_int K no nv (zeroF K no nv) I I' (tzeros K [nv; no]) T2 (tzeros K [no; nv]) _ T2' c0 HI HT2 (zeroL2_ok K no nv) f Hf).
Qed.
Print Assumptions C97_ladder_ring.

(** Lambda equations *)
Theorem C97_lambda (K : cring) no nv (F F' : one_e K) (I I' : two_e K) (L1 L1' L2 L2' T1 T1' T2 T2' : tensor K) f :
  In f ["ccsd_lambda_simple"; "ccsd_lambda_opt"; "ccsd_lambda_stanton"] ->
  one_e_ok no nv F -> two_e_ok no nv I -> l1_ok no nv L1 -> l2_ok no nv L2 ->
  t1_ok no nv T1 -> t2_ok no nv T2 ->
  holes_F F F' -> holes_I I I' -> holes H1 L1 L1' -> holes H2 L2 L2' -> holes H1 T1 T1' -> holes H2 T2 T2' ->
  exists r s r' s', returns f [py_one_e F; py_two_e I; arr L1; arr L2; arr T1; arr T2] (tup [arr r; arr s]) /\
    returns f [py_one_e F'; py_two_e I'; arr L1'; arr L2'; arr T1'; arr T2'] (tup [arr r'; arr s']) /\
    holes H1 r r' /\ holes H2 s s'.
Proof.
  intros Hf HF HI HL1 HL2 HT1 HT2.
  exact (ph_lam K no nv F F' I I' T1 T2 L1 L2 T1' T2' L1' L2' c0 HF HI HT1 HT2 HL1 HL2 f Hf).
Qed.
Print Assumptions C97_lambda.

Theorem C97_doubles_lambda (K : cring) no nv (F F' : one_e K) (I I' : two_e K) (L2 L2' T2 T2' : tensor K) :
  one_e_ok no nv F -> two_e_ok no nv I -> l2_ok no nv L2 -> t2_ok no nv T2 ->
  holes_F F F' -> holes_I I I' -> holes H2 L2 L2' -> holes H2 T2 T2' ->
  exists s s', returns "ccd_lambda_simple" [py_one_e F; py_two_e I; arr L2; arr T2] (arr s) /\
    returns "ccd_lambda_simple" [py_one_e F'; py_two_e I'; arr L2'; arr T2'] (arr s') /\ holes H2 s s'.
Proof.
  intros HF HI HL2 HT2.
  exact (ph_dlam K no nv F F' I I' (tzeros K [nv; no]) T2 (tzeros K [no; nv]) L2 T2' L2' c0 HF HI HT2 HL2).
Qed.
Print Assumptions C97_doubles_lambda.

(** The energy of the holes is the energy of the electrons. *)
Theorem C97_energies (K : cring) no nv (F F' : one_e K) (I I' : two_e K) (T1 T1' T2 T2' : tensor K) f :
  In f ["cc_energy"; "mp2_energy"] ->
  one_e_ok no nv F -> two_e_ok no nv I -> t1_ok no nv T1 -> t2_ok no nv T2 ->
  holes_F F F' -> holes_I I I' -> holes H1 T1 T1' -> holes H2 T2 T2' ->
  exists e, returns f [arr T1; arr T2; arr (ov F); arr (oovv I)] (numv e) /\
    returns f [arr T1'; arr T2'; arr (ov F'); arr (oovv I')] (numv e).
Proof.
  intros Hf HF HI HT1 HT2.
  exact (ph_e K no nv F F' I I' T1 T2 (tzeros K [no; nv]) _ T1' T2' c0 HF HI HT1 HT2 (zeroL2_ok K no nv) f Hf).
Qed.
Print Assumptions C97_energies.

(** Density matrices: the pairs of functions are listed in PHSpec.v. *)
Theorem C97_densities (K : cring) no nv (T1 T1' T2 T2' L1 L1' L2 L2' : tensor K) f g k :
  In (f, g, k) so_rdm2 ->
  t1_ok no nv T1 -> t2_ok no nv T2 -> l1_ok no nv L1 -> l2_ok no nv L2 ->
  holes H1 T1 T1' -> holes H2 T2 T2' -> holes H1 L1 L1' -> holes H2 L2 L2' ->
  exists r r', returns f [arr T1; arr T2; arr L1; arr L2] (arr r) /\
    returns g [arr T1'; arr T2'; arr L1'; arr L2'] (arr r') /\ holes k r r'.
Proof.
  intros Hf HT1 HT2 HL1 HL2.
  exact (ph_rdm K no nv (zeroF K no nv) (zeroI K no nv) T1 T2 L1 L2 T1' T2' L1' L2' c0
    (zeroI_ok K no nv) HT1 HT2 HL1 HL2 f g k Hf).
Qed.
Print Assumptions C97_densities.

Theorem C97_densities_tfac (K : cring) no nv (T1 T1' T2 T2' L1 L1' L2 L2' : tensor K) tfac f g k :
  In (f, g, k) so_rdmf ->
  t1_ok no nv T1 -> t2_ok no nv T2 -> l1_ok no nv L1 -> l2_ok no nv L2 ->
  holes H1 T1 T1' -> holes H2 T2 T2' -> holes H1 L1 L1' -> holes H2 L2 L2' ->
  exists r r', returns f [arr T1; arr T2; arr L1; arr L2; numv tfac] (arr r) /\
    returns g [arr T1'; arr T2'; arr L1'; arr L2'; numv tfac] (arr r') /\ holes k r r'.
Proof.
  intros Hf HT1 HT2 HL1 HL2.
  exact (ph_rdmf K no nv (zeroF K no nv) (zeroI K no nv) T1 T2 L1 L2 T1' T2' L1' L2' tfac
    (zeroI_ok K no nv) HT1 HT2 HL1 HL2 f g k Hf).
Qed.
Print Assumptions C97_densities_tfac.

(** Two electrons in five orbitals and three electrons in five orbitals. *)
Example C97_example :
  let F := sampleF QcK 2 3 in let I := sampleI QcK 2 3 in
  let T1 := sampleT1 QcK 2 3 in let T2 := sampleT2 QcK 2 3 in
  let L1 := sampleL1 QcK 2 3 in let L2 := sampleL2 QcK 2 3 in
  (one_e_ok 2 3 F /\ two_e_ok 2 3 I /\ t1_ok 2 3 T1 /\ t2_ok 2 3 T2 /\ l1_ok 2 3 L1 /\ l2_ok 2 3 L2) /\
  (holes_F F (xF QcK F) /\ holes_I I (xI QcK I) /\ holes H1 T1 (top QcK H1 T1) /\ holes H2 T2 (top QcK H2 T2)) /\
  let e := [py_one_e F; py_two_e I; arr T1; arr T2] in
  let h := [py_one_e (xF QcK F); py_two_e (xI QcK I); arr (top QcK H1 T1); arr (top QcK H2 T2)] in
  sample_entry "ccsd_stanton" e 0 [2; 1]%nat = Some (-131591)%Q /\
  sample_entry "ccsd_stanton" h 0 [1; 2]%nat = Some 131591%Q /\
  sample_entry "ccsd_stanton" e 1 [0; 2; 0; 1]%nat = Some (-68388)%Q /\
  sample_entry "ccsd_stanton" h 1 [0; 1; 0; 2]%nat = Some (-68388)%Q.
Proof.
  intros F I T1 T2 L1 L2. pose proof (sample_ok QcK 2 3) as S.
  split; [exact S|]. destruct S as (S1 & S2 & S3 & (S4 & _) & _).
  split. { split; [apply (xF_ok QcK 2 3); exact S1|]. split; [apply (xI_ok QcK 2 3); exact S2|].
    split; apply top_ok; reflexivity. }
  vm_compute. auto.
Qed.

(** *** Unrestricted *)
Theorem C97_unrestricted_amplitudes (K : cring) noa nva nob nvb Fa Fb Ia Ib (J : two_e_full K) T1a T1b T2aa T2ab T2bb
    Fa' Fb' Ia' Ib' J' T1a' T1b' T2aa' T2ab' T2bb' :
  u_ham_ok noa nva nob nvb Fa Fb Ia Ib J -> u_amps_ok noa nva nob nvb T1a T1b T2aa T2ab T2bb ->
  holes_uH Fa Fb Ia Ib J Fa' Fb' Ia' Ib' J' ->
  holes_amps T1a T1b T2aa T2ab T2bb T1a' T1b' T2aa' T2ab' T2bb' ->
  exists ta tb aa ab bb ta' tb' aa' ab' bb',
    returns "uccsd_stanton" [py_one_e Fa; py_one_e Fb; py_two_e Ia; py_two_e Ib; py_two_e_full J;
        tup [arr T1a; arr T1b]; tup [arr T2aa; arr T2ab; arr T2bb]]
      (tup [tup [arr ta; arr tb]; tup [arr aa; arr ab; arr bb]]) /\
    returns "uccsd_stanton" [py_one_e Fa'; py_one_e Fb'; py_two_e Ia'; py_two_e Ib'; py_two_e_full J';
        tup [arr T1a'; arr T1b']; tup [arr T2aa'; arr T2ab'; arr T2bb']]
      (tup [tup [arr ta'; arr tb']; tup [arr aa'; arr ab'; arr bb']]) /\
    holes_amps ta tb aa ab bb ta' tb' aa' ab' bb'.
Proof.
  intros HH HT.
  exact (ph_ut K noa nva nob nvb Fa Fb Fa' Fb' Ia Ib Ia' Ib' J J' T1a T1b T2aa T2ab T2bb _ _ _ _ _
    T1a' T1b' T2aa' T2ab' T2bb' HH HT (zero_lams K noa nva nob nvb)).
Qed.
Print Assumptions C97_unrestricted_amplitudes.

Theorem C97_unrestricted_lambda (K : cring) noa nva nob nvb Fa Fb Ia Ib (J : two_e_full K)
    L1a L1b L2aa L2ab L2bb T1a T1b T2aa T2ab T2bb
    Fa' Fb' Ia' Ib' J' L1a' L1b' L2aa' L2ab' L2bb' T1a' T1b' T2aa' T2ab' T2bb' :
  u_ham_ok noa nva nob nvb Fa Fb Ia Ib J -> u_lams_ok noa nva nob nvb L1a L1b L2aa L2ab L2bb ->
  u_amps_ok noa nva nob nvb T1a T1b T2aa T2ab T2bb ->
  holes_uH Fa Fb Ia Ib J Fa' Fb' Ia' Ib' J' ->
  holes_amps L1a L1b L2aa L2ab L2bb L1a' L1b' L2aa' L2ab' L2bb' ->
  holes_amps T1a T1b T2aa T2ab T2bb T1a' T1b' T2aa' T2ab' T2bb' ->
  exists la lb aa ab bb la' lb' aa' ab' bb',
    returns "uccsd_lambda_opt" [py_one_e Fa; py_one_e Fb; py_two_e Ia; py_two_e Ib; py_two_e_full J;
        tup [arr L1a; arr L1b]; tup [arr L2aa; arr L2ab; arr L2bb];
        tup [arr T1a; arr T1b]; tup [arr T2aa; arr T2ab; arr T2bb]]
      (tup [tup [arr la; arr lb]; tup [arr aa; arr ab; arr bb]]) /\
    returns "uccsd_lambda_opt" [py_one_e Fa'; py_one_e Fb'; py_two_e Ia'; py_two_e Ib'; py_two_e_full J';
        tup [arr L1a'; arr L1b']; tup [arr L2aa'; arr L2ab'; arr L2bb'];
        tup [arr T1a'; arr T1b']; tup [arr T2aa'; arr T2ab'; arr T2bb']]
      (tup [tup [arr la'; arr lb']; tup [arr aa'; arr ab'; arr bb']]) /\
    holes_amps la lb aa ab bb la' lb' aa' ab' bb'.
Proof.
  intros HH HL HT.
  exact (ph_ul K noa nva nob nvb Fa Fb Fa' Fb' Ia Ib Ia' Ib' J J' T1a T1b T2aa T2ab T2bb L1a L1b L2aa L2ab L2bb
    T1a' T1b' T2aa' T2ab' T2bb' L1a' L1b' L2aa' L2ab' L2bb' HH HT HL).
Qed.
Print Assumptions C97_unrestricted_lambda.

Theorem C97_unrestricted_energies (K : cring) noa nva nob nvb Fa Fb Ia Ib (J : two_e_full K) T1a T1b T2aa T2ab T2bb
    Fa' Fb' Ia' Ib' J' T1a' T1b' T2aa' T2ab' T2bb' f :
  In f ["ucc_energy"; "ump2_energy"] ->
  u_ham_ok noa nva nob nvb Fa Fb Ia Ib J -> u_amps_ok noa nva nob nvb T1a T1b T2aa T2ab T2bb ->
  holes_uH Fa Fb Ia Ib J Fa' Fb' Ia' Ib' J' ->
  holes_amps T1a T1b T2aa T2ab T2bb T1a' T1b' T2aa' T2ab' T2bb' ->
  exists e, returns f [tup [arr T1a; arr T1b]; tup [arr T2aa; arr T2ab; arr T2bb]; arr (ov Fa); arr (ov Fb);
      arr (oovv Ia); arr (oovv Ib); arr (foovv J)] (numv e) /\
    returns f [tup [arr T1a'; arr T1b']; tup [arr T2aa'; arr T2ab'; arr T2bb']; arr (ov Fa'); arr (ov Fb');
      arr (oovv Ia'); arr (oovv Ib'); arr (foovv J')] (numv e).
Proof.
  intros Hf HH HT.
  exact (ph_ue K noa nva nob nvb Fa Fb Fa' Fb' Ia Ib Ia' Ib' J J' T1a T1b T2aa T2ab T2bb _ _ _ _ _
    T1a' T1b' T2aa' T2ab' T2bb' HH HT (zero_lams K noa nva nob nvb) f Hf).
Qed.
Print Assumptions C97_unrestricted_energies.

Theorem C97_unrestricted_densities (K : cring) noa nva nob nvb
    (T1a T1b T2aa T2ab T2bb L1a L1b L2aa L2ab L2bb : tensor K)
    T1a' T1b' T2aa' T2ab' T2bb' L1a' L1b' L2aa' L2ab' L2bb' f g l :
  In (f, g, l) u_rdm ->
  u_amps_ok noa nva nob nvb T1a T1b T2aa T2ab T2bb -> u_lams_ok noa nva nob nvb L1a L1b L2aa L2ab L2bb ->
  holes_amps T1a T1b T2aa T2ab T2bb T1a' T1b' T2aa' T2ab' T2bb' ->
  holes_amps L1a L1b L2aa L2ab L2bb L1a' L1b' L2aa' L2ab' L2bb' ->
  exists us us',
    returns f [arr T1a; arr T1b; arr T2aa; arr T2ab; arr T2bb; arr L1a; arr L1b; arr L2aa; arr L2ab; arr L2bb]
      (tup (map arr us)) /\
    returns g [arr T1a'; arr T1b'; arr T2aa'; arr T2ab'; arr T2bb'; arr L1a'; arr L1b'; arr L2aa'; arr L2ab';
      arr L2bb'] (tup (map arr us')) /\
    List.length us = List.length l /\ List.length us' = List.length l /\
    forall j k, nth_error l j = Some k -> holes (snd k) (pick us (fst k)) (pick us' j).
Proof.
  intros Hf HT HL.
  exact (ph_ur K noa nva nob nvb _ _ _ _ _ T1a T1b T2aa T2ab T2bb L1a L1b L2aa L2ab L2bb
    T1a' T1b' T2aa' T2ab' T2bb' L1a' L1b' L2aa' L2ab' L2bb' (zero_ham K noa nva nob nvb) HT HL f g l Hf).
Qed.
Print Assumptions C97_unrestricted_densities.

(** *** Restricted *)
Theorem C97_restricted_amplitudes (K : cring) no nv (F F' : one_e K) (J J' : two_e_full K) (T1 T1' T2 T2' : tensor K) :
  one_e_ok no nv F -> two_e_full_ok no nv no nv J -> pair_sym_full J ->
  shp T1 = [nv; no] -> shp T2 = [nv; nv; no; no] -> pair_sym T2 ->
  holes_F F F' -> holes_J J J' -> holes H1 T1 T1' -> holes H2 T2 T2' ->
  exists r s r' s', returns "rccsd_stanton" [py_one_e F; py_two_e_full J; arr T1; arr T2] (tup [arr r; arr s]) /\
    returns "rccsd_stanton" [py_one_e F'; py_two_e_full J'; arr T1'; arr T2'] (tup [arr r'; arr s']) /\
    holes H1 r r' /\ holes H2 s s'.
Proof.
  intros HF HJ PJ HT1 HT2 P2.
  exact (ph_rt K no nv F F' J J' T1 T2 (tzeros K [no; nv]) (tzeros K [no; no; nv; nv]) T1' T2'
    HF HJ PJ HT1 HT2 P2 eq_refl (conj eq_refl (fun _ _ => eq_refl))).
Qed.
Print Assumptions C97_restricted_amplitudes.

Theorem C97_restricted_lambda (K : cring) no nv (F F' : one_e K) (J J' : two_e_full K) (L1 L1' L2 L2' T1 T1' T2 T2' : tensor K) :
  one_e_ok no nv F -> two_e_full_ok no nv no nv J -> pair_sym_full J ->
  shp L1 = [no; nv] -> shp L2 = [no; no; nv; nv] -> pair_sym L2 ->
  shp T1 = [nv; no] -> shp T2 = [nv; nv; no; no] -> pair_sym T2 ->
  holes_F F F' -> holes_J J J' -> holes H1 L1 L1' -> holes H2 L2 L2' -> holes H1 T1 T1' -> holes H2 T2 T2' ->
  exists r s r' s', returns "rccsd_lambda_opt" [py_one_e F; py_two_e_full J; arr L1; arr L2; arr T1; arr T2]
      (tup [arr r; arr s]) /\
    returns "rccsd_lambda_opt" [py_one_e F'; py_two_e_full J'; arr L1'; arr L2'; arr T1'; arr T2']
      (tup [arr r'; arr s']) /\
    holes H1 r r' /\ holes H2 s s'.
Proof.
  intros HF HJ PJ HL1 HL2 P4 HT1 HT2 P2.
  exact (ph_rl K no nv F F' J J' T1 T2 L1 L2 T1' T2' L1' L2' HF HJ PJ HT1 HT2 P2 HL1 HL2 P4).
Qed.
Print Assumptions C97_restricted_lambda.

Theorem C97_restricted_energy (K : cring) no nv (F F' : one_e K) (J J' : two_e_full K) (T1 T1' T2 T2' : tensor K) :
  one_e_ok no nv F -> two_e_full_ok no nv no nv J -> pair_sym_full J ->
  shp T1 = [nv; no] -> shp T2 = [nv; nv; no; no] -> pair_sym T2 ->
  holes_F F F' -> holes_J J J' -> holes H1 T1 T1' -> holes H2 T2 T2' ->
  exists e, returns "rcc_energy" [arr T1; arr T2; arr (ov F); arr (foovv J)] (numv e) /\
    returns "rcc_energy" [arr T1'; arr T2'; arr (ov F'); arr (foovv J')] (numv e).
Proof.
  intros HF HJ PJ HT1 HT2 P2.
  exact (ph_re K no nv F F' J J' T1 T2 (tzeros K [no; nv]) (tzeros K [no; no; nv; nv]) T1' T2'
    HF HJ PJ HT1 HT2 P2 eq_refl (conj eq_refl (fun _ _ => eq_refl))).
Qed.
Print Assumptions C97_restricted_energy.

Theorem C97_restricted_densities (K : cring) no nv (T1 T1' T2 T2' L1 L1' L2 L2' : tensor K) f g k :
  In (f, g, k) r_rdm ->
  shp T1 = [nv; no] -> shp T2 = [nv; nv; no; no] -> pair_sym T2 ->
  shp L1 = [no; nv] -> shp L2 = [no; no; nv; nv] -> pair_sym L2 ->
  holes H1 T1 T1' -> holes H2 T2 T2' -> holes H1 L1 L1' -> holes H2 L2 L2' ->
  exists r r', returns f [arr T1; arr T2; arr L1; arr L2] (arr r) /\
    returns g [arr T1'; arr T2'; arr L1'; arr L2'] (arr r') /\ holes k r r'.
Proof.
  intros Hf HT1 HT2 P2 HL1 HL2 P4. destruct (zeroR_ok K no nv) as (ZJ & ZP).
  exact (ph_rr K no nv (zeroF K no nv) _ T1 T2 L1 L2 T1' T2' L1' L2' ZJ ZP HT1 HT2 P2 HL1 HL2 P4 f g k Hf).
Qed.
Print Assumptions C97_restricted_densities.

(** two alpha electrons in four orbitals, one beta electron in two *)
Example C97_u_example :
  let Fa' := xF QcK yFa in let Fb' := xF QcK yFb in let Ia' := xI QcK yIa in let Ib' := xI QcK yIb in
  let J' := xJ QcK yJ in
  let h1 := top QcK H1 in let h2 := top QcK H2 in
  u_ham_ok 2 2 1 1 yFa yFb yIa yIb yJ /\ u_amps_ok 2 2 1 1 yT1a yT1b yT2aa yT2ab yT2bb /\
  u_lams_ok 2 2 1 1 yL1a yL1b yL2aa yL2ab yL2bb /\
  holes_uH yFa yFb yIa yIb yJ Fa' Fb' Ia' Ib' J' /\
  holes_amps yT1a yT1b yT2aa yT2ab yT2bb (h1 yT1a) (h1 yT1b) (h2 yT2aa) (h2 yT2ab) (h2 yT2bb) /\
  holes_amps yL1a yL1b yL2aa yL2ab yL2bb (h1 yL1a) (h1 yL1b) (h2 yL2aa) (h2 yL2ab) (h2 yL2bb) /\
  sample_entry2 "uccsd_stanton" [py_one_e yFa; py_one_e yFb; py_two_e yIa; py_two_e yIb; py_two_e_full yJ;
    tup [arr yT1a; arr yT1b]; tup [arr yT2aa; arr yT2ab; arr yT2bb]] 1 1 [0; 0; 1; 0]%nat = Some 3983193%Q /\
  sample_entry2 "uccsd_stanton" [py_one_e Fa'; py_one_e Fb'; py_two_e Ia'; py_two_e Ib'; py_two_e_full J';
    tup [arr (h1 yT1a); arr (h1 yT1b)]; tup [arr (h2 yT2aa); arr (h2 yT2ab); arr (h2 yT2bb)]] 1 1 [1; 0; 0; 0]%nat
    = Some 3983193%Q.
Proof.
  intros. destruct (u_sample_ok QcK 2 2 1 1) as (E1 & E2 & E3).
  split; [exact E1|]. split; [exact E2|]. split; [exact E3|].
  destruct E1 as (D1 & D2 & D3 & D4 & D5).
  split. { split; [apply (xF_ok QcK 2 2); exact D1|]. split; [apply (xF_ok QcK 1 1); exact D2|].
    split; [apply (xI_ok QcK 2 2); exact D3|]. split; [apply (xI_ok QcK 1 1); exact D4|].
    apply (xJ_ok QcK 2 2 1 1); exact D5. }
  split; [do 4 (split; [apply top_ok; reflexivity|]); apply top_ok; reflexivity|].
  split; [do 4 (split; [apply top_ok; reflexivity|]); apply top_ok; reflexivity|].
  vm_compute. auto.
Qed.

Example C97_r_example :
  let F := sampleF QcK 2 3 in let J := sampleR QcK 2 3 in
  let T1 := sampleT1 QcK 2 3 in let T2 := sampleT2r QcK 2 3 in
  (one_e_ok 2 3 F /\ two_e_full_ok 2 3 2 3 J /\ pair_sym_full J /\
   shp T1 = [3; 2]%nat /\ shp T2 = [3; 3; 2; 2]%nat /\ pair_sym T2) /\
  (holes_F F (xF QcK F) /\ holes_J J (xJ QcK J) /\ holes H1 T1 (top QcK H1 T1) /\ holes H2 T2 (top QcK H2 T2)) /\
  sample_entry "rccsd_stanton" [py_one_e F; py_two_e_full J; arr T1; arr T2] 0 [2; 1]%nat = Some (-80789724)%Q /\
  sample_entry "rccsd_stanton" [py_one_e (xF QcK F); py_two_e_full (xJ QcK J); arr (top QcK H1 T1); arr (top QcK H2 T2)]
    0 [1; 2]%nat = Some 80789724%Q.
Proof.
  intros F J T1 T2. destruct (r_sample_ok QcK 2 3) as (E1 & E2 & (E3 & E4) & _).
  split. { split; [apply (sample_ok QcK 2 3)|]. split; [exact E1|]. split; [exact E2|]. split; [reflexivity|].
    split; [exact E3|exact E4]. }
  split. { split; [apply (xF_ok QcK 2 3); apply (sample_ok QcK 2 3)|]. split; [apply (xJ_ok QcK 2 3 2 3); exact E1|].
    split; apply top_ok; reflexivity. }
  vm_compute. auto.
Qed.
