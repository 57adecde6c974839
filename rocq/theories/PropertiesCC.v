(** Properties of cc_equations.py and cc_energy.py (spin-orbital functions):
    final statements.  The vocabulary is CCSpec.v (inputs, symmetries,
    [returns]) and CCShapes.v (documented shapes). *)
From Coq Require Import List String ZArith QArith.
From Verif Require Import Scalar Tensor PySyntax PySem CCProg CCSpec CCShapes CCExamples Public
  CCEquiv CCSym CCDeriv CCNeg.
Import ListNotations.
Local Open Scope string_scope.

(** C01: ccsd_stanton and ccsd_simple return equal amplitudes. *)
Theorem C01_ccsd_stanton_eq_simple (K : cring) no nv F I T1 T2 :
  one_e_ok no nv F -> two_e_ok no nv I -> t1_ok no nv T1 -> t2_ok no nv T2 ->
  exists r s,
    returns (K := K) "ccsd_simple" [py_one_e F; py_two_e I; arr T1; arr T2] r /\
    returns "ccsd_stanton" [py_one_e F; py_two_e I; arr T1; arr T2] s /\ xeq r s.
Proof. exact (ccsd_stanton_simple K no nv F I T1 T2). Qed.
Print Assumptions C01_ccsd_stanton_eq_simple.

(** The sample inputs of CCExamples.v meet the hypotheses on F, I, T1, T2, L1,
    L2 of all statements below, and the functions return non-zero entries on
    them. *)
Notation F23 := (sampleF QcK 2 3).
Notation I23 := (sampleI QcK 2 3).
Notation T1_23 := (sampleT1 QcK 2 3).
Notation T2_23 := (sampleT2 QcK 2 3).
Notation L1_23 := (sampleL1 QcK 2 3).
Notation L2_23 := (sampleL2 QcK 2 3).

Example C01_example :
  one_e_ok 2 3 F23 /\ two_e_ok 2 3 I23 /\ t1_ok 2 3 T1_23 /\ t2_ok 2 3 T2_23 /\
  sample_entry "ccsd_stanton" [py_one_e F23; py_two_e I23; arr T1_23; arr T2_23] 0 [0; 1]%nat
    = Some (-73319)%Q.
Proof.
  destruct (sample_ok QcK 2 3) as (H1 & H2 & H3 & H4 & _).
  repeat (split; [assumption|]). vm_compute. reflexivity.
Qed.

(** C02: ccd_stanton and ccd_simple return equal amplitudes. *)
Theorem C02_ccd_stanton_eq_simple (K : cring) no nv F I T2 :
  one_e_ok no nv F -> two_e_ok no nv I -> t2_ok no nv T2 ->
  exists r s,
    returns (K := K) "ccd_simple" [py_one_e F; py_two_e I; arr T2] r /\
    returns "ccd_stanton" [py_one_e F; py_two_e I; arr T2] s /\ xeq r s.
Proof. exact (ccd_stanton_simple K no nv F I T2). Qed.
Print Assumptions C02_ccd_stanton_eq_simple.

Example C02_example :
  one_e_ok 2 3 F23 /\ two_e_ok 2 3 I23 /\ t2_ok 2 3 T2_23 /\
  sample_entry "ccd_stanton" [py_one_e F23; py_two_e I23; arr T2_23] 0 [0; 1; 0; 1]%nat
    = Some (-845)%Q.
Proof.
  destruct (sample_ok QcK 2 3) as (H1 & H2 & H3 & H4 & _).
  repeat (split; [assumption|]). vm_compute. reflexivity.
Qed.

(** C03: the doubles of CCSD with zero singles are those of CCD. *)
Theorem C03_ccd_is_ccsd_without_singles (K : cring) no nv F I T2 :
  one_e_ok no nv F -> two_e_ok no nv I -> t2_ok no nv T2 ->
  (exists S1 S2 D,
    returns (K := K) "ccsd_simple" [py_one_e F; py_two_e I; arr (tzeros K [nv; no]); arr T2]
      (tup [arr S1; arr S2]) /\
    returns "ccd_simple" [py_one_e F; py_two_e I; arr T2] (arr D) /\ teq S2 D) /\
  (exists S1 S2 D,
    returns (K := K) "ccsd_stanton" [py_one_e F; py_two_e I; arr (tzeros K [nv; no]); arr T2]
      (tup [arr S1; arr S2]) /\
    returns "ccd_stanton" [py_one_e F; py_two_e I; arr T2] (arr D) /\ teq S2 D).
Proof. exact (ccd_ccsd_zero_singles K no nv F I T2). Qed.
Print Assumptions C03_ccd_is_ccsd_without_singles.

Example C03_example :
  one_e_ok 2 3 F23 /\ two_e_ok 2 3 I23 /\ t2_ok 2 3 T2_23 /\
  sample_entry "ccsd_simple" [py_one_e F23; py_two_e I23; arr (tzeros QcK [3; 2]%nat); arr T2_23]
    1 [0; 1; 0; 1]%nat = Some (-845)%Q.
Proof.
  destruct (sample_ok QcK 2 3) as (H1 & H2 & H3 & H4 & _).
  repeat (split; [assumption|]). vm_compute. reflexivity.
Qed.

(** C04: evaluating CCSD at eps*T over the dual numbers (eps^2 = 0), the
    constant part plus the coefficient of eps is what lccsd_simple returns at
    T; likewise CCD and lccd_simple. *)
Theorem C04_linearized_is_linear_part (K : cring) no nv F I T1 T2 :
  one_e_ok no nv F -> two_e_ok no nv I -> t1_ok no nv T1 -> t2_ok no nv T2 ->
  (exists S1 S2 R1 R2,
    returns (K := DualK K) "ccsd_simple"
      [py_one_e (lift_one_e F); py_two_e (lift_two_e I); arr (infinitesimal T1);
       arr (infinitesimal T2)] (tup [arr S1; arr S2]) /\
    returns (K := K) "lccsd_simple" [py_one_e F; py_two_e I; arr T1; arr T2]
      (tup [arr R1; arr R2]) /\
    teq (mkT (shp S1) (fun i => cadd (fst (dat S1 i)) (snd (dat S1 i)))) R1 /\
    teq (mkT (shp S2) (fun i => cadd (fst (dat S2 i)) (snd (dat S2 i)))) R2) /\
  (exists S2 R2,
    returns (K := DualK K) "ccd_simple"
      [py_one_e (lift_one_e F); py_two_e (lift_two_e I); arr (infinitesimal T2)] (arr S2) /\
    returns (K := K) "lccd_simple" [py_one_e F; py_two_e I; arr T2] (arr R2) /\
    teq (mkT (shp S2) (fun i => cadd (fst (dat S2 i)) (snd (dat S2 i)))) R2).
Proof.
  intros HF HI H1 H2. split.
  - exact (ccsd_linear_part K no nv F I T1 T2 HF HI H1 H2).
  - exact (ccd_linear_part K no nv F I T1 T2 HF HI H2).
Qed.
Print Assumptions C04_linearized_is_linear_part.

Example C04_example :
  one_e_ok 2 3 F23 /\ two_e_ok 2 3 I23 /\ t1_ok 2 3 T1_23 /\ t2_ok 2 3 T2_23 /\
  sample_entry "lccsd_simple" [py_one_e F23; py_two_e I23; arr T1_23; arr T2_23] 1 [0; 1; 0; 1]%nat
    = Some (-92)%Q.
Proof.
  destruct (sample_ok QcK 2 3) as (H1 & H2 & H3 & H4 & _).
  repeat (split; [assumption|]). vm_compute. reflexivity.
Qed.

(** C05: the returned doubles are antisymmetric (and the arrays have the shapes
    of amplitudes again, so an iteration can continue). *)
Theorem C05_ccsd_antisymmetric (K : cring) no nv F I T1 T2 f :
  In f ["ccsd_simple"; "ccsd_stanton"; "lccsd_simple"] ->
  one_e_ok no nv F -> two_e_ok no nv I -> t1_ok no nv T1 -> t2_ok no nv T2 ->
  exists S1 S2,
    returns (K := K) f [py_one_e F; py_two_e I; arr T1; arr T2] (tup [arr S1; arr S2]) /\
    t1_ok no nv S1 /\ t2_ok no nv S2.
Proof. exact (ccsd_antisym K no nv F I T1 T2 f). Qed.
Print Assumptions C05_ccsd_antisymmetric.

Theorem C05_ccd_antisymmetric (K : cring) no nv F I T2 f :
  In f ["ccd_simple"; "ccd_stanton"; "lccd_simple"] ->
  one_e_ok no nv F -> two_e_ok no nv I -> t2_ok no nv T2 ->
  exists S2, returns (K := K) f [py_one_e F; py_two_e I; arr T2] (arr S2) /\ t2_ok no nv S2.
Proof. exact (ccd_antisym K no nv F I T2 f). Qed.
Print Assumptions C05_ccd_antisymmetric.

Theorem C05_ladder_antisymmetric (K : cring) no nv I T2 :
  two_e_ok no nv I -> t2_ok no nv T2 ->
  exists S2, returns (K := K) "ccd_ladder_simple" [py_two_e I; arr T2] (arr S2) /\ t2_ok no nv S2.
Proof. exact (ladder_antisym K no nv I T2). Qed.
Print Assumptions C05_ladder_antisymmetric.

(** ccd_ring_simple does not preserve antisymmetry. *)
Theorem C05_ring_not_antisymmetric :
  exists no nv I T2 S2,
    two_e_ok no nv I /\ t2_ok no nv T2 /\
    returns (K := QcK) "ccd_ring_simple" [py_two_e I; arr T2] (arr S2) /\
    ~ antisym_lead S2 /\ ~ antisym_tail S2.
Proof. exact ring_not_antisym. Qed.
Print Assumptions C05_ring_not_antisymmetric.

Example C05_example :
  one_e_ok 2 3 F23 /\ two_e_ok 2 3 I23 /\ t1_ok 2 3 T1_23 /\ t2_ok 2 3 T2_23 /\
  sample_entry "ccd_ladder_simple" [py_two_e I23; arr T2_23] 0 [0; 1; 0; 1]%nat = Some 750%Q /\
  sample_entry "ccd_ladder_simple" [py_two_e I23; arr T2_23] 0 [1; 0; 0; 1]%nat = Some (-750)%Q.
Proof.
  destruct (sample_ok QcK 2 3) as (H1 & H2 & H3 & H4 & _).
  repeat (split; [assumption|]). vm_compute. auto.
Qed.

(** C06 and C07: every public function, for all orbital numbers and all arrays
    of the documented shapes (no symmetry assumed), returns a value of the
    documented shape and leaves its arguments as they were ([returns] includes
    both).  ccsd_pt_simple always raises. *)
Theorem C06_C07_total_and_pure (K : cring) (n : space -> nat) f argshapes resshape args :
  In (f, argshapes, resshape) public_functions -> Forall2 (fits n) args argshapes ->
  exists v, returns (K := K) f args v /\ fits n v resshape.
Proof. exact (public_ok K n f argshapes resshape args). Qed.
Print Assumptions C06_C07_total_and_pure.

Theorem C07_ccsd_pt_simple_raises (K : cring) F I eo ev T1 T2 :
  raises (K := K) "ccsd_pt_simple" [F; I; eo; ev; T1; T2].
Proof. exact (pt_raises K F I eo ev T1 T2). Qed.
Print Assumptions C07_ccsd_pt_simple_raises.

Example C06_C07_example :
  In ("ccsd_stanton", [F_; I_; T1_; T2_], STup [T1_; T2_]) public_functions /\
  Forall2 (fits (fun s => match s with so => 2 | sv => 3 | _ => 0 end)%nat)
    [py_one_e F23; py_two_e I23; arr T1_23; arr T2_23] [F_; I_; T1_; T2_] /\
  List.length public_functions = 81%nat.
Proof.
  split; [simpl; tauto|]. split; [|reflexivity].
  repeat (first [apply Forall2_nil | apply Forall2_cons | split | apply fit_obj | apply fit_arr
    | reflexivity]).
Qed.

(** C11: the energy formulas.  The arrays need no symmetry. *)
Theorem C11_cc_energy_formula (K : cring) no nv (T1 T2 f g : tensor K) :
  shp T1 = [nv; no] -> shp T2 = [nv; nv; no; no] -> shp f = [no; nv] -> shp g = [no; no; nv; nv] ->
  let s1 := sumN no (fun i => sumN nv (fun a => cmul (dat f [i; a]) (dat T1 [a; i]))) in
  let d := sumN no (fun i => sumN no (fun j => sumN nv (fun a => sumN nv (fun b =>
             cmul (dat g [i; j; a; b]) (dat T2 [a; b; i; j]))))) in
  let s2 := sumN no (fun i => sumN no (fun j => sumN nv (fun a => sumN nv (fun b =>
             cmul (dat g [i; j; a; b]) (cmul (dat T1 [a; i]) (dat T1 [b; j])))))) in
  returns "cc_energy" [arr T1; arr T2; arr f; arr g]
    (numv (cadd (cadd s1 (cmul quarter d)) (cmul chalf s2))) /\
  returns "mp2_energy" [arr T1; arr T2; arr f; arr g] (numv (cadd s1 (cmul quarter d))).
Proof.
  intros H1 H2 Hf Hg. split.
  - exact (cc_energy_formula K no nv T1 T2 f g H1 H2 Hf Hg).
  - exact (mp2_energy_formula K no nv T1 T2 f g H1 H2 Hf Hg).
Qed.
Print Assumptions C11_cc_energy_formula.

Example C11_example :
  shp T1_23 = [3; 2]%nat /\ shp T2_23 = [3; 3; 2; 2]%nat /\ shp (ov F23) = [2; 3]%nat /\
  shp (oovv I23) = [2; 2; 3; 3]%nat /\
  sample_entry "cc_energy" [arr T1_23; arr T2_23; arr (ov F23); arr (oovv I23)] 0 []
    = Some 2888%Q.
Proof. repeat split. Qed.

(** C12: the four Lambda implementations agree. *)
Theorem C12_lambda_implementations_agree (K : cring) no nv F I L1 L2 T1 T2 :
  one_e_ok no nv F -> two_e_ok no nv I -> l1_ok no nv L1 -> l2_ok no nv L2 ->
  t1_ok no nv T1 -> t2_ok no nv T2 ->
  let args := [py_one_e F; py_two_e I; arr L1; arr L2; arr T1; arr T2] in
  exists r r1 r2 r3 int,
    returns (K := K) "ccsd_lambda_simple" args r /\
    returns "ccsd_lambda_opt" args r1 /\
    returns "ccsd_lambda_stanton" args r2 /\
    returns "lambda_int" [py_one_e F; py_two_e I; arr T1; arr T2] int /\
    returns "ccsd_lambda_opt_int" (args ++ [int]) r3 /\
    xeq r r1 /\ xeq r r2 /\ xeq r r3.
Proof. exact (lambda_agree K no nv F I L1 L2 T1 T2). Qed.
Print Assumptions C12_lambda_implementations_agree.

Example C12_example :
  one_e_ok 2 3 F23 /\ two_e_ok 2 3 I23 /\ l1_ok 2 3 L1_23 /\ l2_ok 2 3 L2_23 /\
  t1_ok 2 3 T1_23 /\ t2_ok 2 3 T2_23 /\
  sample_entry "ccsd_lambda_opt"
    [py_one_e F23; py_two_e I23; arr L1_23; arr L2_23; arr T1_23; arr T2_23] 0 [0; 1]%nat
    = Some (-1102823)%Q.
Proof.
  destruct (sample_ok QcK 2 3) as (H1 & H2 & H3 & H4 & H5 & H6).
  repeat (split; [assumption|]). vm_compute. reflexivity.
Qed.

(** C13: CCD Lambda is CCSD Lambda without singles. *)
Theorem C13_ccd_lambda_is_ccsd_lambda_without_singles (K : cring) no nv F I L2 T2 :
  one_e_ok no nv F -> two_e_ok no nv I -> l2_ok no nv L2 -> t2_ok no nv T2 ->
  exists M1 M2 D,
    returns (K := K) "ccsd_lambda_simple"
      [py_one_e F; py_two_e I; arr (tzeros K [no; nv]); arr L2; arr (tzeros K [nv; no]); arr T2]
      (tup [arr M1; arr M2]) /\
    returns "ccd_lambda_simple" [py_one_e F; py_two_e I; arr L2; arr T2] (arr D) /\ teq M2 D.
Proof. exact (ccd_lambda_zero_singles K no nv F I L2 T2). Qed.
Print Assumptions C13_ccd_lambda_is_ccsd_lambda_without_singles.

Example C13_example :
  one_e_ok 2 3 F23 /\ two_e_ok 2 3 I23 /\ l2_ok 2 3 L2_23 /\ t2_ok 2 3 T2_23 /\
  sample_entry "ccd_lambda_simple" [py_one_e F23; py_two_e I23; arr L2_23; arr T2_23]
    0 [0; 1; 0; 1]%nat = Some (-1485)%Q.
Proof.
  destruct (sample_ok QcK 2 3) as (H1 & H2 & H3 & H4 & H5 & H6).
  repeat (split; [assumption|]). vm_compute. reflexivity.
Qed.

(** C14: over the dual numbers, the eps-part of
    cc_energy(T) + sum L1*R1(T) + 1/4 sum L2*R2(T) at T + eps*dT is
    sum L1'*dT1 + 1/4 sum L2'*dT2 with (L1', L2') from ccsd_lambda_simple. *)
Theorem C14_lambda_is_derivative (K : cring) no nv F I T1 T2 L1 L2 dT1 dT2 :
  one_e_ok no nv F -> two_e_ok no nv I -> t1_ok no nv T1 -> t2_ok no nv T2 ->
  l1_ok no nv L1 -> l2_ok no nv L2 -> t1_ok no nv dT1 -> t2_ok no nv dT2 ->
  exists e S1 S2 M1 M2,
    returns (K := DualK K) "cc_energy"
      [arr (perturbed T1 dT1); arr (perturbed T2 dT2); arr (lift (ov F)); arr (lift (oovv I))]
      (numv e) /\
    returns (K := DualK K) "ccsd_simple"
      [py_one_e (lift_one_e F); py_two_e (lift_two_e I); arr (perturbed T1 dT1);
       arr (perturbed T2 dT2)] (tup [arr S1; arr S2]) /\
    returns (K := K) "ccsd_lambda_simple"
      [py_one_e F; py_two_e I; arr L1; arr L2; arr T1; arr T2] (tup [arr M1; arr M2]) /\
    cadd (snd e) (cadd (dot2 no nv (dat L1) (fun i => snd (dat S1 i)))
                       (cmul quarter (dot4 no no nv nv (dat L2) (fun i => snd (dat S2 i))))) =
    cadd (dot2 no nv (dat M1) (dat dT1)) (cmul quarter (dot4 no no nv nv (dat M2) (dat dT2))).
Proof. exact (lambda_is_derivative K no nv F I T1 T2 L1 L2 dT1 dT2). Qed.
Print Assumptions C14_lambda_is_derivative.

Example C14_example :
  one_e_ok 2 3 F23 /\ two_e_ok 2 3 I23 /\ t1_ok 2 3 T1_23 /\ t2_ok 2 3 T2_23 /\
  l1_ok 2 3 L1_23 /\ l2_ok 2 3 L2_23 /\
  sample_entry "ccsd_lambda_simple"
    [py_one_e F23; py_two_e I23; arr L1_23; arr L2_23; arr T1_23; arr T2_23] 1 [0; 1; 0; 1]%nat
    = Some (-58888)%Q.
Proof.
  destruct (sample_ok QcK 2 3) as (H1 & H2 & H3 & H4 & H5 & H6).
  repeat (split; [assumption|]). vm_compute. reflexivity.
Qed.

(** C15: the returned Lambda doubles are antisymmetric. *)
Theorem C15_lambda_antisymmetric (K : cring) no nv F I L1 L2 T1 T2 f :
  In f ["ccsd_lambda_simple"; "ccsd_lambda_opt"; "ccsd_lambda_stanton"] ->
  one_e_ok no nv F -> two_e_ok no nv I -> l1_ok no nv L1 -> l2_ok no nv L2 ->
  t1_ok no nv T1 -> t2_ok no nv T2 ->
  exists M1 M2,
    returns (K := K) f [py_one_e F; py_two_e I; arr L1; arr L2; arr T1; arr T2]
      (tup [arr M1; arr M2]) /\ l1_ok no nv M1 /\ l2_ok no nv M2.
Proof. exact (lambda_antisym K no nv F I L1 L2 T1 T2 f). Qed.
Print Assumptions C15_lambda_antisymmetric.

Theorem C15_lambda_opt_int_antisymmetric (K : cring) no nv F I L1 L2 T1 T2 :
  one_e_ok no nv F -> two_e_ok no nv I -> l1_ok no nv L1 -> l2_ok no nv L2 ->
  t1_ok no nv T1 -> t2_ok no nv T2 ->
  exists int M1 M2,
    returns (K := K) "lambda_int" [py_one_e F; py_two_e I; arr T1; arr T2] int /\
    returns "ccsd_lambda_opt_int" [py_one_e F; py_two_e I; arr L1; arr L2; arr T1; arr T2; int]
      (tup [arr M1; arr M2]) /\ l1_ok no nv M1 /\ l2_ok no nv M2.
Proof. exact (lambda_int_antisym K no nv F I L1 L2 T1 T2). Qed.
Print Assumptions C15_lambda_opt_int_antisymmetric.

Theorem C15_ccd_lambda_antisymmetric (K : cring) no nv F I L2 T2 :
  one_e_ok no nv F -> two_e_ok no nv I -> l2_ok no nv L2 -> t2_ok no nv T2 ->
  exists M2,
    returns (K := K) "ccd_lambda_simple" [py_one_e F; py_two_e I; arr L2; arr T2] (arr M2) /\
    l2_ok no nv M2.
Proof. exact (ccd_lambda_antisym K no nv F I L2 T2). Qed.
Print Assumptions C15_ccd_lambda_antisymmetric.

(** C18: optimized density matrices equal the plain ones. *)
Theorem C18_rdm_opt_eq_plain (K : cring) no nv T1 T2 L1 L2 f g :
  In (f, g)
    [("ccsd_1rdm_ba", "ccsd_1rdm_ba_opt"); ("ccsd_1rdm_ji", "ccsd_1rdm_ji_opt");
     ("ccsd_1rdm_ai", "ccsd_1rdm_ai_opt"); ("ccsd_2rdm_cdab", "ccsd_2rdm_cdab_opt");
     ("ccsd_2rdm_ciab", "ccsd_2rdm_ciab_opt"); ("ccsd_2rdm_bcai", "ccsd_2rdm_bcai_opt");
     ("ccsd_2rdm_bjai", "ccsd_2rdm_bjai_opt"); ("ccsd_2rdm_abij", "ccsd_2rdm_abij_opt");
     ("ccsd_2rdm_jkai", "ccsd_2rdm_jkai_opt"); ("ccsd_2rdm_kaij", "ccsd_2rdm_kaij_opt");
     ("ccsd_2rdm_klij", "ccsd_2rdm_klij_opt")] ->
  t1_ok no nv T1 -> t2_ok no nv T2 -> l1_ok no nv L1 -> l2_ok no nv L2 ->
  exists r s,
    returns (K := K) f [arr T1; arr T2; arr L1; arr L2] r /\
    returns g [arr T1; arr T2; arr L1; arr L2] s /\ xeq r s.
Proof. exact (rdm_opt_plain K no nv T1 T2 L1 L2 f g). Qed.
Print Assumptions C18_rdm_opt_eq_plain.

Theorem C18_rdm_opt_eq_plain_tfac (K : cring) no nv T1 T2 L1 L2 tfac f g :
  In (f, g) [("ccsd_1rdm_ai", "ccsd_1rdm_ai_opt"); ("ccsd_2rdm_abij", "ccsd_2rdm_abij_opt")] ->
  t1_ok no nv T1 -> t2_ok no nv T2 -> l1_ok no nv L1 -> l2_ok no nv L2 ->
  exists r s,
    returns (K := K) f [arr T1; arr T2; arr L1; arr L2; numv tfac] r /\
    returns g [arr T1; arr T2; arr L1; arr L2; numv tfac] s /\ xeq r s.
Proof. exact (rdm_fac_opt_plain K no nv T1 T2 L1 L2 tfac f g). Qed.
Print Assumptions C18_rdm_opt_eq_plain_tfac.

Example C18_example :
  t1_ok 2 3 T1_23 /\ t2_ok 2 3 T2_23 /\ l1_ok 2 3 L1_23 /\ l2_ok 2 3 L2_23 /\
  sample_entry "ccsd_2rdm_abij_opt" [arr T1_23; arr T2_23; arr L1_23; arr L2_23] 0 [0; 1; 0; 1]%nat
    = Some (-151961)%Q.
Proof.
  destruct (sample_ok QcK 2 3) as (H1 & H2 & H3 & H4 & H5 & H6).
  repeat (split; [assumption|]). vm_compute. reflexivity.
Qed.

(** C19: contracting the density matrices with F and I gives the Lagrangian
    cc_energy(T) + sum L1*R1(T) + 1/4 sum L2*R2(T).
    [dot2 m n A B] is sum_pq A_pq B_qp and [dot4] is sum_pqrs A_pqrs B_rspq. *)
Theorem C19_rdm_contraction_is_lagrangian (K : cring) no nv (F : one_e K) (I : two_e K) T1 T2 L1 L2 :
  one_e_ok no nv F -> two_e_ok no nv I -> t1_ok no nv T1 -> t2_ok no nv T2 ->
  l1_ok no nv L1 -> l2_ok no nv L2 ->
  let d2 m n A B := @dot2 K m n (dat A) (dat B) in
  let d4 m n k l A B := @dot4 K m n k l (dat A) (dat B) in
  exists e S1 S2 Pba Pji Pai Pcdab Pklij Pabij Pciab Pbcai Pjkai Pkaij Pbjai,
    returns (K := K) "cc_energy" [arr T1; arr T2; arr (ov F); arr (oovv I)] (numv e) /\
    returns (K := K) "ccsd_simple" [py_one_e F; py_two_e I; arr T1; arr T2]
      (tup [arr S1; arr S2]) /\
    Forall (fun fP => returns (K := K) (fst fP) [arr T1; arr T2; arr L1; arr L2] (arr (snd fP)))
      [("ccsd_1rdm_ba", Pba); ("ccsd_1rdm_ji", Pji); ("ccsd_1rdm_ai", Pai);
       ("ccsd_2rdm_cdab", Pcdab); ("ccsd_2rdm_klij", Pklij); ("ccsd_2rdm_abij", Pabij);
       ("ccsd_2rdm_ciab", Pciab); ("ccsd_2rdm_bcai", Pbcai); ("ccsd_2rdm_jkai", Pjkai);
       ("ccsd_2rdm_kaij", Pkaij); ("ccsd_2rdm_bjai", Pbjai)] /\
    (e + (d2 no nv L1 S1 + quarter * d4 no no nv nv L2 S2))%K =
    ((d2 no nv L1 (vo F) + (d2 nv nv Pba (vv F) + (d2 no no Pji (oo F) + d2 nv no Pai (ov F)))) +
     (quarter * (d4 no no nv nv L2 (vvoo I) + (d4 nv nv nv nv Pcdab (vvvv I) +
        (d4 no no no no Pklij (oooo I) + d4 nv nv no no Pabij (oovv I)))) +
     (chalf * (d4 nv no nv nv Pciab (vvvo I) + (d4 nv nv nv no Pbcai (vovv I) +
        (d4 no no nv no Pjkai (vooo I) + d4 no nv no no Pkaij (ooov I)))) +
      d4 nv no nv no Pbjai (vovo I))))%K.
Proof.
  intros HF HI H1 H2 HL1 HL2. exact (rdm_lagrangian K no nv F I T1 T2 L1 L2 HF HI H1 H2 HL1 HL2).
Qed.
Print Assumptions C19_rdm_contraction_is_lagrangian.

(** C20: antisymmetry of density-matrix blocks in a pair of like indices. *)
Theorem C20_rdm_bra_antisymmetric (K : cring) no nv T1 T2 L1 L2 f :
  In f ["ccsd_2rdm_cdab"; "ccsd_2rdm_klij"; "ccsd_2rdm_abij"; "ccsd_2rdm_bcai"; "ccsd_2rdm_jkai"] ->
  t1_ok no nv T1 -> t2_ok no nv T2 -> l1_ok no nv L1 -> l2_ok no nv L2 ->
  exists P, returns (K := K) f [arr T1; arr T2; arr L1; arr L2] (arr P) /\ antisym_lead P.
Proof. exact (rdm_lead_antisym K no nv T1 T2 L1 L2 f). Qed.
Print Assumptions C20_rdm_bra_antisymmetric.

Theorem C20_rdm_ket_antisymmetric (K : cring) no nv T1 T2 L1 L2 f :
  In f ["ccsd_2rdm_cdab"; "ccsd_2rdm_klij"; "ccsd_2rdm_abij"; "ccsd_2rdm_ciab"; "ccsd_2rdm_kaij"] ->
  t1_ok no nv T1 -> t2_ok no nv T2 -> l1_ok no nv L1 -> l2_ok no nv L2 ->
  exists P, returns (K := K) f [arr T1; arr T2; arr L1; arr L2] (arr P) /\ antisym_tail P.
Proof. exact (rdm_tail_antisym K no nv T1 T2 L1 L2 f). Qed.
Print Assumptions C20_rdm_ket_antisymmetric.

Example C20_example :
  t1_ok 2 3 T1_23 /\ t2_ok 2 3 T2_23 /\ l1_ok 2 3 L1_23 /\ l2_ok 2 3 L2_23 /\
  sample_entry "ccsd_2rdm_bcai" [arr T1_23; arr T2_23; arr L1_23; arr L2_23] 0 [0; 1; 0; 1]%nat
    = Some (-13386)%Q.
Proof.
  destruct (sample_ok QcK 2 3) as (H1 & H2 & H3 & H4 & H5 & H6).
  repeat (split; [assumption|]). vm_compute. reflexivity.
Qed.
