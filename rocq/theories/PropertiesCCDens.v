(** Density matrices, Lambda equations and the Lagrangian of CCSD in Fock space:
    final statements.  Vocabulary: CISpec.v, CIExpSpec.v (determinants, sums of
    operator products), CCFockSpec.v (Hamiltonian, cluster operator), CCDensSpec.v
    (Lambda, normal ordering, expectation values), CCSpec.v (inputs of the
    program, [returns], [dot2], [dot4]). *)
From Coq Require Import List String ZArith QArith Lia.
From Verif Require Import Scalar Tensor PySyntax PySem CCProg CISpec CIExpSpec CCSpec CCFockSpec CCDensSpec CCExamples
  CCEquiv CCFock CCSchr CCDens CCLambda CCLeft PropertiesCC PropertiesCCFock PropertiesCCSchr.
Import ListNotations.
Local Open Scope string_scope.

(** C55: every density matrix function returns, element by element, the
    expectation value of the normal ordered product of operators,
    <0|(c + Lambda) exp(-T) {a+_q a_p} exp(T)|0> for P_pq and
    {a+_r a+_s a_q a_p} for P_pqrs.  The spaces of the indices are given by a
    list (true: virtual, false: occupied).  These blocks do not depend on c. *)
Theorem C55_density_matrices (K : cring) no nv inv M T1 T2 L1 L2 f vs c :
  In (f, vs)
    [("ccsd_1rdm_ba", [true; true]); ("ccsd_1rdm_ji", [false; false]);
     ("ccsd_2rdm_cdab", [true; true; true; true]); ("ccsd_2rdm_ciab", [true; false; true; true]);
     ("ccsd_2rdm_bcai", [true; true; true; false]); ("ccsd_2rdm_bjai", [true; false; true; false]);
     ("ccsd_2rdm_jkai", [false; false; true; false]); ("ccsd_2rdm_kaij", [false; true; false; false]);
     ("ccsd_2rdm_klij", [false; false; false; false]);
     ("ccsd_1rdm_ba_opt", [true; true]); ("ccsd_1rdm_ji_opt", [false; false]);
     ("ccsd_2rdm_cdab_opt", [true; true; true; true]); ("ccsd_2rdm_ciab_opt", [true; false; true; true]);
     ("ccsd_2rdm_bcai_opt", [true; true; true; false]); ("ccsd_2rdm_bjai_opt", [true; false; true; false]);
     ("ccsd_2rdm_jkai_opt", [false; false; true; false]); ("ccsd_2rdm_kaij_opt", [false; true; false; false]);
     ("ccsd_2rdm_klij_opt", [false; false; false; false])] ->
  inverts inv M -> (nv < M)%nat ->
  t1_ok no nv T1 -> t2_ok no nv T2 -> l1_ok no nv L1 -> l2_ok no nv L2 ->
  exists P, returns (K := K) f [arr T1; arr T2; arr L1; arr L2] (arr P) /\ shp P = map (extent no nv) vs /\
    forall xs, inrange (map (extent no nv) vs) xs ->
      dat P xs = normal_expect inv M no nv c T1 T2 L1 L2 (rdm_word (orbitals no vs xs)).
Proof.
  intros Hin HI HM H1 H2 HL1 HL2.
  exact (any_block K no nv inv M HI HM T1 T2 L1 L2 H1 H2 HL1 HL2 f vs c Hin).
Qed.
Print Assumptions C55_density_matrices.

(** C55: in the two remaining blocks the optional argument tfac is the c of
    <0|(c + Lambda); it is 1 when the argument is left out. *)
Theorem C55_density_matrices_tfac (K : cring) no nv inv M T1 T2 L1 L2 f vs c :
  In (f, vs)
    [("ccsd_1rdm_ai", [true; false]); ("ccsd_2rdm_abij", [true; true; false; false]);
     ("ccsd_1rdm_ai_opt", [true; false]); ("ccsd_2rdm_abij_opt", [true; true; false; false])] ->
  inverts inv M -> (nv < M)%nat ->
  t1_ok no nv T1 -> t2_ok no nv T2 -> l1_ok no nv L1 -> l2_ok no nv L2 ->
  (exists P, returns (K := K) f [arr T1; arr T2; arr L1; arr L2; numv c] (arr P) /\ shp P = map (extent no nv) vs /\
    forall xs, inrange (map (extent no nv) vs) xs ->
      dat P xs = normal_expect inv M no nv c T1 T2 L1 L2 (rdm_word (orbitals no vs xs))) /\
  (exists P, returns (K := K) f [arr T1; arr T2; arr L1; arr L2] (arr P) /\ shp P = map (extent no nv) vs /\
    forall xs, inrange (map (extent no nv) vs) xs ->
      dat P xs = normal_expect inv M no nv c1 T1 T2 L1 L2 (rdm_word (orbitals no vs xs))).
Proof.
  intros Hin HI HM H1 H2 HL1 HL2.
  exact (any_fac_block K no nv inv M HI HM T1 T2 L1 L2 H1 H2 HL1 HL2 f vs c Hin).
Qed.
Print Assumptions C55_density_matrices_tfac.

(** C55: the two blocks for which there is no function, P_ia and P_ijab, are the
    Lambda amplitudes themselves. *)
Theorem C55_lambda_blocks (K : cring) no nv inv M T1 T2 L1 L2 (c : K) :
  inverts inv M -> (nv < M)%nat ->
  t2_ok no nv T2 -> l2_ok no nv L2 ->
  (forall i a, (i < no)%nat -> (a < nv)%nat ->
     normal_expect inv M no nv c T1 T2 L1 L2 (rdm_word [i; no + a]%nat) = dat L1 [i; a]) /\
  (forall i j a b, (i < no)%nat -> (j < no)%nat -> (a < nv)%nat -> (b < nv)%nat ->
     normal_expect inv M no nv c T1 T2 L1 L2 (rdm_word [i; j; no + a; no + b]%nat) = dat L2 [i; j; a; b]).
Proof.
  intros HI HM H2 HL2. split.
  - exact (bare_one K no nv inv M HI HM T1 T2 L1 L2 H2 HL2 c).
  - exact (bare_two K no nv inv M HI HM T1 T2 L1 L2 H2 HL2 c).
Qed.
Print Assumptions C55_lambda_blocks.

(** C55: from the normal ordered densities to <a+_q a_p> and <a+_r a+_s a_q a_p>:
    what has to be added to the blocks to get the complete density matrices.
    [occ p q] is 1 if p = q is occupied and 0 otherwise. *)
Theorem C55_complete_densities (K : cring) no nv inv M T1 T2 L1 L2 (c : K) :
  inverts inv M -> (nv < M)%nat ->
  t2_ok no nv T2 ->
  let occ p q : K := if (Nat.eqb p q && Nat.ltb p no)%bool then c1 else c0 in
  let W := word_expect inv M no nv c T1 T2 L1 L2 in
  let N := normal_expect inv M no nv c T1 T2 L1 L2 in
  let n := (no + nv)%nat in
  (forall p q, (p < n)%nat -> (q < n)%nat ->
     W [Cre q; Ann p] = (N [Cre q; Ann p] + occ q p * c)%K) /\
  (forall p q r s, (p < n)%nat -> (q < n)%nat -> (r < n)%nat -> (s < n)%nat ->
     W [Cre r; Cre s; Ann q; Ann p] = (N [Cre r; Cre s; Ann q; Ann p]
       + (occ r p * N [Cre s; Ann q] + occ s q * N [Cre r; Ann p] - occ r q * N [Cre s; Ann p] - occ s p * N [Cre r; Ann q])
       + (occ r p * occ s q - occ r q * occ s p) * c)%K).
Proof.
  intros HI HM H2. split.
  - exact (full_one K no nv inv M HI HM T1 T2 L1 L2 H2 c).
  - exact (full_two K no nv inv M HI HM T1 T2 L1 L2 H2 c).
Qed.
Print Assumptions C55_complete_densities.

(** C56: the Lambda residuals are <0|(1 + Lambda) [exp(-T) H exp(T), tau]|0> for
    the excitation operators tau, in all three implementations ... *)
Theorem C56_lambda_equations (K : cring) no nv h g F I inv M T1 T2 L1 L2 f :
  antisym_ints (no + nv) g -> blocks1 no nv (fock no h g) F -> blocks2 no nv g I ->
  inverts inv M -> (nv < M)%nat ->
  t1_ok no nv T1 -> t2_ok no nv T2 -> l1_ok no nv L1 -> l2_ok no nv L2 ->
  In f ["ccsd_lambda_simple"; "ccsd_lambda_opt"; "ccsd_lambda_stanton"] ->
  let H := H_op (no + nv) h g in
  exists M1 M2,
    returns (K := K) f [py_one_e F; py_two_e I; arr L1; arr L2; arr T1; arr T2] (tup [arr M1; arr M2]) /\
    shp M1 = [no; nv] /\ shp M2 = [no; no; nv; nv] /\
    (forall i a, (i < no)%nat -> (a < nv)%nat ->
       dat M1 [i; a] = cc_commutator inv M no nv c1 T1 T2 L1 L2 H [(c1, [Cre (no + a); Ann i])]) /\
    (forall i j a b, (i < no)%nat -> (j < no)%nat -> (a < nv)%nat -> (b < nv)%nat ->
       dat M2 [i; j; a; b]
       = cc_commutator inv M no nv c1 T1 T2 L1 L2 H [(c1, [Cre (no + a); Cre (no + b); Ann j; Ann i])]).
Proof.
  intros AG BF BI HI HM H1 H2 HL1 HL2 Hf.
  exact (lambda_all_are K no nv h g F I AG BF BI inv M HI HM T1 T2 L1 L2 H1 H2 HL1 HL2 f Hf).
Qed.
Print Assumptions C56_lambda_equations.

(** ... and in the one that takes precomputed intermediates. *)
Theorem C56_lambda_equations_intermediates (K : cring) no nv h g F I inv M T1 T2 L1 L2 :
  antisym_ints (no + nv) g -> blocks1 no nv (fock no h g) F -> blocks2 no nv g I ->
  inverts inv M -> (nv < M)%nat ->
  t1_ok no nv T1 -> t2_ok no nv T2 -> l1_ok no nv L1 -> l2_ok no nv L2 ->
  let H := H_op (no + nv) h g in
  exists int M1 M2,
    returns (K := K) "lambda_int" [py_one_e F; py_two_e I; arr T1; arr T2] int /\
    returns (K := K) "ccsd_lambda_opt_int" [py_one_e F; py_two_e I; arr L1; arr L2; arr T1; arr T2; int]
      (tup [arr M1; arr M2]) /\
    shp M1 = [no; nv] /\ shp M2 = [no; no; nv; nv] /\
    (forall i a, (i < no)%nat -> (a < nv)%nat ->
       dat M1 [i; a] = cc_commutator inv M no nv c1 T1 T2 L1 L2 H [(c1, [Cre (no + a); Ann i])]) /\
    (forall i j a b, (i < no)%nat -> (j < no)%nat -> (a < nv)%nat -> (b < nv)%nat ->
       dat M2 [i; j; a; b]
       = cc_commutator inv M no nv c1 T1 T2 L1 L2 H [(c1, [Cre (no + a); Cre (no + b); Ann j; Ann i])]).
Proof.
  intros AG BF BI HI HM H1 H2 HL1 HL2.
  exact (lambda_int_are K no nv h g F I AG BF BI inv M HI HM T1 T2 L1 L2 H1 H2 HL1 HL2).
Qed.
Print Assumptions C56_lambda_equations_intermediates.

(** all entries of the Lambda residuals vanish *)
Definition lambda_solved (K : cring) (no nv : nat) (M1 M2 : tensor K) : Prop :=
  (forall i a, (i < no)%nat -> (a < nv)%nat -> dat M1 [i; a] = c0) /\
  (forall i j a b, (i < no)%nat -> (j < no)%nat -> (a < nv)%nat -> (b < nv)%nat -> dat M2 [i; j; a; b] = c0).

(** C56: when T solves the CCSD equations, the Lambda residuals vanish if and
    only if <0|(1 + Lambda) is a left eigenvector of exp(-T) H exp(T) in the space
    of the reference and the singly and doubly excited determinants, with the
    CCSD energy as the eigenvalue. *)
Theorem C56_left_eigenvector (K : cring) no nv h g F I inv M T1 T2 L1 L2 f fl :
  antisym_ints (no + nv) g -> blocks1 no nv (fock no h g) F -> blocks2 no nv g I ->
  inverts inv M -> (nv < M)%nat ->
  t1_ok no nv T1 -> t2_ok no nv T2 -> l1_ok no nv L1 -> l2_ok no nv L2 ->
  f = "ccsd_simple" \/ f = "ccsd_stanton" ->
  In fl ["ccsd_lambda_simple"; "ccsd_lambda_opt"; "ccsd_lambda_stanton"] ->
  let ref := aufbau (no + nv) no in
  let H := H_op (no + nv) h g in
  let Hbar := transformed inv M (cluster no nv T1 T2) H in
  let Lam := lambda_op no nv c1 (fun i a => dat L1 [i; a]) (fun i j a b => dat L2 [i; j; a; b]) in
  exists e R1 R2 M1 M2,
    returns (K := K) "cc_energy" [arr T1; arr T2; arr (ov F); arr (oovv I)] (numv e) /\
    returns (K := K) f [py_one_e F; py_two_e I; arr T1; arr T2] (tup [arr R1; arr R2]) /\
    returns (K := K) fl [py_one_e F; py_two_e I; arr L1; arr L2; arr T1; arr T2] (tup [arr M1; arr M2]) /\
    (solved K no nv R1 R2 ->
     (lambda_solved K no nv M1 M2 <->
      forall k t, (k <= 2)%nat -> excited k ref t ->
        amp ref (opmul Lam Hbar) t = ((amp ref H ref + e) * amp ref Lam t)%K)).
Proof.
  intros AG BF BI HI HM H1 H2 HL1 HL2 Hf Hl.
  destruct (projections K no nv h g F I AG BF BI inv M HI HM T1 T2 H1 H2 f Hf) as (R1 & R2 & HR & O1 & O2 & P1 & P2).
  destruct (cc_energy_expectation K no nv h g F I AG BF BI inv M HI HM T1 T2 H1 H2) as (e & He & Ee).
  destruct (lambda_all_are K no nv h g F I AG BF BI inv M HI HM T1 T2 L1 L2 H1 H2 HL1 HL2 fl Hl) as (M1 & M2 & HM12 & HA).
  exists e, R1, R2, M1, M2. split; [exact He|]. split; [exact HR|]. split; [exact HM12|]. intros [Z1 Z2].
  exact (left_iff K no nv h g inv M HI HM T1 T2 L1 L2 H2 _ R1 R2 O2 Ee P1 P2 Z1 Z2 M1 M2 HA).
Qed.
Print Assumptions C56_left_eigenvector.

(** C57: <0|(1 + Lambda) exp(-T) H exp(T)|0> is <0|H|0> plus the energy returned by
    cc_energy plus the residuals returned by ccsd_simple weighted with Lambda; in
    particular it is the CCSD energy when the residuals vanish. *)
Theorem C57_expectation_of_the_hamiltonian (K : cring) no nv h g F I inv M T1 T2 L1 L2 :
  antisym_ints (no + nv) g -> blocks1 no nv (fock no h g) F -> blocks2 no nv g I ->
  inverts inv M -> (nv < M)%nat ->
  t1_ok no nv T1 -> t2_ok no nv T2 ->
  let ref := aufbau (no + nv) no in
  let H := H_op (no + nv) h g in
  exists e R1 R2,
    returns (K := K) "cc_energy" [arr T1; arr T2; arr (ov F); arr (oovv I)] (numv e) /\
    returns (K := K) "ccsd_simple" [py_one_e F; py_two_e I; arr T1; arr T2] (tup [arr R1; arr R2]) /\
    cc_expect inv M no nv c1 T1 T2 L1 L2 H
    = (amp ref H ref + (e + (dot2 no nv (dat L1) (dat R1) + quarter * dot4 no no nv nv (dat L2) (dat R2))))%K.
Proof.
  intros AG BF BI HI HM H1 H2.
  exact (lagrangian_expect K no nv h g F I AG BF BI inv M HI HM T1 T2 L1 L2 H1 H2).
Qed.
Print Assumptions C57_expectation_of_the_hamiltonian.

(** C57: the energy from the density matrices: the blocks returned by the
    program, contracted with the Fock matrix and the integrals, give the
    expectation value of H relative to the reference. *)
Theorem C57_energy_from_density_matrices (K : cring) no nv h g F I inv M T1 T2 L1 L2 :
  antisym_ints (no + nv) g -> blocks1 no nv (fock no h g) F -> blocks2 no nv g I ->
  inverts inv M -> (nv < M)%nat ->
  t1_ok no nv T1 -> t2_ok no nv T2 -> l1_ok no nv L1 -> l2_ok no nv L2 ->
  let ref := aufbau (no + nv) no in
  let H := H_op (no + nv) h g in
  let d2 m n A B := @dot2 K m n (dat A) (dat B) in
  let d4 m n k l A B := @dot4 K m n k l (dat A) (dat B) in
  exists Pba Pji Pai Pcdab Pklij Pabij Pciab Pbcai Pjkai Pkaij Pbjai,
    Forall (fun fP => returns (K := K) (fst fP) [arr T1; arr T2; arr L1; arr L2] (arr (snd fP)))
      [("ccsd_1rdm_ba", Pba); ("ccsd_1rdm_ji", Pji); ("ccsd_1rdm_ai", Pai);
       ("ccsd_2rdm_cdab", Pcdab); ("ccsd_2rdm_klij", Pklij); ("ccsd_2rdm_abij", Pabij);
       ("ccsd_2rdm_ciab", Pciab); ("ccsd_2rdm_bcai", Pbcai); ("ccsd_2rdm_jkai", Pjkai);
       ("ccsd_2rdm_kaij", Pkaij); ("ccsd_2rdm_bjai", Pbjai)] /\
    cc_expect inv M no nv c1 T1 T2 L1 L2 H =
    (amp ref H ref +
     ((d2 no nv L1 (vo F) + (d2 nv nv Pba (vv F) + (d2 no no Pji (oo F) + d2 nv no Pai (ov F)))) +
      (quarter * (d4 no no nv nv L2 (vvoo I) + (d4 nv nv nv nv Pcdab (vvvv I) +
         (d4 no no no no Pklij (oooo I) + d4 nv nv no no Pabij (oovv I)))) +
      (chalf * (d4 nv no nv nv Pciab (vvvo I) + (d4 nv nv nv no Pbcai (vovv I) +
         (d4 no no nv no Pjkai (vooo I) + d4 no nv no no Pkaij (ooov I)))) +
       d4 nv no nv no Pbjai (vovo I)))))%K.
Proof.
  intros AG BF BI HI HM H1 H2 HL1 HL2.
  exact (energy_from_rdm K no nv h g F I AG BF BI inv M HI HM T1 T2 L1 L2 H1 H2 HL1 HL2).
Qed.
Print Assumptions C57_energy_from_density_matrices.

(** The sample inputs meet the hypotheses of C55-C57. *)
Example C55_example :
  inverts (K := QcK) q_inv 4 /\ (3 < 4)%nat /\
  t1_ok 2 3 T1_23 /\ t2_ok 2 3 T2_23 /\ l1_ok 2 3 L1_23 /\ l2_ok 2 3 L2_23 /\
  rdm_word (orbitals 2 [true; false; true; true] [0; 1; 0; 2]%nat) = [Cre 2; Cre 4; Ann 1; Ann 2] /\
  nprod 2 [Cre 2; Cre 4; Ann 1; Ann 2] = [Cre 2; Cre 4; Ann 1; Ann 2] /\
  nprod 2 [Cre 0; Ann 1] = [Ann 1; Cre 0] /\ nsign 2 [Cre 0; Ann 1] = true /\
  sample_entry "ccsd_2rdm_ciab" [arr T1_23; arr T2_23; arr L1_23; arr L2_23] 0 [0; 1; 0; 2]%nat = Some 180%Q.
Proof.
  destruct (sample_ok QcK 2 3) as (H1 & H2 & H3 & H4 & H5 & H6).
  split; [exact (proj1 C50_example)|]. split; [lia|].
  repeat (split; [assumption|]). vm_compute. repeat split; reflexivity.
Qed.

(** The amplitudes of the example of C54 and a solution of the Lambda equations
    (the other elements of the doubles residual follow from its antisymmetry, C15). *)
Definition ex_den : positive := 5382506011991762532.
Definition ex_l1 (i a : nat) : Z :=
  nth (3 * i + a) [1612096628984120380; 1013179289762508334; -307673857367814116;
    -956003430663463715; -788005402139240258; -781553700270855779]%Z 0%Z.
Definition ex_l2 (a b : nat) : Z :=
  nth b (nth a [[0; 91400488984660503; 378890951783866362]; [0; 0; 249528539707903293]] [])%Z 0%Z.
Definition over (z : Z) : QcK := Qcanon.Q2Qc (z # ex_den).
Definition exL1 : tensor QcK := mkT [2; 3]%nat (fun l => match l with [i; a] => over (ex_l1 i a) | _ => c0 end).
Definition exL2 : tensor QcK := mkT [2; 2; 3; 3]%nat (fun l => match l with
  | [i; j; a; b] => over ((ex_l2 a b - ex_l2 b a) * (Z.of_nat j - Z.of_nat i)) | _ => c0 end).
Definition ex_lres (k : nat) (idx : list nat) : option Q :=
  sample_entry "ccsd_lambda_simple" [py_one_e exF; py_two_e exI; arr exL1; arr exL2; arr exT1; arr exT2] k idx.

Example C56_example :
  l1_ok 2 3 exL1 /\ l2_ok 2 3 exL2 /\
  (forall a i, (a < 3)%nat -> (i < 2)%nat -> ex_res 0 [a; i] = Some 0%Q) /\
  (forall a b i j, (a < 3)%nat -> (b < 3)%nat -> (i < 2)%nat -> (j < 2)%nat -> ex_res 1 [a; b; i; j] = Some 0%Q) /\
  (forall i a, (i < 2)%nat -> (a < 3)%nat -> ex_lres 0 [i; a] = Some 0%Q) /\
  ex_lres 1 [0; 1; 0; 1]%nat = Some 0%Q /\ ex_lres 1 [0; 1; 0; 2]%nat = Some 0%Q /\ ex_lres 1 [0; 1; 1; 2]%nat = Some 0%Q /\
  dat exL1 [0; 0]%nat <> c0.
Proof.
  destruct C54_example as (_ & _ & _ & _ & _ & X1 & X2 & _).
  split; [split; reflexivity|]. split; [split; [reflexivity|split]|].
  - intros i j a b _. cbn [exL2 dat]. apply Qcanon.Qc_is_canon.
    cbn [copp QcK]. unfold over. cbn [Qcanon.this Qcanon.Q2Qc Qcanon.Qcopp]. rewrite !Qreduction.Qred_correct.
    unfold Qeq, Qopp. cbn [Qnum Qden]. ring.
  - intros i j a b _. cbn [exL2 dat]. apply Qcanon.Qc_is_canon.
    cbn [copp QcK]. unfold over. cbn [Qcanon.this Qcanon.Q2Qc Qcanon.Qcopp]. rewrite !Qreduction.Qred_correct.
    unfold Qeq, Qopp. cbn [Qnum Qden]. ring.
  - split; [exact X1|]. split; [exact X2|]. split; [|split].
    + intros i a Li La. do 2 (destruct i as [|i]; [do 3 (destruct a as [|a]; [vm_compute; reflexivity|]); lia|]). lia.
    + vm_compute. reflexivity.
    + split; [vm_compute; reflexivity|]. split; [vm_compute; reflexivity|].
      intros E. apply (f_equal Qcanon.this) in E. vm_compute in E. discriminate.
Qed.
