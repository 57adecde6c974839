(** Density matrices and derivatives of the energy of unrestricted and
    restricted coupled cluster theory: final statements.  The vocabulary is
    RespSpec.v and URespSpec.v. *)
From Coq Require Import List Bool Arith String ZArith QArith Qcanon Lia Ring Reals Lra.
From Verif Require Import Scalar Tensor PySyntax PySem CCProg CCSpec CCExamples CCShapes SymSound CCEquiv Public CCDeriv SpinSpec CovSpec
  RoundSpec RespSpec URespSpec Resp RespReal URespThm RRespThm URespReal PropertiesResp.
Import ListNotations.
Local Open Scope nat_scope.

(** C94: derivative of the energy of unrestricted coupled cluster theory.  The
    Hamiltonian and the amplitudes depend on t, uccsd_stanton returns zeros for
    all t near t0, and uccsd_lambda_opt returns zeros for Lambda at t0.  Then
    the derivative of t -> ucc_energy at t0 is the contraction of the density
    matrices of the uccsd_1rdm and uccsd_2rdm functions with the derivative of
    the Hamiltonian; the derivatives of the amplitudes do not enter. *)
Theorem C94_unrestricted_energy_derivative noa nva nob nvb t0
    (Fa Fb : R -> one_e RK) (Ia Ib : R -> two_e RK) (J : R -> two_e_full RK) (T1a T1b T2aa T2ab T2bb : R -> tensor RK)
    dFa dFb dIa dIb dJ dT1a dT1b dT2aa dT2ab dT2bb L1a L1b L2aa L2ab L2bb delta M1a M1b M2aa M2ab M2bb :
  (forall t, u_ham_ok noa nva nob nvb (Fa t) (Fb t) (Ia t) (Ib t) (J t)) ->
  (forall t, u_amps_ok noa nva nob nvb (T1a t) (T1b t) (T2aa t) (T2ab t) (T2bb t)) ->
  u_ham_ok noa nva nob nvb dFa dFb dIa dIb dJ ->
  shp dT1a = [nva; noa] -> shp dT1b = [nvb; nob] ->
  shp dT2aa = [nva; nva; noa; noa] -> shp dT2ab = [nva; nvb; noa; nob] -> shp dT2bb = [nvb; nvb; nob; nob] ->
  one_e_derivative t0 Fa dFa -> one_e_derivative t0 Fb dFb -> two_e_derivative t0 Ia dIa -> two_e_derivative t0 Ib dIb ->
  two_e_full_derivative t0 J dJ ->
  array_derivative t0 T1a dT1a -> array_derivative t0 T1b dT1b ->
  array_derivative t0 T2aa dT2aa -> array_derivative t0 T2ab dT2ab -> array_derivative t0 T2bb dT2bb ->
  u_lams_ok noa nva nob nvb L1a L1b L2aa L2ab L2bb ->
  (0 < delta)%R ->
  (forall t, (Rabs (t - t0) < delta)%R -> exists R1a R1b R2aa R2ab R2bb,
     returns (K := RK) "uccsd_stanton"
       [py_one_e (Fa t); py_one_e (Fb t); py_two_e (Ia t); py_two_e (Ib t); py_two_e_full (J t);
        tup [arr (T1a t); arr (T1b t)]; tup [arr (T2aa t); arr (T2ab t); arr (T2bb t)]]
       (tup [tup [arr R1a; arr R1b]; tup [arr R2aa; arr R2ab; arr R2bb]]) /\
     zero_array [nva; noa] R1a /\ zero_array [nvb; nob] R1b /\ zero_array [nva; nva; noa; noa] R2aa /\
     zero_array [nva; nvb; noa; nob] R2ab /\ zero_array [nvb; nvb; nob; nob] R2bb) ->
  returns (K := RK) "uccsd_lambda_opt"
    [py_one_e (Fa t0); py_one_e (Fb t0); py_two_e (Ia t0); py_two_e (Ib t0); py_two_e_full (J t0);
     tup [arr L1a; arr L1b]; tup [arr L2aa; arr L2ab; arr L2bb];
     tup [arr (T1a t0); arr (T1b t0)]; tup [arr (T2aa t0); arr (T2ab t0); arr (T2bb t0)]]
    (tup [tup [arr M1a; arr M1b]; tup [arr M2aa; arr M2ab; arr M2bb]]) ->
  zero_array [noa; nva] M1a -> zero_array [nob; nvb] M1b -> zero_array [noa; noa; nva; nva] M2aa ->
  zero_array [noa; nob; nva; nvb] M2ab -> zero_array [nob; nob; nvb; nvb] M2bb ->
  exists (E : R -> R) P,
    (forall t, returns (K := RK) "ucc_energy" [tup [arr (T1a t); arr (T1b t)]; tup [arr (T2aa t); arr (T2ab t); arr (T2bb t)];
       arr (ov (Fa t)); arr (ov (Fb t)); arr (oovv (Ia t)); arr (oovv (Ib t)); arr (foovv (J t))] (numv (E t : RK))) /\
    (forall f k, In (f, k) u_density_functions -> returns (K := RK) f
      [arr (T1a t0); arr (T1b t0); arr (T2aa t0); arr (T2ab t0); arr (T2bb t0); arr L1a; arr L1b; arr L2aa; arr L2ab; arr L2bb]
      (tup (map (fun i => arr (P f i)) (seq 0 k)))) /\
    derivable_pt_lim E t0 (u_contraction noa nva nob nvb L1a L1b L2aa L2ab L2bb P dFa dFb dIa dIb dJ).
Proof.
  intros HH HT HdH A1 A2 A3 A4 A5 B1 B2 B3 B4 B5 C1 C2 C3 C4 C5 HL.
  exact (u_energy_derivative noa nva nob nvb t0 Fa Fb Ia Ib J T1a T1b T2aa T2ab T2bb dFa dFb dIa dIb dJ dT1a dT1b dT2aa dT2ab dT2bb
    L1a L1b L2aa L2ab L2bb HH HT HdH A1 A2 A3 A4 A5 B1 B2 B3 B4 B5 C1 C2 C3 C4 C5 HL delta M1a M1b M2aa M2ab M2bb).
Qed.
Print Assumptions C94_unrestricted_energy_derivative.

(** C94: the same for closed shells: rccsd_stanton, rccsd_lambda_opt,
    rcc_energy and the rccsd_1rdm and rccsd_2rdm functions. *)
Theorem C94_restricted_energy_derivative no nv t0 (F : R -> one_e RK) (J : R -> two_e_full RK) (T1 T2 : R -> tensor RK)
    dF dJ dT1 dT2 L1 L2 delta M1 M2 :
  (forall t, one_e_ok no nv (F t) /\ two_e_full_ok no nv no nv (J t) /\ pair_sym_full (J t)) ->
  (forall t, shp (T1 t) = [nv; no] /\ shp (T2 t) = [nv; nv; no; no] /\ pair_sym (T2 t)) ->
  one_e_ok no nv dF -> two_e_full_ok no nv no nv dJ -> pair_sym_full dJ -> shp dT1 = [nv; no] -> shp dT2 = [nv; nv; no; no] ->
  one_e_derivative t0 F dF -> two_e_full_derivative t0 J dJ -> array_derivative t0 T1 dT1 -> array_derivative t0 T2 dT2 ->
  shp L1 = [no; nv] -> shp L2 = [no; no; nv; nv] -> pair_sym L2 ->
  (0 < delta)%R ->
  (forall t, (Rabs (t - t0) < delta)%R -> exists R1 R2,
     returns (K := RK) "rccsd_stanton" [py_one_e (F t); py_two_e_full (J t); arr (T1 t); arr (T2 t)] (tup [arr R1; arr R2]) /\
     zero_array [nv; no] R1 /\ zero_array [nv; nv; no; no] R2) ->
  returns (K := RK) "rccsd_lambda_opt" [py_one_e (F t0); py_two_e_full (J t0); arr L1; arr L2; arr (T1 t0); arr (T2 t0)] (tup [arr M1; arr M2]) ->
  zero_array [no; nv] M1 -> zero_array [no; no; nv; nv] M2 ->
  exists (E : R -> R) P,
    (forall t, returns (K := RK) "rcc_energy" [arr (T1 t); arr (T2 t); arr (ov (F t)); arr (foovv (J t))] (numv (E t : RK))) /\
    (forall f, In f r_density_functions -> returns (K := RK) f [arr (T1 t0); arr (T2 t0); arr L1; arr L2] (arr (P f))) /\
    derivable_pt_lim E t0 (r_contraction no nv L1 L2 P dF dJ).
Proof.
  intros HH HT A1 A2 A3 A4 A5 B1 B2 B3 B4 C1 C2 C3.
  exact (r_energy_derivative no nv t0 F J T1 T2 dF dJ dT1 dT2 L1 L2 (fun t => proj1 (HH t)) (fun t => proj1 (proj2 (HH t))) (fun t => proj2 (proj2 (HH t)))
    (fun t => proj1 (HT t)) (fun t => proj1 (proj2 (HT t))) (fun t => proj2 (proj2 (HT t))) A1 A2 A3 A4 A5 B1 B2 B3 B4 C1 C2 C3 delta M1 M2).
Qed.
Print Assumptions C94_restricted_energy_derivative.

(** C94: without the equations being solved, and over any scalars.  For
    arbitrary amplitudes and Lambda, the first order change of
    ucc_energy + <Lambda, uccsd_stanton> under a change of the Hamiltonian and
    of the amplitudes is the contraction of the density matrices with the change
    of the Hamiltonian plus the results of uccsd_lambda_opt times the change of
    the amplitudes: the density functions are the derivative of this sum with
    respect to the Hamiltonian, uccsd_lambda_opt that with respect to the
    amplitudes. *)
Theorem C94_unrestricted_change (K : cring) noa nva nob nvb (Fa dFa Fb dFb : one_e K) (Ia dIa Ib dIb : two_e K) (J dJ : two_e_full K)
    (T1a T1b T2aa T2ab T2bb dT1a dT1b dT2aa dT2ab dT2bb L1a L1b L2aa L2ab L2bb : tensor K) :
  u_ham_ok noa nva nob nvb Fa Fb Ia Ib J -> u_amps_ok noa nva nob nvb T1a T1b T2aa T2ab T2bb ->
  u_lams_ok noa nva nob nvb L1a L1b L2aa L2ab L2bb ->
  u_ham_ok noa nva nob nvb dFa dFb dIa dIb dJ -> u_amps_ok noa nva nob nvb dT1a dT1b dT2aa dT2ab dT2bb ->
  exists (e : DualK K) R1a R1b R2aa R2ab R2bb M1a M1b M2aa M2ab M2bb P,
  returns (K := DualK K) "ucc_energy"
    [tup [arr (perturbed T1a dT1a); arr (perturbed T1b dT1b)];
     tup [arr (perturbed T2aa dT2aa); arr (perturbed T2ab dT2ab); arr (perturbed T2bb dT2bb)];
     arr (perturbed (ov Fa) (ov dFa)); arr (perturbed (ov Fb) (ov dFb)); arr (perturbed (oovv Ia) (oovv dIa));
     arr (perturbed (oovv Ib) (oovv dIb)); arr (perturbed (foovv J) (foovv dJ))] (numv e) /\
  returns (K := DualK K) "uccsd_stanton"
    [py_one_e (perturbed_one_e Fa dFa); py_one_e (perturbed_one_e Fb dFb); py_two_e (perturbed_two_e Ia dIa);
     py_two_e (perturbed_two_e Ib dIb); py_two_e_full (perturbed_two_e_full J dJ);
     tup [arr (perturbed T1a dT1a); arr (perturbed T1b dT1b)];
     tup [arr (perturbed T2aa dT2aa); arr (perturbed T2ab dT2ab); arr (perturbed T2bb dT2bb)]]
    (tup [tup [arr R1a; arr R1b]; tup [arr R2aa; arr R2ab; arr R2bb]]) /\
  returns (K := K) "uccsd_lambda_opt"
    [py_one_e Fa; py_one_e Fb; py_two_e Ia; py_two_e Ib; py_two_e_full J;
     tup [arr L1a; arr L1b]; tup [arr L2aa; arr L2ab; arr L2bb]; tup [arr T1a; arr T1b]; tup [arr T2aa; arr T2ab; arr T2bb]]
    (tup [tup [arr M1a; arr M1b]; tup [arr M2aa; arr M2ab; arr M2bb]]) /\
  (forall f k, In (f, k) u_density_functions -> returns (K := K) f
    [arr T1a; arr T1b; arr T2aa; arr T2ab; arr T2bb; arr L1a; arr L1b; arr L2aa; arr L2ab; arr L2bb]
    (tup (map (fun i => arr (P f i)) (seq 0 k)))) /\
  (snd e + u_pairing noa nva nob nvb L1a L1b L2aa L2ab L2bb
     (tangent_part R1a) (tangent_part R1b) (tangent_part R2aa) (tangent_part R2ab) (tangent_part R2bb) =
   u_contraction noa nva nob nvb L1a L1b L2aa L2ab L2bb P dFa dFb dIa dIb dJ +
   u_pairing noa nva nob nvb M1a M1b M2aa M2ab M2bb dT1a dT1b dT2aa dT2ab dT2bb)%K.
Proof.
  exact (u_change K noa nva nob nvb Fa dFa Fb dFb Ia dIa Ib dIb J dJ T1a T1b T2aa T2ab T2bb dT1a dT1b dT2aa dT2ab dT2bb L1a L1b L2aa L2ab L2bb).
Qed.
Print Assumptions C94_unrestricted_change.

Theorem C94_restricted_change (K : cring) no nv (F dF : one_e K) (J dJ : two_e_full K) (T1 T2 dT1 dT2 L1 L2 : tensor K) :
  one_e_ok no nv F -> two_e_full_ok no nv no nv J -> pair_sym_full J ->
  shp T1 = [nv; no] -> shp T2 = [nv; nv; no; no] -> pair_sym T2 -> shp L1 = [no; nv] -> shp L2 = [no; no; nv; nv] -> pair_sym L2 ->
  one_e_ok no nv dF -> two_e_full_ok no nv no nv dJ -> pair_sym_full dJ ->
  shp dT1 = [nv; no] -> shp dT2 = [nv; nv; no; no] -> pair_sym dT2 ->
  exists (e : DualK K) R1 R2 M1 M2 P,
  returns (K := DualK K) "rcc_energy" [arr (perturbed T1 dT1); arr (perturbed T2 dT2); arr (perturbed (ov F) (ov dF)); arr (perturbed (foovv J) (foovv dJ))] (numv e) /\
  returns (K := DualK K) "rccsd_stanton" [py_one_e (perturbed_one_e F dF); py_two_e_full (perturbed_two_e_full J dJ);
    arr (perturbed T1 dT1); arr (perturbed T2 dT2)] (tup [arr R1; arr R2]) /\
  returns (K := K) "rccsd_lambda_opt" [py_one_e F; py_two_e_full J; arr L1; arr L2; arr T1; arr T2] (tup [arr M1; arr M2]) /\
  (forall f, In f r_density_functions -> returns (K := K) f [arr T1; arr T2; arr L1; arr L2] (arr (P f))) /\
  (snd e + r_pairing no nv L1 L2 (tangent_part R1) (tangent_part R2) =
   r_contraction no nv L1 L2 P dF dJ + r_pairing no nv M1 M2 dT1 dT2)%K.
Proof. exact (r_change K no nv F dF J dJ T1 T2 dT1 dT2 L1 L2). Qed.
Print Assumptions C94_restricted_change.

(** C95: the contraction of the density matrices with the Hamiltonian itself is
    ucc_energy plus Lambda times uccsd_stanton, for arbitrary amplitudes and
    Lambda; in particular it is the energy when the equations are solved. *)
Theorem C95_unrestricted_expectation (K : cring) noa nva nob nvb (Fa Fb : one_e K) (Ia Ib : two_e K) (J : two_e_full K)
    (T1a T1b T2aa T2ab T2bb L1a L1b L2aa L2ab L2bb : tensor K) :
  u_ham_ok noa nva nob nvb Fa Fb Ia Ib J -> u_amps_ok noa nva nob nvb T1a T1b T2aa T2ab T2bb ->
  u_lams_ok noa nva nob nvb L1a L1b L2aa L2ab L2bb ->
  exists (e : K) R1a R1b R2aa R2ab R2bb P,
  returns "ucc_energy" [tup [arr T1a; arr T1b]; tup [arr T2aa; arr T2ab; arr T2bb]; arr (ov Fa); arr (ov Fb); arr (oovv Ia); arr (oovv Ib); arr (foovv J)] (numv e) /\
  returns "uccsd_stanton"
    [py_one_e Fa; py_one_e Fb; py_two_e Ia; py_two_e Ib; py_two_e_full J; tup [arr T1a; arr T1b]; tup [arr T2aa; arr T2ab; arr T2bb]]
    (tup [tup [arr R1a; arr R1b]; tup [arr R2aa; arr R2ab; arr R2bb]]) /\
  (forall f k, In (f, k) u_density_functions -> returns f
    [arr T1a; arr T1b; arr T2aa; arr T2ab; arr T2bb; arr L1a; arr L1b; arr L2aa; arr L2ab; arr L2bb]
    (tup (map (fun i => arr (P f i)) (seq 0 k)))) /\
  u_contraction noa nva nob nvb L1a L1b L2aa L2ab L2bb P Fa Fb Ia Ib J =
  (e + u_pairing noa nva nob nvb L1a L1b L2aa L2ab L2bb R1a R1b R2aa R2ab R2bb)%K.
Proof.
  intros HH HT HL. destruct (u_lagrangian K noa nva nob nvb Fa Fb Ia Ib J T1a T1b T2aa T2ab T2bb L1a L1b L2aa L2ab L2bb HH HT HL)
    as (e & R1 & R2 & R3 & R4 & R5 & P & A & B & C & D). exists e, R1, R2, R3, R4, R5, P. repeat (split; [assumption|]). symmetry. exact D.
Qed.
Print Assumptions C95_unrestricted_expectation.

Theorem C95_restricted_expectation (K : cring) no nv (F : one_e K) (J : two_e_full K) (T1 T2 L1 L2 : tensor K) :
  one_e_ok no nv F -> two_e_full_ok no nv no nv J -> pair_sym_full J ->
  shp T1 = [nv; no] -> shp T2 = [nv; nv; no; no] -> pair_sym T2 -> shp L1 = [no; nv] -> shp L2 = [no; no; nv; nv] -> pair_sym L2 ->
  exists (e : K) R1 R2 P,
  returns "rcc_energy" [arr T1; arr T2; arr (ov F); arr (foovv J)] (numv e) /\
  returns "rccsd_stanton" [py_one_e F; py_two_e_full J; arr T1; arr T2] (tup [arr R1; arr R2]) /\
  (forall f, In f r_density_functions -> returns f [arr T1; arr T2; arr L1; arr L2] (arr (P f))) /\
  r_contraction no nv L1 L2 P F J = (e + r_pairing no nv L1 L2 R1 R2)%K.
Proof.
  intros A1 A2 A3 A4 A5 A6 A7 A8 A9.
  destruct (r_lagrangian K no nv F J T1 T2 L1 L2 A1 A2 A3 A4 A5 A6 A7 A8 A9) as (e & R1 & R2 & P & A & B & C & D).
  exists e, R1, R2, P. repeat (split; [assumption|]). symmetry. exact D.
Qed.
Print Assumptions C95_restricted_expectation.

(** *** Examples: one occupied and one virtual orbital, the Hamiltonian of
    C92_example for both spins; the energy is 2 t^2 *)
Definition exJ {K : cring} : two_e_full K := let z := const_t [1; 1; 1; 1] c0 in TwoEF K z z z z z z z z z z z z z z z z.
Lemma exJ_ok (K : cring) : two_e_full_ok (K := K) 1 1 1 1 exJ.
Proof. repeat split. Qed.
Lemma exJ_sym (K : cring) : pair_sym_full (K := K) exJ.
Proof. repeat split. Qed.
Notation "'t1_' x" := (const_t (K := RK) [1; 1] x%R) (at level 8, x at level 0).
Notation "'t2_' x" := (const_t (K := RK) [1; 1; 1; 1] x%R) (at level 8, x at level 0).
Notation exFt t := (exF (K := RK) t%R (t * t * t - t)%R 1%R).

Ltac rf := first [ring | field; try (intros X; apply (IZR_neq 2 0) in X; [exact X|discriminate])].
Lemma one_zero2 (A : tensor RK) : shp A = [1; 1] -> dat A [0; 0] = (0%R : RK) -> zero_array [1; 1] A.
Proof. intros S E. split; [exact S|]. apply in_ones; [exact E|repeat constructor]. Qed.
Lemma one_zero4 (A : tensor RK) : shp A = [1; 1; 1; 1] -> dat A [0; 0; 0; 0] = (0%R : RK) -> zero_array [1; 1; 1; 1] A.
Proof. intros S E. split; [exact S|]. apply in_ones; [exact E|repeat constructor]. Qed.

Lemma exF_derivative : one_e_derivative 1%R (fun t => exFt t) (exF (K := RK) 1%R 2%R 0%R).
Proof.
  repeat split; intros idx Hi; cbn.
  - apply derivable_pt_lim_const.
  - apply derivable_pt_lim_id.
  - replace 2%R with (((1 * 1 + 1 * 1) * 1 + (1 * 1) * 1) - 1)%R by ring.
    apply (derivable_pt_lim_minus (fun t => (t * t * t)%R) (fun t => t)); [|apply derivable_pt_lim_id].
    apply (derivable_pt_lim_mult (fun t => (t * t)%R) (fun t => t)); [|apply derivable_pt_lim_id].
    apply (derivable_pt_lim_mult (fun t => t) (fun t => t)); apply derivable_pt_lim_id.
  - apply derivable_pt_lim_const.
Qed.
Lemma exJ_derivative : two_e_full_derivative 1%R (fun _ => @exJ RK) exJ.
Proof. repeat constructor; intros idx Hi; apply derivable_pt_lim_const. Qed.
Lemma exI_derivative : two_e_derivative 1%R (fun _ => @exI RK) exI.
Proof. repeat constructor; intros idx Hi; apply derivable_pt_lim_const. Qed.

Lemma r_ex_solved t : exists R1 R2,
  returns (K := RK) "rccsd_stanton" [py_one_e (exFt t); py_two_e_full (@exJ RK); arr (t1_ t); arr (t2_ 0)] (tup [arr R1; arr R2]) /\
  zero_array [1; 1] R1 /\ zero_array [1; 1; 1; 1] R2.
Proof.
  destruct (public_ok RK one_s "rccsd_stanton"%string [F_; Ir_; T1_; T2_] (STup [T1_; T2_])
    [py_one_e (exFt t); py_two_e_full (@exJ RK); arr (t1_ t); arr (t2_ 0)]) as (v & RV & FV); [find_in| |].
  { repeat (constructor; try reflexivity). }
  inversion FV as [| |vs l FV'|]; subst. inversion FV' as [|a ? b ? A1 A2]; subst. inversion A2 as [|a' ? b' ? A3 A4]; subst. inversion A4; subst.
  inversion A1 as [|R1 l1 S1| |]; subst. inversion A3 as [|R2 l2 S2| |]; subst.
  exists R1, R2. split; [exact RV|]. split.
  - apply one_zero2; [exact S1|].
    assert (E : Some (dat R1 [0; 0]) = Some (c0 : RK)) by (rewrite <- (entry_at_1 _ _ _ _ [0; 0] RV); vm_compute; f_equal; rf).
    injection E as E. exact E.
  - apply one_zero4; [exact S2|].
    assert (E : Some (dat R2 [0; 0; 0; 0]) = Some (c0 : RK)) by (rewrite <- (entry_at_2 _ _ _ _ [0; 0; 0; 0] RV); vm_compute; f_equal; rf).
    injection E as E. exact E.
Qed.
Lemma r_ex_lambda : exists M1 M2,
  returns (K := RK) "rccsd_lambda_opt" [py_one_e (exFt 1%R); py_two_e_full (@exJ RK); arr (t1_ 1); arr (t2_ 1); arr (t1_ 1); arr (t2_ 0)]
    (tup [arr M1; arr M2]) /\ zero_array [1; 1] M1 /\ zero_array [1; 1; 1; 1] M2.
Proof.
  destruct (public_ok RK one_s "rccsd_lambda_opt"%string [F_; Ir_; L1_; L2_; T1_; T2_] (STup [L1_; L2_])
    [py_one_e (exFt 1%R); py_two_e_full (@exJ RK); arr (t1_ 1); arr (t2_ 1); arr (t1_ 1); arr (t2_ 0)]) as (v & RV & FV); [find_in| |].
  { repeat (constructor; try reflexivity). }
  inversion FV as [| |vs l FV'|]; subst. inversion FV' as [|a ? b ? A1 A2]; subst. inversion A2 as [|a' ? b' ? A3 A4]; subst. inversion A4; subst.
  inversion A1 as [|R1 l1 S1| |]; subst. inversion A3 as [|R2 l2 S2| |]; subst.
  exists R1, R2. split; [exact RV|]. split.
  - apply one_zero2; [exact S1|].
    assert (E : Some (dat R1 [0; 0]) = Some (c0 : RK)) by (rewrite <- (entry_at_1 _ _ _ _ [0; 0] RV); vm_compute; f_equal; rf).
    injection E as E. exact E.
  - apply one_zero4; [exact S2|].
    assert (E : Some (dat R2 [0; 0; 0; 0]) = Some (c0 : RK)) by (rewrite <- (entry_at_2 _ _ _ _ [0; 0; 0; 0] RV); vm_compute; f_equal; rf).
    injection E as E. exact E.
Qed.

(** the theorem applies, and gives the derivative 4 *)
Example C94_restricted_example : exists E : R -> R,
  (forall t, returns (K := RK) "rcc_energy" [arr (t1_ t); arr (t2_ 0); arr (t1_ t); arr (t2_ 0)] (numv (E t : RK))) /\
  derivable_pt_lim E 1%R 4%R.
Proof.
  destruct r_ex_lambda as (M1 & M2 & RM & Y1 & Y2).
  destruct (C94_restricted_energy_derivative 1 1 1%R (fun t => exFt t) (fun _ => exJ) (fun t => t1_ t) (fun _ => t2_ 0)
    (exF (K := RK) 1%R 2%R 0%R) exJ (t1_ 1) (t2_ 0) (t1_ 1) (t2_ 1) 1%R M1 M2) as (E & P & HE & HP & HD).
  - intros t. split; [apply exF_ok|]. split; [apply exJ_ok|apply exJ_sym].
  - intros t. repeat split.
  - apply exF_ok.
  - apply exJ_ok.
  - apply exJ_sym.
  - reflexivity.
  - reflexivity.
  - exact exF_derivative.
  - exact exJ_derivative.
  - intros idx Hi. apply derivable_pt_lim_id.
  - intros idx Hi. apply derivable_pt_lim_const.
  - reflexivity.
  - reflexivity.
  - repeat split.
  - exact Rlt_0_1.
  - intros t _. exact (r_ex_solved t).
  - exact RM.
  - exact Y1.
  - exact Y2.
  - exists E. split; [exact HE|].
    assert (X : (r_contraction 1 1 (t1_ 1) (t2_ 1) P (exF (K := RK) 1%R 2%R 0%R) exJ : R) = 4%R); [|rewrite <- X; exact HD].
    assert (A : dat (P "rccsd_1rdm_ai"%string) [0; 0] = 0%R).
    { pose proof (HP "rccsd_1rdm_ai"%string ltac:(right; right; left; reflexivity)) as (a & R & _).
      assert (Q : Some (dat (P "rccsd_1rdm_ai"%string) [0; 0]) = Some (c0 : RK)).
      { transitivity (entry_at (K := RK) "rccsd_1rdm_ai"%string [arr (t1_ 1); arr (t2_ 0); arr (t1_ 1); arr (t2_ 1)] 0 [0; 0]).
        - unfold entry_at. rewrite R. reflexivity.
        - clear. vm_compute. f_equal. rf. }
      injection Q as Q. exact Q. }
    unfold r_contraction, closed4, twice, dot2, dot4, swap_ket, swap.
    cbn [sumN exF exJ const_t dat oo ov vo vv fvvvv fvvvo fvvov fvovv fovvv fvvoo fvovo fvoov fovvo fovov foovv fooov foovo fovoo fvooo foooo].
    rewrite A. cbn. ring.
Qed.

(** two spins *)
Definition entry_in {K : cring} (f : string) (args : list (pyval K)) (j k : nat) (idx : list nat) : option K :=
  match pycall (conc_alg K) cc_prog f args with
  | Ok (XTup l, _) => match nth_error l j with Some (XTup m) => match nth_error m k with Some (XArr t) => Some (dat t idx) | _ => None end | _ => None end
  | _ => None
  end.
Lemma entry_in_eq {K : cring} f args (A B C D E : tensor K) j k idx : returns f args (tup [tup [arr A; arr B]; tup [arr C; arr D; arr E]]) ->
  entry_in f args j k idx = match nth_error [tup [arr A; arr B]; tup [arr C; arr D; arr E]] j with
    Some (XTup m) => match nth_error m k with Some (XArr t) => Some (dat t idx) | _ => None end | _ => None end.
Proof. intros (a & R & _). unfold entry_in. rewrite R. reflexivity. Qed.

Notation u_ham t := [py_one_e (exFt t); py_one_e (exFt t); py_two_e (@exI RK); py_two_e (@exI RK); py_two_e_full (@exJ RK)].
Notation u_lam := [tup [arr (t1_ 1); arr (t1_ 1)]; tup [arr (t2_ 0); arr (t2_ 1); arr (t2_ 0)]].
Notation u_amp x := [tup [arr (t1_ x); arr (t1_ x)]; tup [arr (t2_ 0); arr (t2_ 0); arr (t2_ 0)]].

Ltac five FV RV :=
  let H := fresh in
  inversion FV as [| |vs l FV'|]; subst; inversion FV' as [|a ? b ? A1 A2]; subst; inversion A2 as [|a' ? b' ? A3 A4]; subst; inversion A4; subst;
  inversion A1 as [| |vs1 l1 B1|]; subst; inversion B1 as [|c1 ? d1 ? C1 C2]; subst; inversion C2 as [|c2 ? d2 ? C3 C4]; subst; inversion C4; subst;
  inversion A3 as [| |vs2 l2 B2|]; subst; inversion B2 as [|c3 ? d3 ? C5 C6]; subst; inversion C6 as [|c4 ? d4 ? C7 C8]; subst; inversion C8 as [|c5 ? d5 ? C9 C10]; subst; inversion C10; subst;
  inversion C1 as [|R1 ? S1| |]; subst; inversion C3 as [|R2 ? S2| |]; subst; inversion C5 as [|R3 ? S3| |]; subst; inversion C7 as [|R4 ? S4| |]; subst; inversion C9 as [|R5 ? S5| |]; subst;
  exists R1, R2, R3, R4, R5; split; [exact RV|].
Ltac entry RV j k i :=
  match goal with |- dat ?A _ = _ =>
    let E := fresh in
    assert (E : Some (dat A i) = Some (c0 : RK)) by (pose proof (entry_in_eq _ _ _ _ _ _ _ j k i RV) as X; cbn [nth_error tup arr] in X; rewrite <- X; clear; vm_compute; f_equal; rf);
    injection E as E; exact E end.

Lemma u_ex_solved t : exists R1a R1b R2aa R2ab R2bb,
  returns (K := RK) "uccsd_stanton" (u_ham t ++ u_amp t)%list (tup [tup [arr R1a; arr R1b]; tup [arr R2aa; arr R2ab; arr R2bb]]) /\
  zero_array [1; 1] R1a /\ zero_array [1; 1] R1b /\ zero_array [1; 1; 1; 1] R2aa /\ zero_array [1; 1; 1; 1] R2ab /\ zero_array [1; 1; 1; 1] R2bb.
Proof.
  destruct (public_ok RK one_s "uccsd_stanton"%string [F_; Fb_; I_; Ib_; Iab_; uT1; uT2] (STup [uT1; uT2]) (u_ham t ++ u_amp t)%list) as (v & RV & FV); [find_in| |].
  { repeat (constructor; try reflexivity). }
  five FV RV. split; [|split; [|split; [|split]]].
  - apply one_zero2; [exact S1|]. entry RV 0 0 [0; 0].
  - apply one_zero2; [exact S2|]. entry RV 0 1 [0; 0].
  - apply one_zero4; [exact S3|]. entry RV 1 0 [0; 0; 0; 0].
  - apply one_zero4; [exact S4|]. entry RV 1 1 [0; 0; 0; 0].
  - apply one_zero4; [exact S5|]. entry RV 1 2 [0; 0; 0; 0].
Qed.
Lemma u_ex_lambda : exists M1a M1b M2aa M2ab M2bb,
  returns (K := RK) "uccsd_lambda_opt" (u_ham 1%R ++ u_lam ++ u_amp 1)%list (tup [tup [arr M1a; arr M1b]; tup [arr M2aa; arr M2ab; arr M2bb]]) /\
  zero_array [1; 1] M1a /\ zero_array [1; 1] M1b /\ zero_array [1; 1; 1; 1] M2aa /\ zero_array [1; 1; 1; 1] M2ab /\ zero_array [1; 1; 1; 1] M2bb.
Proof.
  destruct (public_ok RK one_s "uccsd_lambda_opt"%string [F_; Fb_; I_; Ib_; Iab_; uL1; uL2; uT1; uT2] (STup [uL1; uL2])
    (u_ham 1%R ++ u_lam ++ u_amp 1)%list) as (v & RV & FV); [find_in| |].
  { repeat (constructor; try reflexivity). }
  five FV RV. split; [|split; [|split; [|split]]].
  - apply one_zero2; [exact S1|]. entry RV 0 0 [0; 0].
  - apply one_zero2; [exact S2|]. entry RV 0 1 [0; 0].
  - apply one_zero4; [exact S3|]. entry RV 1 0 [0; 0; 0; 0].
  - apply one_zero4; [exact S4|]. entry RV 1 1 [0; 0; 0; 0].
  - apply one_zero4; [exact S5|]. entry RV 1 2 [0; 0; 0; 0].
Qed.

Example C94_unrestricted_example : exists E : R -> R,
  (forall t, returns (K := RK) "ucc_energy" (u_amp t ++ [arr (t1_ t); arr (t1_ t); arr (t2_ 0); arr (t2_ 0); arr (t2_ 0)])%list (numv (E t : RK))) /\
  derivable_pt_lim E 1%R 4%R.
Proof.
  assert (ZA : forall x : R, t2_ok (K := RK) 1 1 (t2_ 0)) by (intros _; split; [reflexivity|exact (zero_anti RK)]).
  assert (HH : forall F, one_e_ok (K := RK) 1 1 F -> u_ham_ok (K := RK) 1 1 1 1 F F exI exI exJ).
  { intros F HF. split; [exact HF|]. split; [exact HF|]. split; [apply exI_ok|]. split; [apply exI_ok|apply exJ_ok]. }
  destruct u_ex_lambda as (M1 & M2 & M3 & M4 & M5 & RM & Y1 & Y2 & Y3 & Y4 & Y5).
  destruct (C94_unrestricted_energy_derivative 1 1 1 1 1%R (fun t => exFt t) (fun t => exFt t) (fun _ => exI) (fun _ => exI) (fun _ => exJ)
    (fun t => t1_ t) (fun t => t1_ t) (fun _ => t2_ 0) (fun _ => t2_ 0) (fun _ => t2_ 0)
    (exF (K := RK) 1%R 2%R 0%R) (exF (K := RK) 1%R 2%R 0%R) exI exI exJ (t1_ 1) (t1_ 1) (t2_ 0) (t2_ 0) (t2_ 0)
    (t1_ 1) (t1_ 1) (t2_ 0) (t2_ 1) (t2_ 0) 1%R M1 M2 M3 M4 M5) as (E & P & HE & HP & HD); try assumption; try reflexivity.
  - intros t. apply HH. apply exF_ok.
  - intros t. split; [reflexivity|]. split; [reflexivity|]. split; [exact (ZA 0%R)|]. split; [reflexivity|exact (ZA 0%R)].
  - apply HH. apply exF_ok.
  - exact exF_derivative.
  - exact exF_derivative.
  - exact exI_derivative.
  - exact exI_derivative.
  - exact exJ_derivative.
  - intros idx Hi. apply derivable_pt_lim_id.
  - intros idx Hi. apply derivable_pt_lim_id.
  - intros idx Hi. apply derivable_pt_lim_const.
  - intros idx Hi. apply derivable_pt_lim_const.
  - intros idx Hi. apply derivable_pt_lim_const.
  - split; [reflexivity|]. split; [reflexivity|]. split; [exact (ZA 0%R)|]. split; [reflexivity|exact (ZA 0%R)].
  - exact Rlt_0_1.
  - intros t _. exact (u_ex_solved t).
  - exists E. split; [exact HE|].
    assert (X : (u_contraction 1 1 1 1 (t1_ 1) (t1_ 1) (t2_ 0) (t2_ 1) (t2_ 0) P (exF (K := RK) 1%R 2%R 0%R) (exF (K := RK) 1%R 2%R 0%R) exI exI exJ : R) = 4%R);
      [|rewrite <- X; exact HD].
    assert (A : dat (P "uccsd_1rdm_ai"%string 0) [0; 0] = 0%R /\ dat (P "uccsd_1rdm_ai"%string 1) [0; 0] = 0%R).
    { pose proof (HP "uccsd_1rdm_ai"%string 2 ltac:(right; right; left; reflexivity)) as (a & R & _).
      enough (Q : forall k, k < 2 -> Some (dat (P "uccsd_1rdm_ai"%string k) [0; 0]) = Some (c0 : RK)).
      { split; [specialize (Q 0 ltac:(lia))|specialize (Q 1 ltac:(lia))]; injection Q as Q; exact Q. }
      intros k Hk.
      transitivity (entry_at (K := RK) "uccsd_1rdm_ai"%string [arr (t1_ 1); arr (t1_ 1); arr (t2_ 0); arr (t2_ 0); arr (t2_ 0);
        arr (t1_ 1); arr (t1_ 1); arr (t2_ 0); arr (t2_ 1); arr (t2_ 0)] k [0; 0]).
      - unfold entry_at. rewrite R. destruct k as [|[|]]; [reflexivity|reflexivity|lia].
      - clear - Hk. destruct k as [|[|]]; [| |lia]; clear; vm_compute; f_equal; rf. }
    destruct A as [A B]. unfold u_contraction, mixed_contraction, contraction, dot2, dot4, swap_both, swap_ket, swap_bra, tneg, swap.
    cbn [sumN exF exI exJ const_t dat oo ov vo vv vvvv vvvo vovv vvoo vovo oovv vooo ooov oooo append
         fvvvv fvvvo fvvov fvovv fovvv fvvoo fvovo fvoov fovvo fovov foovv fooov foovo fovoo fvooo foooo].
    rewrite A, B. cbn. ring.
Qed.

(** the hypotheses of the theorems about arbitrary amplitudes: the same arrays *)
Example C95_example : u_ham_ok (K := QcK) 1 1 1 1 (exF c1 c1 c1) (exF c1 c1 c1) exI exI exJ /\
  u_amps_ok (K := QcK) 1 1 1 1 (const_t [1; 1] c1) (const_t [1; 1] c1) (const_t [1; 1; 1; 1] c0) (const_t [1; 1; 1; 1] c1) (const_t [1; 1; 1; 1] c0) /\
  u_lams_ok (K := QcK) 1 1 1 1 (const_t [1; 1] c1) (const_t [1; 1] c1) (const_t [1; 1; 1; 1] c0) (const_t [1; 1; 1; 1] c1) (const_t [1; 1; 1; 1] c0) /\
  one_e_ok (K := QcK) 1 1 (exF c1 c1 c1) /\ two_e_full_ok (K := QcK) 1 1 1 1 exJ /\ pair_sym_full (K := QcK) exJ /\ pair_sym (K := QcK) (const_t [1; 1; 1; 1] c1).
Proof.
  split; [|split; [|split; [|split; [|split; [|split]]]]].
  - split; [apply exF_ok|]. split; [apply exF_ok|]. split; [apply exI_ok|]. split; [apply exI_ok|apply exJ_ok].
  - split; [reflexivity|]. split; [reflexivity|]. split; [split; [reflexivity|exact (zero_anti QcK)]|]. split; [reflexivity|split; [reflexivity|exact (zero_anti QcK)]].
  - split; [reflexivity|]. split; [reflexivity|]. split; [split; [reflexivity|exact (zero_anti QcK)]|]. split; [reflexivity|split; [reflexivity|exact (zero_anti QcK)]].
  - apply exF_ok.
  - apply exJ_ok.
  - apply exJ_sym.
  - repeat split.
Qed.
