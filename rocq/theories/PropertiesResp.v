(** Derivatives of the coupled cluster energy and of the results of the public
    functions of cc_equations.py and cc_energy.py: final statements.  The
    vocabulary is RespSpec.v. *)
From Coq Require Import List Bool Arith String ZArith QArith Qcanon Lia Ring Reals Lra.
From Verif Require Import Scalar Tensor PySyntax PySem CCProg CCSpec CCExamples CCShapes SymSound CCEquiv Public CCDeriv CovSpec RoundSpec RespSpec Resp RespReal.
Import ListNotations.
Local Open Scope nat_scope.

(** C92: if the coupled cluster equations hold to first order in eps for the
    Hamiltonian F + eps dF, I + eps dI and the amplitudes T + eps dT, and Lambda
    solves the Lambda equations for eps = 0, then the first order change of
    cc_energy is the contraction of the density matrices with dF and dI;
    dT does not enter. *)
Theorem C92_first_order_energy (K : cring) no nv F dF I dI T1 dT1 T2 dT2 L1 L2 f fl S1 S2 M1 M2 :
  one_e_ok no nv F -> two_e_ok no nv I -> two_e_ok no nv dI ->
  t1_ok no nv T1 -> t1_ok no nv dT1 -> t2_ok no nv T2 -> t2_ok no nv dT2 -> l1_ok no nv L1 -> l2_ok no nv L2 ->
  In f ["ccsd_simple"; "ccsd_stanton"]%string ->
  In fl ["ccsd_lambda_simple"; "ccsd_lambda_opt"; "ccsd_lambda_stanton"]%string ->
  returns (K := DualK K) f [py_one_e (perturbed_one_e F dF); py_two_e (perturbed_two_e I dI);
    arr (perturbed T1 dT1); arr (perturbed T2 dT2)] (tup [arr S1; arr S2]) ->
  zero_array [nv; no] S1 -> zero_array [nv; nv; no; no] S2 ->
  returns (K := K) fl [py_one_e F; py_two_e I; arr L1; arr L2; arr T1; arr T2] (tup [arr M1; arr M2]) ->
  zero_array [no; nv] M1 -> zero_array [no; no; nv; nv] M2 ->
  exists (e : DualK K) P,
    returns (K := DualK K) "cc_energy" [arr (perturbed T1 dT1); arr (perturbed T2 dT2);
      arr (perturbed (ov F) (ov dF)); arr (perturbed (oovv I) (oovv dI))] (numv e) /\
    (forall g, In g density_functions -> returns (K := K) g [arr T1; arr T2; arr L1; arr L2] (arr (P g))) /\
    snd e = contraction no nv L1 L2 P dF dI.
Proof.
  intros HF HI HdI H1 Hd1 H2 Hd2 HL1 HL2.
  exact (response_any K no nv F dF I dI T1 dT1 T2 dT2 L1 L2 HF HI HdI H1 Hd1 H2 Hd2 HL1 HL2 f fl S1 S2 M1 M2).
Qed.
Print Assumptions C92_first_order_energy.

(** C92: the same over the real numbers.  F, I, T1 and T2 depend on t, the
    coupled cluster equations hold for all t near t0, and Lambda solves the
    Lambda equations at t0: then the derivative of t -> cc_energy at t0 is the
    contraction of the density matrices at t0 with the derivative of the
    Hamiltonian. *)
Theorem C92_energy_derivative no nv t0 (F : R -> one_e RK) (I : R -> two_e RK) (T1 T2 : R -> tensor RK)
    dF dI dT1 dT2 L1 L2 f fl delta M1 M2 :
  (forall t, one_e_ok no nv (F t) /\ two_e_ok no nv (I t) /\ t1_ok no nv (T1 t) /\ t2_ok no nv (T2 t)) ->
  one_e_ok no nv dF -> two_e_ok no nv dI -> t1_ok no nv dT1 -> shp dT2 = [nv; nv; no; no] ->
  one_e_derivative t0 F dF -> two_e_derivative t0 I dI -> array_derivative t0 T1 dT1 -> array_derivative t0 T2 dT2 ->
  l1_ok no nv L1 -> l2_ok no nv L2 ->
  In f ["ccsd_simple"; "ccsd_stanton"]%string ->
  In fl ["ccsd_lambda_simple"; "ccsd_lambda_opt"; "ccsd_lambda_stanton"]%string ->
  (0 < delta)%R ->
  (forall t, (Rabs (t - t0) < delta)%R -> exists R1 R2,
     returns (K := RK) f [py_one_e (F t); py_two_e (I t); arr (T1 t); arr (T2 t)] (tup [arr R1; arr R2]) /\
     zero_array [nv; no] R1 /\ zero_array [nv; nv; no; no] R2) ->
  returns (K := RK) fl [py_one_e (F t0); py_two_e (I t0); arr L1; arr L2; arr (T1 t0); arr (T2 t0)] (tup [arr M1; arr M2]) ->
  zero_array [no; nv] M1 -> zero_array [no; no; nv; nv] M2 ->
  exists (E : R -> R) P,
    (forall t, returns (K := RK) "cc_energy" [arr (T1 t); arr (T2 t); arr (ov (F t)); arr (oovv (I t))] (numv (E t : RK))) /\
    (forall g, In g density_functions -> returns (K := RK) g [arr (T1 t0); arr (T2 t0); arr L1; arr L2] (arr (P g))) /\
    derivable_pt_lim E t0 (contraction no nv L1 L2 P dF dI).
Proof.
  intros H OF OI O1 O2 DF DI D1 D2 HL1 HL2.
  exact (energy_derivative no nv t0 F I T1 T2 dF dI dT1 dT2 (fun t => proj1 (H t)) (fun t => proj1 (proj2 (H t)))
    (fun t => proj1 (proj2 (proj2 (H t)))) (fun t => proj2 (proj2 (proj2 (H t)))) OF OI O1 O2 DF DI D1 D2 L1 L2 HL1 HL2 f fl delta M1 M2).
Qed.
Print Assumptions C92_energy_derivative.

(** C93: every public function is differentiable.  Arguments that depend on a
    real parameter t and whose entries have derivatives at t0 give results whose
    entries have derivatives at t0, and these are what the same function returns
    for the arguments (value, derivative) over the dual numbers. *)
Theorem C93_differentiable n t0 f a r (xs : list (pyval FunK)) (ds : list (pyval (DualK RK))) :
  In (f, a, r) public_functions -> related_args (tangent_value n t0) a xs ds ->
  exists x d, returns (K := DualK RK) f ds d /\ tangent_value n t0 r x d /\
    forall t vs, related_args (mapped n (at_t t)) a xs vs ->
      exists v, returns (K := RK) f vs v /\ mapped n (at_t t) r x v.
Proof. exact (differentiate t0 n f a r xs ds). Qed.
Print Assumptions C93_differentiable.

(** *** An example: one occupied and one virtual orbital, F_ov = t, F_vo = t^3 - t,
    e_v - e_o = 1, T1 = t, at t0 = 1; Lambda = 1.  The energy is t^2. *)
Definition const_t {K : cring} (sh : list nat) (x : K) : tensor K := mkT sh (fun _ => x).
Definition exF {K : cring} (ov_ vo_ vv_ : K) : one_e K :=
  OneE K (const_t [1; 1] c0) (const_t [1; 1] ov_) (const_t [1; 1] vo_) (const_t [1; 1] vv_).
Definition exI {K : cring} : two_e K := let z := const_t [1; 1; 1; 1] c0 in TwoE K z z z z z z z z z.
Definition entry_at {K : cring} (f : string) (args : list (pyval K)) (k : nat) (idx : list nat) : option K :=
  match pycall (conc_alg K) cc_prog f args with
  | Ok (XTup l, _) => match nth_error l k with Some (XArr t) => Some (dat t idx) | _ => None end
  | Ok (XArr t, _) => Some (dat t idx)
  | _ => None
  end.
Lemma entry_at_1 {K : cring} f args (A B : tensor K) idx : returns f args (tup [arr A; arr B]) -> entry_at f args 0 idx = Some (dat A idx).
Proof. intros (a & E & _). unfold entry_at. rewrite E. reflexivity. Qed.
Lemma entry_at_2 {K : cring} f args (A B : tensor K) idx : returns f args (tup [arr A; arr B]) -> entry_at f args 1 idx = Some (dat B idx).
Proof. intros (a & E & _). unfold entry_at. rewrite E. reflexivity. Qed.

Definition one_s (_ : space) : nat := 1.
Ltac find_in := match goal with |- In _ ?l => let l' := eval hnf in l in change l with l'; repeat first [left; reflexivity | right] end.
Lemma exF_ok (K : cring) (x y z : K) : one_e_ok 1 1 (exF x y z).
Proof. repeat split. Qed.
Section ZeroOpp.
  Variable K : cring.
  Add Ring Kr_pr : (c_th K).
  Lemma zero_anti : antisym_lead (const_t [1; 1; 1; 1] (c0 : K)) /\ antisym_tail (const_t [1; 1; 1; 1] (c0 : K)).
  Proof. split; intros i j k l _; cbn; ring. Qed.
End ZeroOpp.
Lemma exI_ok (K : cring) : two_e_ok (K := K) 1 1 exI.
Proof. destruct (zero_anti K) as (A & B). repeat split; assumption. Qed.

Notation ham t := [py_one_e (exF (K := RK) t (t * t * t - t)%R 1%R); py_two_e (@exI RK)].
Notation amps t := [arr (const_t (K := RK) [1; 1] t); arr (const_t (K := RK) [1; 1; 1; 1] 0%R)].

Lemma in_ones sh (P : list nat -> Prop) : P (map (fun _ => 0) sh) -> Forall (eq 1) sh -> forall idx, inrange sh idx -> P idx.
Proof.
  intros H HS idx Hi. enough (idx = map (fun _ => 0) sh) as -> by exact H. clear H.
  revert idx Hi. induction HS as [|x sh <- HS IH]; intros idx Hi; inversion Hi as [|i ? is ? A B]; subst; [reflexivity|].
  cbn [map]. f_equal; [lia|apply IH; exact B].
Qed.

Lemma ex_solved t : exists R1 R2,
  returns (K := RK) "ccsd_simple" (ham t ++ amps t)%list (tup [arr R1; arr R2]) /\ zero_array [1; 1] R1 /\ zero_array [1; 1; 1; 1] R2.
Proof.
  destruct (public_ok RK one_s "ccsd_simple"%string [F_; I_; T1_; T2_] (STup [T1_; T2_]) (ham t ++ amps t)%list) as (v & RV & FV); [find_in| |].
  { repeat (constructor; try reflexivity). }
  inversion FV as [| |vs l FV'|]; subst. inversion FV' as [|a ? b ? A1 A2]; subst. inversion A2 as [|a' ? b' ? A3 A4]; subst. inversion A4; subst.
  inversion A1 as [|R1 l1 S1| |]; subst. inversion A3 as [|R2 l2 S2| |]; subst.
  exists R1, R2. split; [exact RV|]. split; (split; [assumption|]).
  - apply in_ones; [|repeat constructor]. cbn [map].
    assert (E : Some (dat R1 [0; 0]) = Some (c0 : RK)) by (rewrite <- (entry_at_1 _ _ _ _ [0; 0] RV); vm_compute; f_equal; ring).
    injection E as E. exact E.
  - apply in_ones; [|repeat constructor]. cbn [map].
    assert (E : Some (dat R2 [0; 0; 0; 0]) = Some (c0 : RK)) by (rewrite <- (entry_at_2 _ _ _ _ [0; 0; 0; 0] RV); vm_compute; f_equal; ring).
    injection E as E. exact E.
Qed.
Lemma ex_lambda : exists M1 M2,
  returns (K := RK) "ccsd_lambda_simple" (ham 1%R ++ [arr (const_t (K := RK) [1; 1] 1%R); arr (const_t (K := RK) [1; 1; 1; 1] 0%R)] ++ amps 1%R)%list
    (tup [arr M1; arr M2]) /\ zero_array [1; 1] M1 /\ zero_array [1; 1; 1; 1] M2.
Proof.
  destruct (public_ok RK one_s "ccsd_lambda_simple"%string [F_; I_; L1_; L2_; T1_; T2_] (STup [L1_; L2_])
    (ham 1%R ++ [arr (const_t (K := RK) [1; 1] 1%R); arr (const_t (K := RK) [1; 1; 1; 1] 0%R)] ++ amps 1%R)%list) as (v & RV & FV); [find_in| |].
  { repeat (constructor; try reflexivity). }
  inversion FV as [| |vs l FV'|]; subst. inversion FV' as [|a ? b ? A1 A2]; subst. inversion A2 as [|a' ? b' ? A3 A4]; subst. inversion A4; subst.
  inversion A1 as [|R1 l1 S1| |]; subst. inversion A3 as [|R2 l2 S2| |]; subst.
  exists R1, R2. split; [exact RV|]. split; (split; [assumption|]).
  - apply in_ones; [|repeat constructor]. cbn [map].
    assert (E : Some (dat R1 [0; 0]) = Some (c0 : RK)) by (rewrite <- (entry_at_1 _ _ _ _ [0; 0] RV); vm_compute; f_equal; ring).
    injection E as E. exact E.
  - apply in_ones; [|repeat constructor]. cbn [map].
    assert (E : Some (dat R2 [0; 0; 0; 0]) = Some (c0 : RK)) by (rewrite <- (entry_at_2 _ _ _ _ [0; 0; 0; 0] RV); vm_compute; f_equal; ring).
    injection E as E. exact E.
Qed.

(** the theorem applies, and gives the derivative 2 *)
Example C92_example : exists E : R -> R,
  (forall t, returns (K := RK) "cc_energy" (amps t ++ [arr (const_t (K := RK) [1; 1] t); arr (const_t (K := RK) [1; 1; 1; 1] 0%R)])%list (numv (E t : RK))) /\
  derivable_pt_lim E 1%R 2%R.
Proof.
  destruct ex_lambda as (M1 & M2 & RM & Y1 & Y2).
  destruct (C92_energy_derivative 1 1 1%R (fun t => exF (K := RK) t (t * t * t - t)%R 1%R) (fun _ => exI)
    (fun t => const_t (K := RK) [1; 1] t) (fun _ => const_t (K := RK) [1; 1; 1; 1] 0%R)
    (exF (K := RK) 1%R 2%R 0%R) exI (const_t (K := RK) [1; 1] 1%R) (const_t (K := RK) [1; 1; 1; 1] 0%R)
    (const_t (K := RK) [1; 1] 1%R) (const_t (K := RK) [1; 1; 1; 1] 0%R) "ccsd_simple"%string "ccsd_lambda_simple"%string 1%R M1 M2) as (E & P & HE & HP & HD).
  - intros t. split; [apply exF_ok|]. split; [apply exI_ok|]. split; [reflexivity|]. split; [reflexivity|exact (zero_anti RK)].
  - apply exF_ok.
  - apply exI_ok.
  - reflexivity.
  - reflexivity.
  - repeat split; intros idx Hi; cbn.
    + apply derivable_pt_lim_const.
    + apply derivable_pt_lim_id.
    + replace 2%R with (((1 * 1 + 1 * 1) * 1 + (1 * 1) * 1) - 1)%R by ring.
      apply (derivable_pt_lim_minus (fun t => (t * t * t)%R) (fun t => t)); [|apply derivable_pt_lim_id].
      apply (derivable_pt_lim_mult (fun t => (t * t)%R) (fun t => t)); [|apply derivable_pt_lim_id].
      apply (derivable_pt_lim_mult (fun t => t) (fun t => t)); apply derivable_pt_lim_id.
    + apply derivable_pt_lim_const.
  - repeat constructor; intros idx Hi; apply derivable_pt_lim_const.
  - intros idx Hi. apply derivable_pt_lim_id.
  - intros idx Hi. apply derivable_pt_lim_const.
  - reflexivity.
  - split; [reflexivity|exact (zero_anti RK)].
  - left. reflexivity.
  - left. reflexivity.
  - exact Rlt_0_1.
  - intros t _. exact (ex_solved t).
  - exact RM.
  - exact Y1.
  - exact Y2.
  - exists E. split; [exact HE|]. replace 2%R with (contraction 1 1 (const_t (K := RK) [1; 1] 1%R) (const_t (K := RK) [1; 1; 1; 1] 0%R) P (exF (K := RK) 1%R 2%R 0%R) exI : R); [exact HD|].
    assert (A : dat (P "ccsd_1rdm_ai"%string) [0; 0] = 0%R).
    { assert (R : returns (K := RK) "ccsd_1rdm_ai" [arr (const_t (K := RK) [1; 1] 1%R); arr (const_t (K := RK) [1; 1; 1; 1] 0%R);
        arr (const_t (K := RK) [1; 1] 1%R); arr (const_t (K := RK) [1; 1; 1; 1] 0%R)] (arr (P "ccsd_1rdm_ai"%string))) by (apply HP; right; right; left; reflexivity).
      destruct R as (a & R & _). assert (X : Some (dat (P "ccsd_1rdm_ai"%string) [0; 0]) = Some (c0 : RK)).
      { transitivity (entry_at (K := RK) "ccsd_1rdm_ai"%string [arr (const_t (K := RK) [1; 1] 1%R); arr (const_t (K := RK) [1; 1; 1; 1] 0%R);
          arr (const_t (K := RK) [1; 1] 1%R); arr (const_t (K := RK) [1; 1; 1; 1] 0%R)] 0 [0; 0]).
        - unfold entry_at. rewrite R. reflexivity.
        - clear. vm_compute. f_equal. ring. }
      injection X as X. exact X. }
    unfold contraction, dot2, dot4. cbn [sumN exF exI const_t dat oo ov vo vv vvvv vvvo vovv vvoo vovo oovv vooo ooov oooo].
    rewrite A. cbn. ring.
Qed.

(** T1 = t^2, F_ov = t at t0 = 1: the arguments have tangents, and the energy
    cc_energy_s1 over the dual numbers is (1, 3), the value and the derivative of t^3 *)
Example C93_example :
  In ("cc_energy_s1"%string, [T1_; SArr [so; sv]], SNum) public_functions /\
  related_args (tangent_value one_s 1%R) [T1_; SArr [so; sv]]
    [arr (const_t (K := FunK) [1; 1] (fun t => t * t)%R); arr (const_t (K := FunK) [1; 1] (fun t => t))]
    [arr (const_t (K := DualK RK) [1; 1] (1, 2)%R); arr (const_t (K := DualK RK) [1; 1] (1, 1)%R)] /\
  exists e, returns (K := DualK RK) "cc_energy_s1"
    [arr (const_t (K := DualK RK) [1; 1] (1, 2)%R); arr (const_t (K := DualK RK) [1; 1] (1, 1)%R)] (numv e) /\ e = (1, 3)%R.
Proof.
  split; [find_in|]. split.
  - split; [|split; [|exact I]]; (split; [reflexivity|split; [reflexivity|]]); intros idx Hi; (split; [cbn; ring|]); cbn.
    + replace 2%R with (1 * 1 + 1 * 1)%R by ring. apply (derivable_pt_lim_mult (fun t => t) (fun t => t)); apply derivable_pt_lim_id.
    + apply derivable_pt_lim_id.
  - destruct (public_ok (DualK RK) one_s "cc_energy_s1"%string [T1_; SArr [so; sv]] SNum
      [arr (const_t (K := DualK RK) [1; 1] (1, 2)%R); arr (const_t (K := DualK RK) [1; 1] (1, 1)%R)]) as (v & RV & FV); [find_in| |].
    { repeat (constructor; try reflexivity). }
    inversion FV as [e| | |]; subst. exists e. split; [exact RV|].
    destruct RV as (a & E & _).
    assert (X : Some e = match pycall (conc_alg (DualK RK)) cc_prog "cc_energy_s1"
      [arr (const_t (K := DualK RK) [1; 1] (1, 2)%R); arr (const_t (K := DualK RK) [1; 1] (1, 1)%R)] with Ok (XNum x, _) => Some x | _ => None end)
      by (rewrite E; reflexivity).
    clear E FV a. enough (Y : Some e = Some (1, 3)%R) by (injection Y as Y; exact Y).
    rewrite X. clear. vm_compute. do 2 f_equal; ring.
Qed.
