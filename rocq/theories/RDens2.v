(** The restricted Lambda equations and Lagrangian in Fock space. *)
From Coq Require Import List Bool Arith ZArith Lia Ring String Factorial.
From Verif Require Import Scalar Tensor PySyntax PySem CCProg CISpec CIFacts CIStrings CIFock CIMatrix CILemmas CIVec CIExpSpec CIExp
  CCSpec CCEquiv CCFockSpec CCDensSpec FockStates FockExp FockT FockH FockSchr FockPerm NpModel SpinModel SpinSpec SpinFacts SpinRound
  UFockSpec UFock UFockOps UCCSchr CCSpin CCRest CCCI RFockSpec RCC UDensSpec UDens UDens2 UDens3 RDensSpec RDens.
Import ListNotations.
Local Open Scope list_scope.

Lemma nK2 (K : cring) : nK K 2 = (c1 + c1)%K.
Proof. pose proof (c_th K) as R. cbn [nK]. rewrite ?(Radd_0_l R), ?(Radd_comm R _ c0), ?(Radd_0_l R). reflexivity. Qed.

Section RL2.
  Variable K : cring.
  Local Open Scope K_scope.
  Add Ring KrRD2 : (c_th K).
  Variables n no nv : nat.
  Variable h : nat -> nat -> K.
  Variable I : nat -> nat -> nat -> nat -> K.
  Variable F : one_e K.
  Variable J : two_e_full K.
  Hypothesis HR : r_hamiltonian n no nv h I F J.
  Variables T1 T2 : tensor K.
  Hypothesis HT : r_amps_ok no nv T1 T2.
  Variables L1 L2 : tensor K.
  Hypothesis HL : r_lams_ok no nv L1 L2.
  Variable inv : nat -> K.
  Variable M : nat.
  Hypothesis HI : inverts inv M.
  Hypothesis HM : (nv + nv < M)%nat.
  Notation A0 := (aufbau n no).
  Notation refS := (A0 ++ A0).
  Notation HC := (H_closed n h I).
  Notation TA := (tminus T2 (swap_ket T2)).
  Notation LA := (tminus L2 (swap_ket L2)).
  Notation COM := (r_commutator inv M n no nv 1 T1 T2 L1 L2 HC).
  Notation Hbar := (transformed inv M (r_cluster n no nv T1 T2) HC).
  Notation LC := (r_lambda n no nv 1 L1 L2).

  Lemma comm_app A B C : r_commutator inv M n no nv 1 T1 T2 L1 L2 A (B ++ C)
    = r_commutator inv M n no nv 1 T1 T2 L1 L2 A B + r_commutator inv M n no nv 1 T1 T2 L1 L2 A C.
  Proof.
    unfold r_commutator. cbv zeta. rewrite !amp_eos, !eos_opmul.
    match goal with |- eos ?L ?p ?t = eos ?L ?q ?t + eos ?L ?r ?t => rewrite <- (eos_add K L q r t); apply eos_ext end.
    intros u _. unfold commutator. rewrite !eos_app, !eos_opscale, !eos_opmul, eos_app.
    match goal with |- eos ?L _ u + _ = _ => rewrite (eos_ext K L _ (fun s => eos B (kd refS) s + eos C (kd refS) s)) by (intros; apply eos_app) end.
    rewrite eos_add. ring.
  Qed.
  Lemma comm_same A B C : acts_same (n + n) B C ->
    r_commutator inv M n no nv 1 T1 T2 L1 L2 A B = r_commutator inv M n no nv 1 T1 T2 L1 L2 A C.
  Proof.
    intros S. apply (same_amp K (n + n)); [|apply lenR]. apply same_mul; [apply same_refl|].
    apply same_comm; [apply same_refl|exact S].
  Qed.

  Lemma r_lambda_main : exists e R1 R2 S1 S2,
    returns (K := K) "rcc_energy"%string [arr T1; arr T2; arr (ov F); arr (foovv J)] (numv e) /\
    returns (K := K) "rccsd_stanton"%string [py_one_e F; py_two_e_full J; arr T1; arr T2] (tup [arr R1; arr R2]) /\
    returns (K := K) "rccsd_lambda_opt"%string [py_one_e F; py_two_e_full J; arr L1; arr L2; arr T1; arr T2] (tup [arr S1; arr S2]) /\
    (shp S1 = [no; nv] /\ shp S2 = [no; no; nv; nv]) /\
    ((forall i a, (i < no)%nat -> (a < nv)%nat -> dat S1 [i; a] = COM [(1, [Cre (no + a); Ann i])]) /\
     (forall i j a b, (i < no)%nat -> (j < no)%nat -> (a < nv)%nat -> (b < nv)%nat ->
        dat S2 [i; j; a; b] = COM [(1, [Cre (no + a); Cre (n + (no + b)); Ann (n + j); Ann i])])) /\
    ((forall i a, (i < no)%nat -> (a < nv)%nat -> COM (generator n (no + a) i) = (1 + 1) * dat S1 [i; a]) /\
     (forall i j a b, (i < no)%nat -> (j < no)%nat -> (a < nv)%nat -> (b < nv)%nat ->
        COM (opmul (generator n (no + a) i) (generator n (no + b) j)) = (1 + 1) * ((1 + 1) * dat S2 [i; j; a; b] - dat S2 [i; j; b; a]))) /\
    (r_solved no nv R1 R2 ->
     (r_lambda_solved no nv S1 S2 <->
      forall x, u_space 2 A0 A0 x ->
        amp refS (opmul LC Hbar) (fst x ++ snd x) = (amp refS HC refS + e) * amp refS LC (fst x ++ snd x))) /\
    r_expect inv M n no nv 1 T1 T2 L1 L2 HC
    = amp refS HC refS + (e + ((1 + 1) * dot2 no nv (dat L1) (dat R1) +
        dot4 no no nv nv (dat L2) (fun idx => (1 + 1) * dat R2 idx - dat (swap_ket R2) idx))).
  Proof.
    pose proof (rN K n no nv h I F J HR) as N. pose proof (r_to_u K n no nv h I F J HR) as HU.
    pose proof (r_amps_u K no nv T1 T2 HT) as HA. pose proof (r_J_sym K n no nv h I F J HR) as SJ. pose proof (r_J_ok K n no nv h I F J HR) as OJ.
    pose proof (r_T_sym K no nv T1 T2 HT) as ST. pose proof HT as (S1 & S2 & Sy).
    pose proof (r_F_ok K n no nv h I F J HR) as OF.
    pose proof (r_lams_u K no nv L1 L2 HL) as HLu. pose proof (L_sym K no nv L1 L2 HL) as SLy. pose proof HL as (S3 & S4 & Ly).
    assert (SH : acts_same (n + n) HC (H_spatial_op n h h I I I)) by (exact (same_H K n h I (proj1 (proj2 HR)))).
    destruct (u_lambda_main K n no nv no nv h h I I I F F (anti_of J) (anti_of J) J HU T1 T1 TA T2 TA HA L1 L1 LA L2 LA HLu inv M HI HM)
      as (e & ta & tb & aa & ab & bb & la & lb & laa & lab & lbb & He & Rt & Rl & (P1 & P2 & P3 & P4 & P5) & (C1 & C2 & C3 & C4 & C5) & LE & LG).
    destruct (c09 K no nv F J T1 T2 OF OJ SJ S1 S2 ST) as (R1 & R2 & ta' & tb' & aa' & ab' & bb' & HR1 & HR2 & E1 & E2 & E3 & E4 & E5 & E6).
    pose proof (returns_fun K _ _ _ _ Rt HR2) as X. injection X as <- <- <- <- <-.
    destruct (c10r_ok K no nv F J T1 T2 OF OJ SJ S1 S2 ST) as (e' & He' & He'').
    pose proof (returns_fun K _ _ _ _ He He'') as X. injection X as <-.
    destruct (c17 K no nv F J T1 T2 L1 L2 OF OJ SJ S1 S2 ST S3 S4 SLy) as (M1 & M2 & la' & lb' & laa' & lab' & lbb' & HM1 & HM2 & F1 & F2 & F3 & F4 & F5 & F6).
    pose proof (returns_fun K _ _ _ _ Rl HM2) as X. injection X as <- <- <- <- <-.
    assert (HH : u_ham_ok no nv no nv F F (anti_of J) (anti_of J) J) by (eapply ham_ok; eassumption).
    destruct (uccsd_spin_shapes K _ _ _ _ _ _ _ _ _ _ _ _ _ _ HH HA)
      as (_ & _ & _ & _ & _ & _ & ta' & tb' & aa' & ab' & bb' & _ & _ & _ & _ & _ & _ & _ & RU & _ & _ & _ & _ & Q1 & Q2 & Q3 & Q4 & Q5).
    pose proof (returns_fun K _ _ _ _ Rt RU) as X. injection X as <- <- <- <- <-.
    (* the entries of the unrestricted arrays *)
    assert (D1 : forall a i, (a < nv)%nat -> (i < no)%nat -> dat ta [a; i] = dat R1 [a; i]).
    { intros a i La Li. apply (proj2 E1). rewrite Q1. repeat constructor; assumption. }
    assert (D2 : forall a i, (a < nv)%nat -> (i < no)%nat -> dat tb [a; i] = dat R1 [a; i]).
    { intros a i La Li. apply (proj2 E2). rewrite Q2. repeat constructor; assumption. }
    assert (D3 : forall a b i j, (a < nv)%nat -> (b < nv)%nat -> (i < no)%nat -> (j < no)%nat -> dat aa [a; b; i; j] = dat R2 [a; b; i; j] - dat R2 [a; b; j; i]).
    { intros a b i j La Lb Li Lj. apply (proj2 E3). rewrite Q3. repeat constructor; assumption. }
    assert (D4 : forall a b i j, (a < nv)%nat -> (b < nv)%nat -> (i < no)%nat -> (j < no)%nat -> dat ab [a; b; i; j] = dat R2 [a; b; i; j]).
    { intros a b i j La Lb Li Lj. apply (proj2 E4). rewrite Q4. repeat constructor; assumption. }
    assert (D5 : forall a b i j, (a < nv)%nat -> (b < nv)%nat -> (i < no)%nat -> (j < no)%nat -> dat bb [a; b; i; j] = dat R2 [a; b; i; j] - dat R2 [a; b; j; i]).
    { intros a b i j La Lb Li Lj. apply (proj2 E5). rewrite Q5. repeat constructor; assumption. }
    assert (Y2 : forall a b i j, (a < nv)%nat -> (b < nv)%nat -> (i < no)%nat -> (j < no)%nat -> dat R2 [a; b; i; j] = dat R2 [b; a; j; i]).
    { intros a b i j La Lb Li Lj. apply (proj2 E6). rewrite <- (proj1 E4), Q4. repeat constructor; assumption. }
    assert (G1 : forall i a, (i < no)%nat -> (a < nv)%nat -> dat la [i; a] = dat M1 [i; a]).
    { intros a i La Li. apply (proj2 F1). rewrite P1. repeat constructor; assumption. }
    assert (G2 : forall i a, (i < no)%nat -> (a < nv)%nat -> dat lb [i; a] = dat M1 [i; a]).
    { intros a i La Li. apply (proj2 F2). rewrite P2. repeat constructor; assumption. }
    assert (G3 : forall i j a b, (i < no)%nat -> (j < no)%nat -> (a < nv)%nat -> (b < nv)%nat -> dat laa [i; j; a; b] = dat M2 [i; j; a; b] - dat M2 [i; j; b; a]).
    { intros a b i j La Lb Li Lj. apply (proj2 F3). rewrite P3. repeat constructor; assumption. }
    assert (G4 : forall i j a b, (i < no)%nat -> (j < no)%nat -> (a < nv)%nat -> (b < nv)%nat -> dat lab [i; j; a; b] = dat M2 [i; j; a; b]).
    { intros a b i j La Lb Li Lj. apply (proj2 F4). rewrite P4. repeat constructor; assumption. }
    assert (G5 : forall i j a b, (i < no)%nat -> (j < no)%nat -> (a < nv)%nat -> (b < nv)%nat -> dat lbb [i; j; a; b] = dat M2 [i; j; a; b] - dat M2 [i; j; b; a]).
    { intros a b i j La Lb Li Lj. apply (proj2 F5). rewrite P5. repeat constructor; assumption. }
    assert (YM : forall i j a b, (i < no)%nat -> (j < no)%nat -> (a < nv)%nat -> (b < nv)%nat -> dat M2 [i; j; a; b] = dat M2 [j; i; b; a]).
    { intros a b i j La Lb Li Lj. apply (proj2 F6). rewrite <- (proj1 F4), P4. repeat constructor; assumption. }
    assert (LR : List.length refS = (n + n)%nat) by (apply lenR).
    assert (CU : forall B, COM B = u_commutator inv M n no nv no nv 1 T1 T1 TA T2 TA L1 L1 LA L2 LA (H_spatial_op n h h I I I) B).
    { intros B. apply r_commutator_u; try assumption. apply same_refl. }
    exists e, R1, R2, M1, M2. split; [exact He'|]. split; [exact HR1|]. split; [exact HM1|].
    split; [split; [rewrite <- (proj1 F1); exact P1|rewrite <- (proj1 F4); exact P4]|].
    split; [split|].
    { intros i a Li La. rewrite <- G1, C1, CU by assumption. reflexivity. }
    { intros i j a b Li Lj La Lb. rewrite <- G4, C4, CU by assumption. reflexivity. }
    split; [split|].
    { intros i a Li La.
      change (generator n (no + a) i) with ([(1 : K, [Cre (no + a); Ann i])] ++ [(1, [Cre (n + (no + a)); Ann (n + i)])]).
      rewrite comm_app, !CU, <- C1, <- C2, G1, G2 by assumption. ring. }
    { intros i j a b Li Lj La Lb.
      transitivity (COM ([(1, [Cre (no + a); Cre (no + b); Ann j; Ann i])] ++ [(1, [Cre (n + (no + a)); Cre (n + (no + b)); Ann (n + j); Ann (n + i)])] ++
        [(1, [Cre (no + a); Cre (n + (no + b)); Ann (n + j); Ann i])] ++ [(1, [Cre (no + b); Cre (n + (no + a)); Ann (n + i); Ann j])])).
      - apply comm_same. intros psi t Lt. rewrite eos_gen2 by lia. destruct (Nat.eqb_spec (no + b) i); [lia|].
        rewrite (W2_bra K psi t (n + (no + a)) (no + b)), (W2_ket K psi t (no + b) (n + (no + a)) (n + i) j) by lia.
        unfold eos, SL. cbn [app map lsum fst snd]. unfold W2. ring.
      - rewrite !comm_app, !CU, <- C3, <- C5, <- C4, <- C4, G3, G5, !G4 by assumption. rewrite (YM j i b a) by assumption. ring. }
    assert (SV : r_solved no nv R1 R2 -> u_solved no nv no nv ta tb aa ab bb).
    { intros (Z1 & Z2). split; [|split; [|split; [|split]]].
      + intros a i La Li. rewrite D1 by assumption. apply Z1; assumption.
      + intros a i La Li. rewrite D2 by assumption. apply Z1; assumption.
      + intros a b i j La Lb Li Lj. rewrite D3, !Z2 by assumption. ring.
      + intros a b i j La Lb Li Lj. rewrite D4 by assumption. apply Z2; assumption.
      + intros a b i j La Lb Li Lj. rewrite D5, !Z2 by assumption. ring. }
    assert (SM : r_lambda_solved no nv M1 M2 <-> u_lambda_solved no nv no nv la lb laa lab lbb).
    { split.
      - intros (Z1 & Z2). split; [|split; [|split; [|split]]].
        + intros a i La Li. rewrite G1 by assumption. apply Z1; assumption.
        + intros a i La Li. rewrite G2 by assumption. apply Z1; assumption.
        + intros a b i j La Lb Li Lj. rewrite G3, !Z2 by assumption. ring.
        + intros a b i j La Lb Li Lj. rewrite G4 by assumption. apply Z2; assumption.
        + intros a b i j La Lb Li Lj. rewrite G5, !Z2 by assumption. ring.
      - intros (Z1 & _ & _ & Z4 & _). split.
        + intros a i La Li. rewrite <- G1 by assumption. apply Z1; assumption.
        + intros a b i j La Lb Li Lj. rewrite <- G4 by assumption. apply Z4; assumption. }
    assert (SLm : acts_same (n + n) LC (u_lambda n no nv no nv 1 L1 L1 LA L2 LA)) by (apply same_L; assumption).
    assert (SHb : acts_same (n + n) Hbar (transformed inv M (u_cluster n no nv no nv T1 T1 TA T2 TA) (H_spatial_op n h h I I I))).
    { apply same_transformed; [apply same_T; assumption|exact SH]. }
    rewrite (same_amp K (n + n) HC _ refS refS SH LR).
    split.
    - intros Z. rewrite SM, (LE (SV Z)). apply forall_iff. intros x. apply imp_iff. intros _.
      rewrite (same_amp K (n + n) LC _ refS _ SLm LR), (same_amp K (n + n) (opmul LC Hbar) _ refS _ (same_mul K _ _ _ _ _ SLm SHb) LR). reflexivity.
    - rewrite (r_expect_u K n no nv N L1 L2 HL T1 T2 HT inv M 1 _ _ SH), LG. f_equal. f_equal.
      assert (X1 : dot2 no nv (dat L1) (dat ta) = dot2 no nv (dat L1) (dat R1)).
      { unfold dot2. apply sumN_ext. intros i Li. apply sumN_ext. intros a La. rewrite D1 by assumption. reflexivity. }
      assert (X2 : dot2 no nv (dat L1) (dat tb) = dot2 no nv (dat L1) (dat R1)).
      { unfold dot2. apply sumN_ext. intros i Li. apply sumN_ext. intros a La. rewrite D2 by assumption. reflexivity. }
      rewrite X1, X2.
      change (dot2 no nv (dat L1) (dat R1) + dot2 no nv (dat L1) (dat R1) +
        (quarter * UFockOps.S4 no no nv nv (fun i j a b => dat LA [i; j; a; b] * dat aa [a; b; i; j]) +
         quarter * UFockOps.S4 no no nv nv (fun i j a b => dat LA [i; j; a; b] * dat bb [a; b; i; j]) +
         UFockOps.S4 no no nv nv (fun i j a b => dat L2 [i; j; a; b] * dat ab [a; b; i; j]))
        = (1 + 1) * dot2 no nv (dat L1) (dat R1) +
          UFockOps.S4 no no nv nv (fun i j a b => dat L2 [i; j; a; b] * ((1 + 1) * dat R2 [a; b; i; j] - dat R2 [a; b; j; i]))).
      set (U := UFockOps.S4 no no nv nv (fun i j a b => dat L2 [i; j; a; b] * dat R2 [a; b; i; j])).
      set (V := UFockOps.S4 no no nv nv (fun i j a b => dat L2 [i; j; a; b] * dat R2 [a; b; j; i])).
      assert (V' : UFockOps.S4 no no nv nv (fun i j a b => dat L2 [i; j; b; a] * dat R2 [a; b; i; j]) = V).
      { unfold V. rewrite (UFockOps.S4_34 K no no nv nv (fun i j a b => dat L2 [i; j; b; a] * dat R2 [a; b; i; j])).
        apply S4_ext. intros i j a b Li Lj La Lb. rewrite (Y2 b a i j) by assumption. reflexivity. }
      assert (U' : UFockOps.S4 no no nv nv (fun i j a b => dat L2 [i; j; b; a] * dat R2 [a; b; j; i]) = U).
      { unfold U. rewrite (UFockOps.S4_34 K no no nv nv (fun i j a b => dat L2 [i; j; b; a] * dat R2 [a; b; j; i])).
        apply S4_ext. intros i j a b Li Lj La Lb. rewrite (Y2 b a j i) by assumption. reflexivity. }
      assert (W : forall w, (forall a b i j, (a < nv)%nat -> (b < nv)%nat -> (i < no)%nat -> (j < no)%nat -> dat w [a; b; i; j] = dat R2 [a; b; i; j] - dat R2 [a; b; j; i]) ->
        UFockOps.S4 no no nv nv (fun i j a b => dat LA [i; j; a; b] * dat w [a; b; i; j]) = (1 + 1) * (U - V)).
      { intros w Hw.
        transitivity (U + (- (1) * V) + ((- (1) * UFockOps.S4 no no nv nv (fun i j a b => dat L2 [i; j; b; a] * dat R2 [a; b; i; j])) +
          UFockOps.S4 no no nv nv (fun i j a b => dat L2 [i; j; b; a] * dat R2 [a; b; j; i]))).
        - unfold U, V. rewrite <- !UFockOps.S4_mul, <- !UFockOps.S4_add. apply S4_ext. intros i j a b Li Lj La Lb. rewrite Hw by assumption.
          rewrite LA_at. ring.
        - rewrite U', V'. ring. }
      rewrite (W aa D3), (W bb D5).
      assert (X4 : UFockOps.S4 no no nv nv (fun i j a b => dat L2 [i; j; a; b] * dat ab [a; b; i; j]) = U).
      { apply S4_ext. intros i j a b Li Lj La Lb. rewrite D4 by assumption. reflexivity. }
      assert (X5 : UFockOps.S4 no no nv nv (fun i j a b => dat L2 [i; j; a; b] * ((1 + 1) * dat R2 [a; b; i; j] - dat R2 [a; b; j; i])) = (1 + 1) * U + (- (1)) * V).
      { unfold U, V. rewrite <- !UFockOps.S4_mul, <- UFockOps.S4_add. apply S4_ext. intros. ring. }
      rewrite X4, X5.
      assert (Q : quarter * ((1 + 1) * (U - V)) + quarter * ((1 + 1) * (U - V)) = U - V).
      { unfold quarter. transitivity (((1 + 1) * chalf) * ((1 + 1) * chalf) * (U - V)); [ring|rewrite half_two; ring]. }
      rewrite Q. ring.
  Qed.
End RL2.
