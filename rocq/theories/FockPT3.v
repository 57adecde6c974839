(** The third order energy in terms of the linearised residuals: with the
    fluctuation potential V as the Hamiltonian, the projections of V (1 + T)|0>
    are the right hand sides of the perturbation equations up to second order. *)
From Coq Require Import List Bool Arith ZArith Lia Ring String.
From Verif Require Import Scalar CISpec CIRep CIFacts CIStrings CILemmas CIFock CIMatrix CIVec CIExpSpec CIExp Tensor PySyntax PySem PySim Sym SymSound
  Norm CCProg CCSpec Engine Tools SOCtx CCEquiv CCDeriv CCSym CCFockSpec FockStates FockExp FockT FockSchr WickSym FockH CCFock CCLinSpec FockLin CCLeft
  UtilsModel PTSpec FockPT FockPT2 CISDSpec FockCISD PT3Spec.
Import ListNotations.
Local Open Scope string_scope.
Local Open Scope list_scope.

Section Third.
  Variable K : cring.
  Local Open Scope K_scope.
  Add Ring KrP3 : (c_th K).
  Variables no nv : nat.
  Variable h : nat -> nat -> K.
  Variable g : nat -> nat -> nat -> nat -> K.
  Variable F : one_e K.
  Variable I : two_e K.
  Hypothesis AG : antisym_ints (no + nv) g.
  Variables eo_ ev Da Db : tensor K.
  Notation e := (eps K no eo_ ev).
  Hypothesis BF : blocks1 no nv (off_energies e (fock no h g)) F.
  Hypothesis BI : blocks2 no nv g I.
  Variables T1 T2 : tensor K.
  Hypothesis So : shp eo_ = [no].
  Hypothesis Sv : shp ev = [nv].
  Hypothesis HDa : D1 ev eo_ = Some Da.
  Hypothesis HDb : D2 ev eo_ = Some Db.
  Hypothesis S1 : shp T1 = [nv; no].
  Hypothesis S2 : shp T2 = [nv; nv; no; no].
  Hypothesis U1 : forall a i, (a < nv)%nat -> (i < no)%nat -> exists u, u * dat Da [a; i] = 1.
  Hypothesis U2 : forall a b i j, (a < nv)%nat -> (b < nv)%nat -> (i < no)%nat -> (j < no)%nat -> exists u, u * dat Db [a; b; i; j] = 1.
  Hypothesis E1 : forall a i, (a < nv)%nat -> (i < no)%nat -> dat T1 [a; i] * dat Da [a; i] = - dat (vo F) [a; i].
  Hypothesis E2 : forall a b i j, (a < nv)%nat -> (b < nv)%nat -> (i < no)%nat -> (j < no)%nat ->
    dat T2 [a; b; i; j] * dat Db [a; b; i; j] = - dat (vvoo I) [a; b; i; j].
  Notation n := (no + nv)%nat.
  Notation ref := (aufbau n no).
  Notation H := (H_op n h g).
  Notation h' := (off_energies e h).
  Notation H' := (H_op n h' g).
  Notation T := (cluster no nv T1 T2).
  Notation H0 := (diagonal n e).
  Notation E0 := (sumN (K := K) no (fun i => dat eo_ [i])).
  Notation V := (minus H H0).

  Lemma fock_off p q : fock no h' g p q = off_energies e (fock no h g) p q.
  Proof. unfold fock, off_energies. ring. Qed.
  Lemma BF' : blocks1 no nv (fock no h' g) F.
  Proof.
    destruct BF as (O & B1 & B2 & B3 & B4). split; [exact O|]. repeat split; intros; rewrite fock_off; auto.
  Qed.
  Lemma one_body (k : nat -> nat -> K) (psi : state K) t : eos (flat_map (fun p => map (fun q => (k p q, [Cre p; Ann q])) (seq 0 n)) (seq 0 n)) psi t
    = sumN n (fun p => sumN n (fun q => k p q * eow [Cre p; Ann q] psi t)).
  Proof.
    unfold eos. rewrite SL_fm_seq. apply sumN_ext. intros p _. rewrite SL_map_seq. reflexivity.
  Qed.
  Lemma V_eos psi t : eos V psi t = eos H' psi t.
  Proof.
    unfold minus, H_op. rewrite !eos_app, eos_opscale, !one_body.
    assert (D : eos H0 psi t = sumN n (fun p => sumN n (fun q => (if Nat.eqb p q then e p else 0) * eow [Cre p; Ann q] psi t))).
    { unfold diagonal, eos. rewrite SL_map_seq. apply sumN_ext. intros p Lp. cbn [fst snd].
      symmetry. transitivity (sumN n (fun q => delta q p * (e q * eow [Cre p; Ann q] psi t))); [|rewrite sumN_delta by exact Lp; reflexivity].
      apply sumN_ext. intros q _. unfold delta. rewrite Nat.eqb_sym. destruct (Nat.eqb q p) eqn:X; [apply Nat.eqb_eq in X; subst; ring|ring]. }
    rewrite D. unfold off_energies.
    rewrite (sumN_ext K n (fun p => sumN n (fun q => (h p q - (if Nat.eqb p q then e p else 0)) * eow [Cre p; Ann q] psi t))
      (fun p => sumN n (fun q => h p q * eow [Cre p; Ann q] psi t) + - (1) * sumN n (fun q => (if Nat.eqb p q then e p else 0) * eow [Cre p; Ann q] psi t))).
    - rewrite sumN_add, sumN_mul_l. ring.
    - intros p _. rewrite <- sumN_mul_l, <- sumN_add. apply sumN_ext. intros q _. ring.
  Qed.

  Lemma H2 : t2_ok no nv T2.
  Proof. exact (pt_t2_ok K no nv g I AG BI eo_ ev Db T2 So Sv HDb S2 U2 E2). Qed.
  Lemma quot_ok R X : t2_ok no nv R -> shp X = [nv; nv; no; no] ->
    (forall a b i j, (a < nv)%nat -> (b < nv)%nat -> (i < no)%nat -> (j < no)%nat ->
       dat X [a; b; i; j] * dat Db [a; b; i; j] = - dat R [a; b; i; j]) -> t2_ok no nv X.
  Proof.
    intros (SR & A1 & A2) SX EX. split; [exact SX|]. unfold antisym_lead, antisym_tail in A1, A2. rewrite SR in A1, A2.
    split; intros a b i j Hi; rewrite SX in Hi; pose proof Hi as Hi0;
      inversion Hi as [|? ? ? ? La Hi1]; subst; inversion Hi1 as [|? ? ? ? Lb Hi2]; subst;
      inversion Hi2 as [|? ? ? ? Li Hi3]; subst; inversion Hi3 as [|? ? ? ? Lj Hi4]; subst;
      destruct (U2 a b i j La Lb Li Lj) as (u & Hu); apply (cancel_r K _ _ _ u Hu); rewrite EX by auto.
    - transitivity (- (dat X [b; a; i; j] * dat Db [b; a; i; j])).
      + rewrite EX, (A1 a b i j Hi0) by auto. ring.
      + rewrite !(db_val K no nv eo_ ev Db So Sv HDb) by auto. ring.
    - transitivity (- (dat X [a; b; j; i] * dat Db [a; b; j; i])).
      + rewrite EX, (A2 a b i j Hi0) by auto. ring.
      + rewrite !(db_val K no nv eo_ ev Db So Sv HDb) by auto. ring.
  Qed.

  Section Next.
    Variables R1 R2 X1 X2 : tensor K.
    Hypothesis OR : t2_ok no nv R2.
    Hypothesis P1 : forall a i s bra, (a < nv)%nat -> (i < no)%nat -> act [Cre (no + a); Ann i] ref = Some (s, bra) ->
       amp bra (opmul H' (one ++ T)) ref = csgn s * (dat R1 [a; i] + amp ref H' ref * dat T1 [a; i]).
    Hypothesis P2 : forall a b i j s bra, (a < nv)%nat -> (b < nv)%nat -> (i < no)%nat -> (j < no)%nat ->
       act [Cre (no + a); Cre (no + b); Ann j; Ann i] ref = Some (s, bra) ->
       amp bra (opmul H' (one ++ T)) ref
       = csgn s * (dat R2 [a; b; i; j] + amp ref H' ref * dat T2 [a; b; i; j] + disconnected K F T1 a b i j).
    Hypothesis SX1 : shp X1 = [nv; no].
    Hypothesis SX2 : shp X2 = [nv; nv; no; no].
    Hypothesis EX1 : forall a i, (a < nv)%nat -> (i < no)%nat -> dat X1 [a; i] * dat Da [a; i] = - dat R1 [a; i].
    Hypothesis EX2 : forall a b i j, (a < nv)%nat -> (b < nv)%nat -> (i < no)%nat -> (j < no)%nat ->
      dat X2 [a; b; i; j] * dat Db [a; b; i; j] = - (dat R2 [a; b; i; j] + disconnected K F T1 a b i j).
    Notation X := (cluster no nv X1 X2).

    Lemma X2_ok : t2_ok no nv X2.
    Proof.
      apply (quot_ok (mkT [nv; nv; no; no] (fun idx => match idx with
        | [a; b; i; j] => dat R2 [a; b; i; j] + disconnected K F T1 a b i j | _ => 0 end))); [|exact SX2|exact EX2].
      destruct OR as (SR & A1 & A2). unfold antisym_lead, antisym_tail in A1, A2. rewrite SR in A1, A2. split; [reflexivity|].
      split; intros a b i j Hi; cbn [shp dat] in *; [rewrite (A1 a b i j Hi)|rewrite (A2 a b i j Hi)]; unfold disconnected; ring.
    Qed.

    Lemma pt3_equation t : List.length t = n -> nel t = no -> (vlev no t <= 2)%nat -> t <> ref ->
      (en K n e t - E0) * eos X (kd ref) t
      = - (eos H' (kd ref) t + eos H' (eos T (kd ref)) t - eos H' (kd ref) ref * eos T (kd ref) t).
    Proof.
      intros L N W NR.
      assert (Q : eos (opmul H' (one ++ T)) (kd ref) t = eos H' (kd ref) t + eos H' (eos T (kd ref)) t).
      { rewrite eos_opmul, (eos_ext K H' _ (fun u => kd ref u + eos T (kd ref) u)) by (intros u Lu; apply oneT_eos).
        rewrite eos_add. reflexivity. }
      rewrite <- Q.
      destruct (low_dets no nv t L N W) as [->|[(a & i & s & La & Li & E)|(a & b & i & j & s & La & Lb & Li & Lj & E)]]; [congruence| |].
      - pose proof (P1 a i s t La Li E) as P. rewrite !amp_eos in P. rewrite P.
        rewrite (T_single K no nv g F I AG BI X1 X2 X2_ok a i s t La Li E), (T_single K no nv g F I AG BI T1 T2 H2 a i s t La Li E).
        rewrite (en_single K no nv eo_ ev Da So Sv HDa a i s t La Li E).
        transitivity (csgn s * (dat X1 [a; i] * dat Da [a; i])); [ring|]. rewrite EX1 by auto. ring.
      - pose proof (P2 a b i j s t La Lb Li Lj E) as P. rewrite !amp_eos in P. rewrite P.
        rewrite (T_double K no nv g F I AG BI X1 X2 X2_ok a b i j s t La Lb Li Lj E), (T_double K no nv g F I AG BI T1 T2 H2 a b i j s t La Lb Li Lj E).
        rewrite (en_double K no nv eo_ ev Db So Sv HDb a b i j s t La Lb Li Lj E).
        transitivity (csgn s * (dat X2 [a; b; i; j] * dat Db [a; b; i; j])); [ring|]. rewrite EX2 by auto. ring.
    Qed.

    Lemma low_cancel t (x y : K) : List.length t = n -> nel t = no -> (vlev no t <= 2)%nat -> t <> ref ->
      (en K n e t - E0) * x = (en K n e t - E0) * y -> x = y.
    Proof.
      intros L N W NR Q.
      destruct (low_dets no nv t L N W) as [->|[(a & i & s & La & Li & E)|(a & b & i & j & s & La & Lb & Li & Lj & E)]]; [congruence| |].
      - destruct (U1 a i La Li) as (u & Hu). apply (cancel_r K _ (dat Da [a; i]) _ u Hu).
        rewrite (en_single K no nv eo_ ev Da So Sv HDa a i s t La Li E) in Q.
        transitivity ((E0 + dat Da [a; i] - E0) * x); [ring|]. rewrite Q. ring.
      - destruct (U2 a b i j La Lb Li Lj) as (u & Hu). apply (cancel_r K _ (dat Db [a; b; i; j]) _ u Hu).
        rewrite (en_double K no nv eo_ ev Db So Sv HDb a b i j s t La Lb Li Lj E) in Q.
        transitivity ((E0 + dat Db [a; b; i; j] - E0) * x); [ring|]. rewrite Q. ring.
    Qed.

    Lemma pt1_eq t : List.length t = n -> t <> ref -> (en K n e t - E0) * eos T (kd ref) t = - eos H' (kd ref) t.
    Proof.
      exact (pt_equation K no nv h' g F I AG BF' BI eo_ ev Da Db T1 T2 So Sv HDa HDb S2 U2 E1 E2 t).
    Qed.

    Lemma pt3_unique Psi : second_order n ref H0 V E0 (amp ref V ref) T Psi ->
      vmin K no nv 3 (fun t => (eos T (kd ref) t + eos Psi (kd ref) t) + - (1) * eos X (kd ref) t).
    Proof.
      intros (Q0 & Q1 & Q2) t L W. rewrite nel_aufbau in Q1 by lia.
      destruct (Nat.eq_dec (nel t) no) as [N|N].
      2:{ specialize (Q1 t L N). rewrite amp_eos in Q1. rewrite Q1, !T_far by auto. ring. }
      destruct (list_eq_dec bool_dec t ref) as [->|NR].
      { rewrite amp_eos in Q0. rewrite Q0, !T_ref. ring. }
      assert (Q : eos T (kd ref) t + eos Psi (kd ref) t = eos X (kd ref) t); [|rewrite Q; ring].
      apply (low_cancel t); auto; [lia|]. rewrite pt3_equation by (auto; lia).
      specialize (Q2 t L). rewrite !amp_eos, !eos_opmul, eos_one, diagonal_eos in Q2 by auto.
      rewrite (kd_ref_not K no nv t NR), !V_eos in Q2.
      transitivity ((en K n e t - E0) * eos T (kd ref) t + (en K n e t * eos Psi (kd ref) t - E0 * eos Psi (kd ref) t)); [ring|].
      rewrite Q2, pt1_eq by auto. ring.
    Qed.

    Lemma pt3_energy en : returns "mp2_energy" [arr X1; arr X2; arr (ov F); arr (oovv I)] (numv en) ->
      forall Psi, second_order n ref H0 V E0 (amp ref V ref) T Psi ->
        amp ref (opmul V T) ref + amp ref (opmul V Psi) ref = en.
    Proof.
      intros HR Psi HP. assert (Lr : List.length ref = n) by apply aufbau_length.
      destruct (mp2_linear K no nv h' g F I AG BF' BI X1 X2 SX1 X2_ok) as (e' & HR' & E).
      pose proof (returns_fun K _ _ _ _ HR HR') as Ee. injection Ee as ->.
      pose proof (pt3_unique Psi HP) as Q.
      rewrite !amp_eos, !eos_opmul, !V_eos in *. rewrite linearised_eos, T_ref in E.
      assert (E' : eos H' (eos X (kd ref)) ref = e').
      { transitivity (eos H' (kd ref) ref + (eos H' (eos X (kd ref)) ref - 0) - eos H' (kd ref) ref); [ring|]. rewrite E. ring. }
      assert (Z : eos H' (fun t => (eos T (kd ref) t + eos Psi (kd ref) t) + - (1) * eos X (kd ref) t) ref = 0).
      { apply (vmin_eos K no nv H' 2 1 _ (H_nann K no nv h' g) Q ref Lr). rewrite vlev_aufbau. lia. }
      rewrite eos_add, eos_mul, eos_add, E' in Z.
      transitivity (eos H' (eos T (kd ref)) ref + eos H' (eos Psi (kd ref)) ref + - (1) * e' + e'); [ring|].
      rewrite Z. ring.
    Qed.

    (** with at most two occupied or two virtual orbitals nothing is more than
        doubly excited, and the differences are the second order amplitudes *)
    Lemma vlev_nel t : List.length t = n -> (vlev no t <= nel t)%nat.
    Proof.
      intros _. unfold vlev. rewrite <- (firstn_skipn no t) at 2. rewrite nel_app. lia.
    Qed.
    Definition dX1 : tensor K := mkT [nv; no] (fun idx => dat X1 idx - dat T1 idx).
    Definition dX2 : tensor K := mkT [nv; nv; no; no] (fun idx => dat X2 idx - dat T2 idx).
    Lemma dX_eos t : eos (cluster no nv dX1 dX2) (kd ref) t = eos X (kd ref) t - eos T (kd ref) t.
    Proof.
      unfold cluster. rewrite !eos_T. unfold dX1, dX2. cbn [dat].
      match goal with |- ?a + ?b = ?c + ?d - (?e' + ?f) => assert (Qa : a = c - e'); [|assert (Qb : b = d - f); [|rewrite Qa, Qb; ring]] end.
      - transitivity (sumN nv (fun a => sumN no (fun i => dat X1 [a; i] * eow [Cre (no + a); Ann i] (kd ref) t)) + - (1) * sumN nv (fun a => sumN no (fun i => dat T1 [a; i] * eow [Cre (no + a); Ann i] (kd ref) t))); [|ring].
        rewrite <- sumN_mul_l, <- sumN_add. apply sumN_ext. intros a _. rewrite <- sumN_mul_l, <- sumN_add. apply sumN_ext. intros i _. ring.
      - match goal with |- _ = ?c - ?d => transitivity (c + - (1) * d); [|ring] end.
        rewrite <- sumN_mul_l, <- sumN_add. apply sumN_ext. intros a _. rewrite <- sumN_mul_l, <- sumN_add. apply sumN_ext. intros b _.
        rewrite <- sumN_mul_l, <- sumN_add. apply sumN_ext. intros i _. rewrite <- sumN_mul_l, <- sumN_add. apply sumN_ext. intros j _. ring.
    Qed.
    Lemma pt3_second_order : (no <= 2 \/ nv <= 2)%nat ->
      second_order n ref H0 V E0 (amp ref V ref) T (cluster no nv dX1 dX2).
    Proof.
      intros Small. assert (Lr : List.length ref = n) by apply aufbau_length.
      split; [rewrite amp_eos; apply T_ref|]. split.
      - intros t L N. rewrite nel_aufbau in N by lia. rewrite amp_eos. apply T_far; auto.
      - intros t L. rewrite !amp_eos, !eos_opmul, eos_one, diagonal_eos, !V_eos, dX_eos by auto.
        destruct (Nat.eq_dec (nel t) no) as [N|N].
        + destruct (list_eq_dec bool_dec t ref) as [->|NR]; [rewrite !T_ref, kd_ref_ref; ring|].
          pose proof (vlev_nel t L). pose proof (vlev_le no nv t L).
          rewrite (kd_ref_not K no nv t NR).
          transitivity ((en K n e t - E0) * eos X (kd ref) t - (en K n e t - E0) * eos T (kd ref) t); [ring|].
          rewrite pt3_equation, pt1_eq by (auto; lia). ring.
        + rewrite !T_far by auto. rewrite (kd_ref_not K no nv t).
          * rewrite (nfix_eos K no nv H' _ _ (neutral_H K no nv h' g) (nfix_eos K no nv T _ _ (neutral_T K no nv _ _) (nfix_ref K no nv)) t L) by lia. ring.
          * intros ->. rewrite nel_aufbau in N; lia.
    Qed.
  End Next.

  Lemma third_order : exists R1 R2,
    returns "lccsd_simple" [py_one_e F; py_two_e I; arr T1; arr T2] (tup [arr R1; arr R2]) /\
    shp R1 = [nv; no] /\ shp R2 = [nv; nv; no; no] /\
    forall X1 X2, shp X1 = [nv; no] -> shp X2 = [nv; nv; no; no] ->
      (forall a i, (a < nv)%nat -> (i < no)%nat -> dat X1 [a; i] * dat Da [a; i] = - dat R1 [a; i]) ->
      (forall a b i j, (a < nv)%nat -> (b < nv)%nat -> (i < no)%nat -> (j < no)%nat ->
         dat X2 [a; b; i; j] * dat Db [a; b; i; j] = - (dat R2 [a; b; i; j] + disconnected K F T1 a b i j)) ->
      (exists en, returns "mp2_energy" [arr X1; arr X2; arr (ov F); arr (oovv I)] (numv en) /\
        forall Psi, second_order n ref H0 V E0 (amp ref V ref) T Psi ->
          amp ref (opmul V T) ref + amp ref (opmul V Psi) ref = en) /\
      ((no <= 2 \/ nv <= 2)%nat -> second_order n ref H0 V E0 (amp ref V ref) T
         (cluster no nv (mkT [nv; no] (fun idx => dat X1 idx - dat T1 idx))
                        (mkT [nv; nv; no; no] (fun idx => dat X2 idx - dat T2 idx)))).
  Proof.
    destruct (cisd_projections K no nv h' g F I AG BF' BI T1 T2 S1 H2) as (R1 & R2 & e0 & HR & _ & Z1 & Z2 & _ & P1 & P2).
    exists R1, R2. do 3 (split; [assumption|]). intros X1 X2 SX1 SX2 EX1 EX2.
    assert (OR : t2_ok no nv R2).
    { destruct (ccsd_antisym K no nv F I T1 T2 "lccsd_simple" ltac:(cbn; auto) (proj1 BF) (blocks_I_ok K no nv g I AG BI) S1 H2) as (Q1 & Q2 & HQ & _ & OQ).
      pose proof (returns_fun K _ _ _ _ HR HQ) as Ee. injection Ee as _ ->. exact OQ. }
    split.
    - destruct (mp2_linear K no nv h' g F I AG BF' BI X1 X2 SX1 (X2_ok R2 X2 OR SX2 EX2)) as (en & He & _).
      exists en. split; [exact He|]. exact (pt3_energy R1 R2 X1 X2 OR P1 P2 SX1 SX2 EX1 EX2 en He).
    - exact (pt3_second_order R1 R2 X1 X2 OR P1 P2 SX2 EX1 EX2).
  Qed.
End Third.

Lemma choice1 (K : cring) (m : nat) (P : nat -> K -> Prop) :
  (forall a, (a < m)%nat -> exists x, P a x) -> exists f, forall a, (a < m)%nat -> P a (f a).
Proof.
  induction m as [|m IH]; intros E; [exists (fun _ => c0); lia|].
  destruct (IH (fun a L => E a (Nat.lt_lt_succ_r _ _ L))) as (f & Hf). destruct (E m (Nat.lt_succ_diag_r m)) as (x & Hx).
  exists (fun a => if Nat.eqb a m then x else f a). intros a L.
  destruct (Nat.eqb_spec a m) as [->|N]; [exact Hx|apply Hf; lia].
Qed.
Lemma choice2 (K : cring) (m k : nat) (P : nat -> nat -> K -> Prop) :
  (forall a i, (a < m)%nat -> (i < k)%nat -> exists x, P a i x) ->
  exists f, forall a i, (a < m)%nat -> (i < k)%nat -> P a i (f a i).
Proof.
  revert P. induction m as [|m IH]; intros P E; [exists (fun _ _ => c0); lia|].
  destruct (IH P (fun a i L => E a i (Nat.lt_lt_succ_r _ _ L))) as (f & Hf).
  destruct (choice1 K k (P m) (fun i => E m i (Nat.lt_succ_diag_r m))) as (x & Hx).
  exists (fun a i => if Nat.eqb a m then x i else f a i). intros a i L Li.
  destruct (Nat.eqb_spec a m) as [->|N]; [exact (Hx i Li)|apply Hf; lia].
Qed.

(** Hartree-Fock orbitals: the occupied-virtual blocks of the Fock matrix vanish *)
Section HF.
  Variable K : cring.
  Local Open Scope K_scope.
  Add Ring KrP3h : (c_th K).
  Variables no nv : nat.
  Variable h : nat -> nat -> K.
  Variable g : nat -> nat -> nat -> nat -> K.
  Variable F : one_e K.
  Variable I : two_e K.
  Hypothesis AG : antisym_ints (no + nv) g.
  Variables eo_ ev Da Db : tensor K.
  Notation e := (eps K no eo_ ev).
  Hypothesis BF : blocks1 no nv (off_energies e (fock no h g)) F.
  Hypothesis BI : blocks2 no nv g I.
  Variables T2 : tensor K.
  Hypothesis So : shp eo_ = [no].
  Hypothesis Sv : shp ev = [nv].
  Hypothesis HDa : D1 ev eo_ = Some Da.
  Hypothesis HDb : D2 ev eo_ = Some Db.
  Hypothesis S2 : shp T2 = [nv; nv; no; no].
  Hypothesis U1 : forall a i, (a < nv)%nat -> (i < no)%nat -> exists u, u * dat Da [a; i] = 1.
  Hypothesis U2 : forall a b i j, (a < nv)%nat -> (b < nv)%nat -> (i < no)%nat -> (j < no)%nat -> exists u, u * dat Db [a; b; i; j] = 1.
  Hypothesis Bvo : forall a i, (a < nv)%nat -> (i < no)%nat -> dat (vo F) [a; i] = 0.
  Hypothesis Bov : forall i a, (i < no)%nat -> (a < nv)%nat -> dat (ov F) [i; a] = 0.
  Hypothesis E2 : forall a b i j, (a < nv)%nat -> (b < nv)%nat -> (i < no)%nat -> (j < no)%nat ->
    dat T2 [a; b; i; j] * dat Db [a; b; i; j] = - dat (vvoo I) [a; b; i; j].
  Notation n := (no + nv)%nat.
  Notation ref := (aufbau n no).
  Notation H := (H_op n h g).
  Notation Z1 := (tzeros K [nv; no]).
  Notation H' := (H_op n (off_energies e h) g).
  Notation H0 := (diagonal n e).
  Notation E0 := (sumN (K := K) no (fun i => dat eo_ [i])).
  Notation V := (minus H H0).

  Lemma HF_E1 a i : (a < nv)%nat -> (i < no)%nat -> dat Z1 [a; i] * dat Da [a; i] = - dat (vo F) [a; i].
  Proof. intros La Li. rewrite Bvo by auto. cbn. ring. Qed.

  Lemma third_order_hf : exists R2,
    returns "lccd_simple" [py_one_e F; py_two_e I; arr T2] (arr R2) /\
    shp R2 = [nv; nv; no; no] /\
    forall X2, shp X2 = [nv; nv; no; no] ->
      (forall a b i j, (a < nv)%nat -> (b < nv)%nat -> (i < no)%nat -> (j < no)%nat ->
         dat X2 [a; b; i; j] * dat Db [a; b; i; j] = - dat R2 [a; b; i; j]) ->
      exists en, returns "mp2_energy" [arr Z1; arr X2; arr (ov F); arr (oovv I)] (numv en) /\
        forall Psi, second_order n ref H0 V E0 (amp ref V ref) (doubles no nv T2) Psi ->
          amp ref (opmul V (doubles no nv T2)) ref + amp ref (opmul V Psi) ref = en.
  Proof.
    pose proof (BF' K no nv h g F eo_ ev BF) as B'.
    pose proof (H2 K no nv g I AG eo_ ev Db BI T2 So Sv HDb S2 U2 E2) as O2.
    pose proof (blocks_I_ok K no nv g I AG BI) as OI.
    destruct (cisd_projections K no nv _ g F I AG B' BI Z1 T2 eq_refl O2) as (R1 & R2 & e0 & HR & _ & _ & _ & _ & P1 & P2).
    destruct (lccd_projections K no nv _ g F I AG B' BI T2 O2) as (Q2 & HQ & SQ & PQ).
    exists Q2. do 2 (split; [assumption|]). intros X2 SX2 EX2.
    assert (OQ : t2_ok no nv Q2).
    { destruct (ccd_antisym K no nv F I T2 "lccd_simple" ltac:(cbn; auto) (proj1 BF) OI O2) as (Q & HQ' & OQ).
      pose proof (returns_fun K _ _ _ _ HQ HQ') as Ee. injection Ee as ->. exact OQ. }
    assert (Dz : forall a b i j, (a < nv)%nat -> (b < nv)%nat -> (i < no)%nat -> (j < no)%nat -> disconnected K F Z1 a b i j = 0).
    { intros. unfold disconnected. cbn. ring. }
    assert (PQ' : forall a b i j s bra, (a < nv)%nat -> (b < nv)%nat -> (i < no)%nat -> (j < no)%nat ->
       act [Cre (no + a); Cre (no + b); Ann j; Ann i] ref = Some (s, bra) ->
       amp bra (opmul H' (one ++ cluster no nv Z1 T2)) ref
       = csgn s * (dat Q2 [a; b; i; j] + amp ref H' ref * dat T2 [a; b; i; j] + disconnected K F Z1 a b i j)).
    { intros a b i j s bra La Lb Li Lj E. pose proof (bra_length no nv _ _ _ E) as L. pose proof (PQ a b i j s bra La Lb Li Lj E) as P.
      change (doubles no nv T2) with (cluster no nv Z1 T2) in P.
      rewrite amp_eos, (HoneT_eos K no nv _ g F I AG B' BI Z1 T2), <- amp_eos, P by auto.
      rewrite (T_double K no nv g F I AG BI Z1 T2 O2 a b i j s bra La Lb Li Lj E), (TW_double K no nv g F I AG BI Z1 T2 O2 a b i j s bra La Lb Li Lj E), amp_eos. ring. }
    destruct (choice2 K nv no (fun a i x => x * dat Da [a; i] = - dat R1 [a; i])) as (f & Hf).
    { intros a i La Li. destruct (U1 a i La Li) as (u & Hu). exists (- (dat R1 [a; i] * u)).
      transitivity (- (dat R1 [a; i] * (u * dat Da [a; i]))); [ring|]. rewrite Hu. ring. }
    set (X1 := mkT [nv; no] (fun idx => match idx with [a; i] => f a i | _ => 0 end)).
    assert (EX2' : forall a b i j, (a < nv)%nat -> (b < nv)%nat -> (i < no)%nat -> (j < no)%nat ->
      dat X2 [a; b; i; j] * dat Db [a; b; i; j] = - (dat Q2 [a; b; i; j] + disconnected K F Z1 a b i j)).
    { intros a b i j La Lb Li Lj. rewrite EX2, Dz by auto. ring. }
    assert (SOV : shp (ov F) = [no; nv]) by (destruct (proj1 BF) as (_ & ? & _); assumption).
    assert (SOO : shp (oovv I) = [no; no; nv; nv]) by (destruct OI as [SI _]; unfold two_e_shape in SI; tauto).
    assert (Sz : forall T1, s1_sum K no nv T1 (ov F) = 0).
    { intros T1. unfold s1_sum. transitivity (sumN no (fun _ => 0 : K)); [|apply sumN_0]. apply sumN_ext. intros i Li.
      transitivity (sumN nv (fun _ => 0 : K)); [|apply sumN_0]. apply sumN_ext. intros a La. rewrite Bov by auto. ring. }
    pose proof (mp2_energy_formula K no nv X1 X2 (ov F) (oovv I) eq_refl SX2 SOV SOO) as ME.
    pose proof (mp2_energy_formula K no nv Z1 X2 (ov F) (oovv I) eq_refl SX2 SOV SOO) as MZ.
    eexists. split; [exact MZ|].
    intros Psi HP. change (doubles no nv T2) with (cluster no nv Z1 T2) in *.
    rewrite Sz in *.
    exact (pt3_energy K no nv h g F I AG eo_ ev Da Db BF BI Z1 T2 So Sv HDa HDb S2 U1 U2 HF_E1 E2 R1 Q2 X1 X2 OQ P1 PQ' eq_refl SX2 Hf EX2' _ ME Psi HP).
  Qed.
End HF.

Section OffOn.
  Variable K : cring.
  Add Ring KrP3o : (c_th K).
  Lemma off_on no e (h : nat -> nat -> K) g p q :
    off_energies e (fock no (fun p q => (h p q + (if Nat.eqb p q then e p else c0))%K) g) p q = fock no h g p q.
  Proof. unfold off_energies, fock. destruct (Nat.eqb p q); ring. Qed.
End OffOn.
