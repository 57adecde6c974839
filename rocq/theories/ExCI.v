(** The CIS matrix of examples/cis.py: main lemmas. *)
From Coq Require Import List Bool Arith ZArith Lia Ring String.
From Verif Require Import Scalar Tensor PySyntax PySem CCProg CIModel CISpec CIRep CIFacts CIStrings CIBases CIFock CIMatrix CILemmas CIVec CIExpSpec CIExp
  CCSpec CCFockSpec FockStates FockExp FockT FockH FockSchr FockPerm NpModel SpinModel SpinSpec SpinFacts SpinRound CCEquiv CCSym CCFock CCSchr
  CCSpin UFockSpec UFock UFockOps UCCSchr CIExpU CCCI PTSpec FockPT FockPT2 FockRef CISDSpec FockCISD UExamples ExModel ExSpec ExRow ExCIS ExTransfer ExMain ExSpan.
Import ListNotations.
Local Open Scope list_scope.

(** the basis without the reference *)
Lemma ucis_singles n na nb : exists L, ucis_basis n na nb false = Some (map dpair L) /\ NoDup L /\
  forall x, In x L <-> exists ka kb, excited ka (aufbau n na) (fst x) /\ excited kb (aufbau n nb) (snd x) /\ ka + kb = 1.
Proof.
  destruct (ucis_no_ref n na nb) as (L & E1 & E2). destruct (ucis_ok n na nb) as (L' & E1' & ND & Hd & InL).
  assert (Q : map dpair ((aufbau n na, aufbau n nb) :: L) = map dpair L') by congruence.
  assert (INJ : forall l1 l2, map dpair l1 = map dpair l2 -> l1 = l2).
  { induction l1 as [|x l1 IH]; intros [|y l2] H; try discriminate; [reflexivity|].
    assert (H1 : dpair x = dpair y) by (cbn [map] in H; congruence). assert (H2 : map dpair l1 = map dpair l2) by (cbn [map] in H; congruence).
    f_equal; [|apply IH; exact H2]. apply dpair_inj. exact H1. }
  apply INJ in Q. subst L'. apply NoDup_map_inv in ND. inversion ND as [|? ? NI ND']; subst.
  exists L. split; [exact E2|]. split; [exact ND'|]. intros x. split.
  - intros Ix. destruct (proj1 (InL x) (or_intror Ix)) as (ka & kb & Xa & Xb & Q). exists ka, kb. split; [exact Xa|]. split; [exact Xb|].
    assert (C : ka + kb = 0 \/ ka + kb = 1) by lia. destruct C as [C|C]; [|exact C]. exfalso. apply NI.
    assert (ka = 0) as -> by lia. assert (kb = 0) as -> by lia. apply excited0 in Xa, Xb. rewrite <- Xa, <- Xb. destruct x; exact Ix.
  - intros (ka & kb & Xa & Xb & Q). assert (I : In x ((aufbau n na, aufbau n nb) :: L)).
    { apply InL. exists ka, kb. split; [exact Xa|]. split; [exact Xb|lia]. }
    destruct I as [<-|I]; [|exact I]. exfalso. cbn [fst snd] in *. destruct Xa as (_ & _ & Da), Xb as (_ & _ & Db). rewrite ndiff_refl in Da, Db. lia.
Qed.

Section CI.
  Variable K : cring.
  Local Open Scope K_scope.
  Add Ring KrCI : (c_th K).
  Notation opsum := (list (K * list op)).
  Variables n noa nva nob nvb : nat.
  Variables ha hb : nat -> nat -> K.
  Variables Ia Ib Iab : nat -> nat -> nat -> nat -> K.
  Hypothesis Na : (noa + nva)%nat = n.
  Hypothesis Nb : (nob + nvb)%nat = n.
  Hypothesis SA : pair_symmetric n Ia.
  Hypothesis SB : pair_symmetric n Ib.
  Notation no := (noa + nob)%nat.
  Notation nv := (nva + nvb)%nat.
  Notation HS := (H_spatial_op n ha hb Ia Ib Iab).
  Notation A0 := (aufbau n noa).
  Notation B0 := (aufbau n nob).
  Notation refS := (A0 ++ B0).
  Notation ref := (aufbau (no + nv) no).
  Notation hc := (hC K n noa nva nob ha hb).
  Notation gc := (gC K n noa nva nob Ia Ib Iab).
  Notation H := (H_op (no + nv) hc gc).
  Notation f := (fock no hc gc).
  Notation fa := (fock_alpha noa nob ha Ia Iab).
  Notation fb := (fock_beta noa nob hb Ib Iab).
  Notation M0 := (S (nva + nvb)).
  Notation HM0 := (Nat.lt_succ_diag_r (nva + nvb)).

  (** the hamiltonian over spin orbitals *)
  Lemma spin_ham : exists Fa Fb Iaa Ibb J F I,
    u_hamiltonian n noa nva nob nvb ha hb Ia Ib Iab Fa Fb Iaa Ibb J /\
    F_to_spin Fa Fb noa nva nob nvb = Some F /\ int_to_spin2 Iaa Ibb J noa nva nob nvb = Some I /\
    antisym_ints (no + nv) gc /\ blocks1 no nv f F /\ blocks2 no nv gc I.
  Proof.
    pose proof (build_ok K n noa nva nob nvb ha hb Ia Ib Iab Na Nb SA SB) as HU.
    match type of HU with u_hamiltonian _ _ _ _ _ _ _ _ _ _ ?a ?b ?c ?d ?e => exists a, b, c, d, e end.
    assert (HH := HU). eapply ham_ok in HH.
    destruct (uccsd_spin_shapes K _ _ _ _ _ _ _ _ _ _ _ _ _ _ HH (amps_ok K noa nva nob nvb (fun _ _ => 0) (fun _ _ => 0)))
      as (F & I & T1 & T2 & S1 & S2 & ta & tb & aa & ab & bb & S1' & S2' & EF & EI & _).
    pose proof HU as (_ & _ & PA & PB & BFa & BFb & BIa & BIb & BJ).
    exists F, I. split; [exact HU|]. split; [exact EF|]. split; [exact EI|].
    split; [exact (anti_gC K n noa nva nob nvb Na Nb Ia Ib Iab PA PB)|].
    split; [exact (F_blocks K n noa nva nob nvb Na Nb ha hb Ia Ib Iab _ _ BFa BFb F EF)|].
    exact (I_blocks K n noa nva nob nvb Na Nb Ia Ib Iab _ _ _ BIa BIb BJ I EI).
  Qed.

  Lemma ref_same : amp refS HS refS = amp ref H ref.
  Proof.
    destruct spin_ham as (Fa & Fb & Iaa & Ibb & J & F & I & HU & _).
    destruct (mix_refS K n noa nva nob nvb ha hb Ia Ib Iab Fa Fb Iaa Ibb J HU) as [MR SR].
    rewrite (amp_H K n noa nva nob nvb ha hb Ia Ib Iab Fa Fb Iaa Ibb J HU M0 HM0) by apply refS_len. rewrite MR, SR. ring.
  Qed.

  Lemma reference : amp refS HS refS = u_energy noa nob ha hb Ia Ib Iab.
  Proof.
    rewrite ref_same. destruct spin_ham as (Fa & Fb & Iaa & Ibb & J & F & I & _ & _ & _ & AG & BF & BI).
    rewrite (ref_hf K no nv hc gc F I AG BF BI).
    assert (HT : sumN no (fun i => hc i i) = sumN noa (fun i => ha i i) + sumN nob (fun i => hb i i)).
    { rewrite (sum_two K noa nob). f_equal; apply sumN_ext; intros i Li.
      - exact (hC_at K n noa nva nob nvb Na Nb ha hb false false false false i i Li Li).
      - exact (hC_at K n noa nva nob nvb Na Nb ha hb false false true true i i Li Li). }
    assert (G : forall s1 s2 i j, (i < side_len s1 noa nob)%nat -> (j < side_len s2 noa nob)%nat ->
      gc (at_spin noa s1 i) (at_spin noa s2 j) (at_spin noa s1 i) (at_spin noa s2 j)
      = match s1, s2 with false, false => anti Ia i j i j | true, true => anti Ib i j i j | false, true => Iab i j i j | true, false => Iab j i j i end).
    { intros s1 s2 i j Li Lj. pose proof (gC_at K n noa nva nob nvb Na Nb Ia Ib Iab false false false false s1 s2 s1 s2 i j i j Li Lj Li Lj) as Q.
      destruct s1, s2; exact Q. }
    assert (GT : sumN no (fun i => sumN no (fun j => gc i j i j))
      = sumN noa (fun i => sumN noa (fun j => anti Ia i j i j)) + sumN noa (fun i => sumN nob (fun j => Iab i j i j))
        + (sumN nob (fun i => sumN nob (fun j => anti Ib i j i j)) + sumN noa (fun i => sumN nob (fun j => Iab i j i j)))).
    { rewrite (sum_two K noa nob). f_equal.
      - rewrite <- sumN_add. apply sumN_ext. intros i Li. rewrite (sum_two K noa nob). f_equal; apply sumN_ext; intros j Lj.
        + exact (G false false i j Li Lj).
        + exact (G false true i j Li Lj).
      - rewrite (sumN_swap K noa nob), <- sumN_add. apply sumN_ext. intros i Li. rewrite (sum_two K noa nob).
        rewrite (sumN_ext K noa _ (fun j => Iab j i j i)) by (intros j Lj; exact (G true false i j Li Lj)).
        rewrite (sumN_ext K nob _ (fun j => anti Ib i j i j)) by (intros j Lj; exact (G true true i j Li Lj)). ring. }
    rewrite HT, GT. unfold u_energy.
    transitivity (sumN noa (fun i => ha i i) + sumN nob (fun i => hb i i)
      + chalf * sumN noa (fun i => sumN noa (fun j => anti Ia i j i j)) + chalf * sumN nob (fun i => sumN nob (fun j => anti Ib i j i j))
      + (chalf * sumN noa (fun i => sumN nob (fun j => Iab i j i j)) + chalf * sumN noa (fun i => sumN nob (fun j => Iab i j i j)))); [ring|].
    rewrite (half2 K). reflexivity.
  Qed.

  Lemma const_energy c : H_spatial n c ha hb Ia Ib Iab refS refS = c + u_energy noa nob ha hb Ia Ib Iab.
  Proof.
    rewrite <- reference, <- H_spatial_amp. unfold H_spatial. cbv zeta.
    assert (Q : braket (K := K) refS [] refS = 1) by (unfold braket; cbn [act]; rewrite det_eqb_refl; reflexivity).
    rewrite Q. ring.
  Qed.

  Variable L : list (det * det).
  Hypothesis ND : NoDup L.
  Hypothesis InL : forall x, In x L <-> exists ka kb, excited ka A0 (fst x) /\ excited kb B0 (snd x) /\ (ka + kb = 1)%nat.

  Variables ha' hb' Ia' Ib' Iab' : tensor K.
  Hypothesis Pha : shp ha' = [n; n].
  Hypothesis Phb : shp hb' = [n; n].
  Hypothesis PIa : shp Ia' = [n; n; n; n].
  Hypothesis PIb : shp Ib' = [n; n; n; n].
  Hypothesis PIab : shp Iab' = [n; n; n; n].
  Hypothesis Eha : ha = (fun p q => dat ha' [p; q]).
  Hypothesis Ehb : hb = (fun p q => dat hb' [p; q]).
  Hypothesis EIa : Ia = (fun p q r s => dat Ia' [p; q; r; s]).
  Hypothesis EIb : Ib = (fun p q r s => dat Ib' [p; q; r; s]).
  Hypothesis EIab : Iab = (fun p q r s => dat Iab' [p; q; r; s]).
  Variable c : K.
  Notation MM := (rows K n ha' hb' Ia' Ib' Iab' c L).

  Lemma InS x : In x L -> List.length (fst x) = n /\ List.length (snd x) = n /\ nel (fst x) = noa /\ nel (snd x) = nob.
  Proof.
    destruct spin_ham as (Fa & Fb & Iaa & Ibb & J & F & I & HU & _).
    exact (in_lv K n noa nva nob nvb ha hb Ia Ib Iab Fa Fb Iaa Ibb J HU (fun k => k = 1%nat) L InL x).
  Qed.
  Lemma matrix_ok : ci_matrix (map dpair L) ha' hb' Ia' Ib' Iab' c = Some MM.
  Proof.
    apply (ci_matrix_ok K n noa nob); try assumption; [rewrite <- EIa; exact SA|rewrite <- EIb; exact SB|apply InS].
  Qed.

  Lemma cis_eigen ta tb E :
    eigenvector MM (coefficients L (u_singles n noa nva nob nvb ta tb) refS) E <->
    (forall a i, (a < nva)%nat -> (i < noa)%nat ->
       cis_alpha noa nva nob nvb fa Ia Iab ta tb a i = (E - (c + u_energy noa nob ha hb Ia Ib Iab)) * ta a i) /\
    (forall a i, (a < nvb)%nat -> (i < nob)%nat ->
       cis_beta noa nva nob nvb fb Ib Iab ta tb a i = (E - (c + u_energy noa nob ha hb Ia Ib Iab)) * tb a i).
  Proof.
    destruct spin_ham as (Fa & Fb & Iaa & Ibb & J & F & I & HU & EF & EI & AG & BF & BI).
    pose proof (amps_ok K noa nva nob nvb ta tb) as HT. pose proof HT as (O1 & O2 & O3 & O4 & O5).
    pose proof (T1_to_spin_ok K _ _ noa nva nob nvb O1 O2) as (T1 & E1 & OT1 & _).
    pose proof (T2_to_spin_ok K _ _ _ noa nva nob nvb O3 O4 O5) as (T2 & E2 & OT2 & _).
    pose proof (T2_zero K noa nva nob nvb T2 E2) as Z2.
    set (TS := u_cluster n noa nva nob nvb (Ta K noa nva ta) (Tb K nob nvb tb) (tzeros K [nva; nva; noa; noa]) (tzeros K [nva; nvb; noa; nob]) (tzeros K [nvb; nvb; nob; nob])).
    set (T := cluster no nv T1 T2).
    assert (AT : acts_as K noa nob nva nvb T TS).
    { exact (acts_T K n noa nva nob nvb ha hb Ia Ib Iab Fa Fb Iaa Ibb J HU _ _ _ _ _ HT M0 HM0 T1 T2 E1 E2). }
    assert (NT : aneutral K n TS) by (apply aneutral_T; assumption).
    assert (CO : coefficients L (u_singles n noa nva nob nvb ta tb) refS = coefficients L TS refS).
    { unfold coefficients. apply map_ext. intros x. apply amp_SS. }
    rewrite CO.
    assert (FAR : forall k bra, k <> 1%nat -> excited k ref bra -> amp bra T ref = 0).
    { intros k bra Nk X. rewrite amp_eos. destruct (excited_vlev no nv k bra X) as (Lb & Nel & V).
      destruct (dets no nv bra Lb) as [Q|[->|[(a & i & s & La & Li & EA)|(a & b & i & j & s & La & Lb' & Li & Lj & EA)]]].
      - apply T_far; assumption.
      - apply T_ref.
      - exfalso. apply Nk. pose proof (one_excited no nv a i s bra La Li EA) as (_ & _ & D1). destruct X as (_ & _ & D). lia.
      - unfold T. rewrite (T_double K no nv gc F I AG BI T1 T2 OT2 a b i j s bra La Lb' Li Lj EA), Z2 by assumption. ring. }
    rewrite (eigen_rows K n noa nob ltac:(lia) ltac:(lia) ha' hb' Ia' Ib' Iab' c L ND InS TS).
    2: { apply (support K n noa nva nob nvb ha hb Ia Ib Iab Fa Fb Iaa Ibb J HU T TS AT (fun k => k = 1%nat) L InL FAR). intros k. lia. }
    rewrite <- Eha, <- Ehb, <- EIa, <- EIb, <- EIab.
    rewrite (levels_iff K n noa nva nob nvb ha hb Ia Ib Iab Fa Fb Iaa Ibb J HU T TS AT NT (fun k => k = 1%nat) L InL (E - c)).
    destruct (cisd_projections K no nv hc gc F I AG BF BI T1 T2 OT1 OT2) as (R1 & R2 & e & HR & _).
    assert (CIS : (forall bra, excited 1 ref bra -> amp bra (opmul H T) ref = (E - c) * amp bra T ref) <->
      (forall a i, (a < nv)%nat -> (i < no)%nat -> sigma K n noa nva nob nvb ha hb Ia Ib Iab T1 a i = (E - c - amp ref H ref) * dat T1 [a; i])).
    { destruct (cis_any K no nv hc gc F I AG BF BI T1 T2 OT1 OT2) as (R1' & R2' & HR' & _ & Q).
      eapply iff_trans; [exact (Q (E - c))|]. split; intros P a i La Li.
      - rewrite <- (P a i La Li). symmetry. exact (cis_formula K no nv hc gc F I AG BF BI T1 T2 OT1 OT2 Z2 R1' R2' HR' a i La Li).
      - rewrite (cis_formula K no nv hc gc F I AG BF BI T1 T2 OT1 OT2 Z2 R1' R2' HR' a i La Li). exact (P a i La Li). }
    transitivity (forall bra, excited 1 ref bra -> amp bra (opmul H T) ref = (E - c) * amp bra T ref).
    { split; [intros Q bra X; exact (Q 1%nat bra eq_refl X)|intros Q k bra -> X; exact (Q bra X)]. }
    rewrite CIS, <- ref_same, reference.
    replace (E - (c + u_energy noa nob ha hb Ia Ib Iab)) with (E - c - u_energy noa nob ha hb Ia Ib Iab) by ring.
    apply (sigma_solves K n noa nva nob nvb ha hb Ia Ib Iab Na Nb ta tb T1 E1).
  Qed.
End CI.
