(** The CISD matrix of examples/cisd.py: main lemmas. *)
From Coq Require Import List Bool Arith ZArith Lia Ring String.
From Verif Require Import Scalar Tensor PySyntax PySem CCProg CIModel CISpec CIRep CIFacts CIStrings CIBases CIFock CIMatrix CILemmas CIVec CIExpSpec CIExp
  CCSpec CCFockSpec FockStates FockExp FockT FockH FockSchr FockPerm NpModel SpinModel SpinSpec SpinFacts SpinRound CCEquiv CCSym CCFock CCSchr
  CCSpin UFockSpec UFock UFockOps UCCSchr CIExpU CCCI PTSpec FockPT FockPT2 FockRef CISDSpec FockCISD UExamples ExModel ExSpec ExRow ExTransfer ExMain ExSpan ExCI.
Import ListNotations.
Local Open Scope list_scope.

Section CISD.
  Variable K : cring.
  Local Open Scope K_scope.
  Add Ring KrXD : (c_th K).
  Notation opsum := (list (K * list op)).
  Variables n noa nva nob nvb : nat.
  Variables ha hb : nat -> nat -> K.
  Variables Ia Ib Iab : nat -> nat -> nat -> nat -> K.
  Variables Fa Fb : one_e K.
  Variables Iaa Ibb : two_e K.
  Variable J : two_e_full K.
  Hypothesis HU : u_hamiltonian n noa nva nob nvb ha hb Ia Ib Iab Fa Fb Iaa Ibb J.
  Notation no := (noa + nob)%nat.
  Notation nv := (nva + nvb)%nat.
  Notation HS := (H_spatial_op n ha hb Ia Ib Iab).
  Notation A0 := (aufbau n noa).
  Notation B0 := (aufbau n nob).
  Notation refS := (A0 ++ B0).
  Notation ref := (aufbau (no + nv) no).
  Notation hc := (hC K n noa nva nob ha hb).
  Notation gc := (gC K n noa nva nob Ia Ib Iab).
  Notation H := (H_op (no + nv) hc gc).
  Notation M0 := (S (nva + nvb)).
  Notation HM0 := (Nat.lt_succ_diag_r (nva + nvb)).

  Lemma acts_one (A B : opsum) : acts_as K noa nob nva nvb A B -> acts_as K noa nob nva nvb (one ++ A) (one ++ B).
  Proof.
    intros [IA EA]. split; [constructor; [constructor|exact IA]|].
    intros psi t Lt. rewrite relabel_app, !eos_app, (EA psi t Lt). reflexivity.
  Qed.
  Lemma aneutral_one (A : opsum) : aneutral K n A -> aneutral K n (one ++ A).
  Proof. intros Q. constructor; [reflexivity|exact Q]. Qed.

  Variable L : list (det * det).
  Hypothesis ND : NoDup L.
  Hypothesis InL : forall x, In x L <-> u_space 2 A0 B0 x.
  Lemma InS2 x : In x L -> List.length (fst x) = n /\ List.length (snd x) = n /\ nel (fst x) = noa /\ nel (snd x) = nob.
  Proof. exact (in_lv K n noa nva nob nvb ha hb Ia Ib Iab Fa Fb Iaa Ibb J HU (fun k => (k <= 2)%nat) L InL x). Qed.

  Variables ha' hb' Ia' Ib' Iab' : tensor K.
  Hypothesis Pha : shp ha' = [n; n].
  Hypothesis Phb : shp hb' = [n; n].
  Hypothesis PIa : shp Ia' = [n; n; n; n].
  Hypothesis PIb : shp Ib' = [n; n; n; n].
  Hypothesis PIab : shp Iab' = [n; n; n; n].
  Hypothesis Eha : ha = (fun p q => dat ha' [p; q]).
  Hypothesis Ehb : hb = (fun p q => dat hb' [p; q]).
  Hypothesis EIa : Ia = (fun p q r s => dat Ia' [p; q; r; s]).
  Hypothesis EIb : Ib = (fun p q r s => dat Ib' [p; q; r; s]).
  Hypothesis EIab : Iab = (fun p q r s => dat Iab' [p; q; r; s]).
  Variable c : K.
  Notation MM := (rows K n ha' hb' Ia' Ib' Iab' c L).

  Lemma matrix_ok2 : ci_matrix (map dpair L) ha' hb' Ia' Ib' Iab' c = Some MM.
  Proof.
    pose proof HU as (Na & Nb & PA & PB & _).
    apply (ci_matrix_ok K n noa nob); try assumption; [rewrite <- EIa; exact PA|rewrite <- EIb; exact PB|apply InS2].
  Qed.

  Section Amps.
    Variables T1a T1b T2aa T2ab T2bb : tensor K.
    Hypothesis HT : u_amps_ok noa nva nob nvb T1a T1b T2aa T2ab T2bb.
    Variables F : one_e K.
    Variable I : two_e K.
    Variables T1 T2 : tensor K.
    Hypothesis EF : F_to_spin Fa Fb noa nva nob nvb = Some F.
    Hypothesis EI : int_to_spin2 Iaa Ibb J noa nva nob nvb = Some I.
    Hypothesis E1 : T1_to_spin T1a T1b noa nva nob nvb = Some T1.
    Hypothesis E2 : T2_to_spin T2aa T2ab T2bb noa nva nob nvb = Some T2.
    Notation TS := (u_cluster n noa nva nob nvb T1a T1b T2aa T2ab T2bb).
    Notation T := (cluster no nv T1 T2).

    Lemma cisd_eigen : exists R1 R2 e,
      returns "lccsd_simple"%string [py_one_e F; py_two_e I; arr T1; arr T2] (tup [arr R1; arr R2]) /\
      returns "mp2_energy"%string [arr T1; arr T2; arr (ov F); arr (oovv I)] (numv e) /\
      shp R1 = [nv; no] /\ shp R2 = [nv; nv; no; no] /\
      forall E, eigenvector MM (coefficients L (one ++ TS) refS) E <->
        E = c + u_energy noa nob ha hb Ia Ib Iab + e /\
        (forall a i, (a < nv)%nat -> (i < no)%nat -> dat R1 [a; i] = e * dat T1 [a; i]) /\
        (forall a b i j, (a < nv)%nat -> (b < nv)%nat -> (i < no)%nat -> (j < no)%nat -> a <> b -> i <> j ->
           dat R2 [a; b; i; j]
           + (dat (vo F) [a; i] * dat T1 [b; j] - dat (vo F) [a; j] * dat T1 [b; i]
              - dat (vo F) [b; i] * dat T1 [a; j] + dat (vo F) [b; j] * dat T1 [a; i])
           = e * dat T2 [a; b; i; j]).
    Proof.
      pose proof HU as (Na & Nb & PA & PB & BFa & BFb & BIa & BIb & BJ).
      pose proof (F_blocks K n noa nva nob nvb Na Nb ha hb Ia Ib Iab Fa Fb BFa BFb F EF) as BF.
      pose proof (I_blocks K n noa nva nob nvb Na Nb Ia Ib Iab Iaa Ibb J BIa BIb BJ I EI) as BI.
      pose proof (anti_gC K n noa nva nob nvb Na Nb Ia Ib Iab PA PB) as AG.
      pose proof HT as (O1 & O2 & O3 & O4 & O5).
      pose proof (T1_to_spin_ok K T1a T1b noa nva nob nvb O1 O2) as (T1'' & X1 & OT1 & _). rewrite E1 in X1. injection X1 as <-.
      pose proof (T2_to_spin_ok K T2aa T2ab T2bb noa nva nob nvb O3 O4 O5) as (T2'' & X2 & OT2 & _). rewrite E2 in X2. injection X2 as <-.
      destruct (cisd K no nv hc gc F I AG BF BI T1 T2 OT1 OT2) as (R1 & R2 & e & HR & He & Z1 & Z2 & Q).
      exists R1, R2, e. do 4 (split; [assumption|]). intros E.
      assert (AT : acts_as K noa nob nva nvb (one ++ T) (one ++ TS)).
      { apply acts_one. exact (acts_T K n noa nva nob nvb ha hb Ia Ib Iab Fa Fb Iaa Ibb J HU _ _ _ _ _ HT M0 HM0 T1 T2 E1 E2). }
      assert (NT : aneutral K n (one ++ TS)) by (apply aneutral_one, aneutral_T; assumption).
      assert (FAR : forall k bra, ~ (k <= 2)%nat -> excited k ref bra -> amp bra (one ++ T) ref = 0).
      { intros k bra Nk X. destruct (excited_vlev no nv k bra X) as (Lb & Nel & V).
        rewrite amp_eos, (oneT_eos K no nv T1 T2), (T_far K no nv) by (auto; right; lia). rewrite (kd_ref_not K no nv); [ring|].
        intros ->. rewrite vlev_aufbau in V. lia. }
      rewrite (eigen_rows K n noa nob ltac:(lia) ltac:(lia) ha' hb' Ia' Ib' Iab' c L ND InS2 (one ++ TS)).
      2: { apply (support K n noa nva nob nvb ha hb Ia Ib Iab Fa Fb Iaa Ibb J HU (one ++ T) (one ++ TS) AT (fun k => (k <= 2)%nat) L InL FAR). intros k. lia. }
      rewrite <- Eha, <- Ehb, <- EIa, <- EIb, <- EIab.
      rewrite (levels_iff K n noa nva nob nvb ha hb Ia Ib Iab Fa Fb Iaa Ibb J HU (one ++ T) (one ++ TS) AT NT (fun k => (k <= 2)%nat) L InL (E - c)).
      eapply iff_trans; [exact (Q (E - c))|].
      rewrite <- (ref_same K n noa nva nob nvb ha hb Ia Ib Iab Na Nb PA PB), (reference K n noa nva nob nvb ha hb Ia Ib Iab Na Nb PA PB).
      split; intros (QE & Q1 & Q2); split; auto.
      - transitivity (E - c + c); [ring|]. rewrite QE. ring.
      - rewrite QE. ring.
    Qed.
  End Amps.
End CISD.
