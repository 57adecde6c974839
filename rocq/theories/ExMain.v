(** The eigenvectors of the CIS matrix. *)
From Coq Require Import List Bool Arith ZArith Lia Ring String.
From Verif Require Import Scalar Tensor PySyntax PySem CCProg CIModel CISpec CIRep CIFacts CIStrings CIFock CIMatrix CILemmas CIVec CIExpSpec CIExp
  CCSpec CCFockSpec FockStates FockExp FockT FockH FockSchr FockPerm NpModel SpinModel SpinSpec SpinFacts SpinRound CCEquiv CCSym CCFock CCSchr
  CCSpin UFockSpec UFock UFockOps UCCSchr CIExpU CCCI PTSpec FockPT FockPT2 CISDSpec FockCISD ExModel ExSpec ExRow ExCIS ExTransfer.
Import ListNotations.
Local Open Scope list_scope.

Section CISMain.
  Variable K : cring.
  Local Open Scope K_scope.
  Add Ring KrEM : (c_th K).
  Notation opsum := (list (K * list op)).
  Variables n noa nva nob nvb : nat.
  Variables ha hb : nat -> nat -> K.
  Variables Ia Ib Iab : nat -> nat -> nat -> nat -> K.
  Hypothesis Na : (noa + nva)%nat = n.
  Hypothesis Nb : (nob + nvb)%nat = n.
  Hypothesis SA : pair_symmetric n Ia.
  Hypothesis SB : pair_symmetric n Ib.
  Variables ta tb : nat -> nat -> K.
  Notation no := (noa + nob)%nat.
  Notation nv := (nva + nvb)%nat.
  Notation HS := (H_spatial_op n ha hb Ia Ib Iab).
  Notation A0 := (aufbau n noa).
  Notation B0 := (aufbau n nob).
  Notation refS := (A0 ++ B0).
  Notation ref := (aufbau (no + nv) no).
  Notation hc := (hC K n noa nva nob ha hb).
  Notation gc := (gC K n noa nva nob Ia Ib Iab).
  Notation H := (H_op (no + nv) hc gc).
  Notation f := (fock no hc gc).
  Notation fa := (fock_alpha noa nob ha Ia Iab).
  Notation fb := (fock_beta noa nob hb Ib Iab).

  Definition Ta : tensor K := mkT [nva; noa] (fun ix => ta (nth 0 ix 0%nat) (nth 1 ix 0%nat)).
  Definition Tb : tensor K := mkT [nvb; nob] (fun ix => tb (nth 0 ix 0%nat) (nth 1 ix 0%nat)).
  Notation Zaa := (tzeros K [nva; nva; noa; noa]).
  Notation Zab := (tzeros K [nva; nvb; noa; nob]).
  Notation Zbb := (tzeros K [nvb; nvb; nob; nob]).
  Notation TS := (u_cluster n noa nva nob nvb Ta Tb Zaa Zab Zbb).
  Notation SS := (u_singles n noa nva nob nvb ta tb).
  Lemma amps_ok : u_amps_ok noa nva nob nvb Ta Tb Zaa Zab Zbb.
  Proof. split; [reflexivity|]. split; [reflexivity|]. split; [apply SOCtx.zeroT2_ok|]. split; [reflexivity|apply SOCtx.zeroT2_ok]. Qed.

  Lemma eos_zero (A : opsum) psi t : Forall (fun x => fst x = 0) A -> eos A psi t = 0.
  Proof. intros Q. unfold eos. apply SL_zero. intros x Hx. rewrite Forall_forall in Q. rewrite (Q x Hx). ring. Qed.
  Ltac zero_ops := apply Forall_forall; intros ? ?; repeat match goal with
    | H : In _ (flat_map _ _) |- _ => apply in_flat_map in H as (? & ? & ?)
    | H : In _ (map _ _) |- _ => apply in_map_iff in H as (? & <- & ?)
    | x : (nat * nat)%type |- _ => destruct x
    end; cbn [fst snd dat tzeros]; ring.
  Lemma eos_SS psi t : eos SS psi t = eos TS psi t.
  Proof.
    unfold u_singles, u_cluster, T_spins. rewrite !eos_app.
    rewrite (eos_zero (T_alpha2 _ _ _)), (eos_zero (T_mixed2 _ _ _ _ _ _)), (eos_zero (T_beta2 _ _ _ _)).
    - assert (G : forall x y : K, x + y = x + (y + (0 + (0 + 0)))) by (intros; ring). exact (G _ _).
    - unfold T_beta2, doubles. zero_ops.
    - unfold T_mixed2, mixed_doubles. zero_ops.
    - unfold T_alpha2, doubles. zero_ops.
  Qed.
  Lemma amp_SS t : amp t SS refS = amp t TS refS.
  Proof. rewrite !amp_eos. apply eos_SS. Qed.
  Lemma amp_HSS t : amp t (opmul HS SS) refS = amp t (opmul HS TS) refS.
  Proof. rewrite !amp_eos, !eos_opmul. apply eos_ext. intros u _. apply eos_SS. Qed.

  Variables T1 T2 : tensor K.
  Hypothesis E1 : T1_to_spin Ta Tb noa nva nob nvb = Some T1.
  Hypothesis E2 : T2_to_spin Zaa Zab Zbb noa nva nob nvb = Some T2.

  Lemma T1_at s1 s2 a i : (a < side_len s1 nva nvb)%nat -> (i < side_len s2 noa nob)%nat ->
    dat T1 [at_spin nva s1 a; at_spin noa s2 i] = match s1, s2 with false, false => ta a i | true, true => tb a i | _, _ => 0 end.
  Proof.
    intros La Li. destruct (T1_to_spin_holds K Ta Tb noa nva nob nvb eq_refl eq_refl) as (x & Ex & H1). rewrite E1 in Ex. injection Ex as <-.
    rewrite (entry2 K _ _ _ _ _ _ s1 s2 a i H1 La Li). destruct s1, s2; reflexivity.
  Qed.
  Lemma T2_zero a b i j : (a < nv)%nat -> (b < nv)%nat -> (i < no)%nat -> (j < no)%nat -> dat T2 [a; b; i; j] = 0.
  Proof.
    intros La Lb Li Lj. destruct (T2_to_spin_holds K Zaa Zab Zbb noa nva nob nvb eq_refl eq_refl eq_refl) as (x & Ex & H2). rewrite E2 in Ex. injection Ex as <-.
    destruct (at_split _ _ _ La) as (s1 & a' & -> & La'). destruct (at_split _ _ _ Lb) as (s2 & b' & -> & Lb').
    destruct (at_split _ _ _ Li) as (s3 & i' & -> & Li'). destruct (at_split _ _ _ Lj) as (s4 & j' & -> & Lj').
    rewrite (entry4 K _ _ _ _ _ _ _ _ _ _ s1 s2 s3 s4 a' b' i' j' H2) by assumption.
    destruct s1, s2, s3, s4; cbn [spin4_anti spin4]; try reflexivity; cbn [tneg swap_both swap_ket swap_bra swap map nth dat shp tzeros]; ring.
  Qed.

  Lemma f_vv s1 s2 a b : (a < side_len s1 nva nvb)%nat -> (b < side_len s2 nva nvb)%nat ->
    f (no + at_spin nva s1 a)%nat (no + at_spin nva s2 b)%nat
    = match s1, s2 with false, false => fa (noa + a)%nat (noa + b)%nat | true, true => fb (nob + a)%nat (nob + b)%nat | _, _ => 0 end.
  Proof.
    intros La Lb. exact (fock_at K n noa nva nob nvb Na Nb ha hb Ia Ib Iab true true s1 s2 a b La Lb).
  Qed.
  Lemma f_oo s1 s2 j i : (j < side_len s1 noa nob)%nat -> (i < side_len s2 noa nob)%nat ->
    f (at_spin noa s1 j) (at_spin noa s2 i) = match s1, s2 with false, false => fa j i | true, true => fb j i | _, _ => 0 end.
  Proof.
    intros La Lb. exact (fock_at K n noa nva nob nvb Na Nb ha hb Ia Ib Iab false false s1 s2 j i La Lb).
  Qed.
  Lemma g_vovo s1 s2 s3 s4 a j b i : (a < side_len s1 nva nvb)%nat -> (j < side_len s2 noa nob)%nat -> (b < side_len s3 nva nvb)%nat -> (i < side_len s4 noa nob)%nat ->
    gc (no + at_spin nva s1 a)%nat (at_spin noa s2 j) (no + at_spin nva s3 b)%nat (at_spin noa s4 i)
    = let p := (side_len s1 noa nob + a)%nat in let r := (side_len s3 noa nob + b)%nat in
      match s1, s2, s3, s4 with
      | false, false, false, false => anti Ia p j r i
      | true, true, true, true => anti Ib p j r i
      | false, true, false, true => Iab p j r i
      | true, false, true, false => Iab j p i r
      | false, true, true, false => - Iab p j i r
      | true, false, false, true => - Iab j p r i
      | _, _, _, _ => 0
      end.
  Proof.
    intros La Lj Lb Li. exact (gC_at K n noa nva nob nvb Na Nb Ia Ib Iab true false true false s1 s2 s3 s4 a j b i La Lj Lb Li).
  Qed.

  Definition sigma (a i : nat) : K :=
    sumN nv (fun b => f (no + a)%nat (no + b)%nat * dat T1 [b; i]) - sumN no (fun j => f j i * dat T1 [a; j])
    - sumN nv (fun b => sumN no (fun j => gc (no + a)%nat j (no + b)%nat i * dat T1 [b; j])).

  Lemma sum_two m1 m2 (F : nat -> K) : sumN (m1 + m2) F = sumN m1 (fun i => F (at_spin m1 false i)) + sumN m2 (fun i => F (at_spin m1 true i)).
  Proof. rewrite sumN_plus. reflexivity. Qed.
  Lemma sum_neg m (F : nat -> K) : sumN m (fun i => - F i) = - sumN m F.
  Proof. transitivity (sumN m (fun i => - (1) * F i)); [apply sumN_ext; intros; ring|]. rewrite sumN_mul_l. ring. Qed.
  Lemma sum_z m (F : nat -> K) : (forall i, (i < m)%nat -> F i = 0) -> sumN m F = 0.
  Proof. intros Q. rewrite <- (sumN_0 K m). apply sumN_ext. exact Q. Qed.

  Lemma sigma_at s1 s2 a i : (a < side_len s1 nva nvb)%nat -> (i < side_len s2 noa nob)%nat ->
    sigma (at_spin nva s1 a) (at_spin noa s2 i)
    = match s1, s2 with
      | false, false => cis_alpha noa nva nob nvb fa Ia Iab ta tb a i
      | true, true => cis_beta noa nva nob nvb fb Ib Iab ta tb a i
      | _, _ => 0
      end.
  Proof.
    intros La Li. unfold sigma.
    rewrite (sum_two nva nvb), (sum_two noa nob), (sum_two nva nvb).
    rewrite (sumN_ext K nva (fun b => sumN no (fun j => gc (no + at_spin nva s1 a)%nat j (no + at_spin nva false b)%nat (at_spin noa s2 i) * dat T1 [at_spin nva false b; j]))
      (fun b => sumN noa (fun j => gc (no + at_spin nva s1 a)%nat (at_spin noa false j) (no + at_spin nva false b)%nat (at_spin noa s2 i) * dat T1 [at_spin nva false b; at_spin noa false j])
        + sumN nob (fun j => gc (no + at_spin nva s1 a)%nat (at_spin noa true j) (no + at_spin nva false b)%nat (at_spin noa s2 i) * dat T1 [at_spin nva false b; at_spin noa true j])))
      by (intros b _; apply sum_two).
    rewrite (sumN_ext K nvb (fun b => sumN no (fun j => gc (no + at_spin nva s1 a)%nat j (no + at_spin nva true b)%nat (at_spin noa s2 i) * dat T1 [at_spin nva true b; j]))
      (fun b => sumN noa (fun j => gc (no + at_spin nva s1 a)%nat (at_spin noa false j) (no + at_spin nva true b)%nat (at_spin noa s2 i) * dat T1 [at_spin nva true b; at_spin noa false j])
        + sumN nob (fun j => gc (no + at_spin nva s1 a)%nat (at_spin noa true j) (no + at_spin nva true b)%nat (at_spin noa s2 i) * dat T1 [at_spin nva true b; at_spin noa true j])))
      by (intros b _; apply sum_two).
    set (va := match s1, s2 with false, false => fun b => fa (noa + a)%nat (noa + b)%nat * ta b i | _, _ => fun _ => 0 end).
    set (vb := match s1, s2 with true, true => fun b => fb (nob + a)%nat (nob + b)%nat * tb b i | _, _ => fun _ => 0 end).
    set (oa := match s1, s2 with false, false => fun j => fa j i * ta a j | _, _ => fun _ => 0 end).
    set (ob := match s1, s2 with true, true => fun j => fb j i * tb a j | _, _ => fun _ => 0 end).
    set (wa := match s1, s2 with
      | false, false => fun b j => - (anti Ia (noa + a) j i (noa + b) * ta b j)
      | true, true => fun b j => - (Iab j (nob + a)%nat (noa + b)%nat i * ta b j)
      | _, _ => fun _ _ => 0 end).
    set (wb := match s1, s2 with
      | false, false => fun b j => - (Iab (noa + a)%nat j i (nob + b)%nat * tb b j)
      | true, true => fun b j => - (anti Ib (nob + a) j i (nob + b) * tb b j)
      | _, _ => fun _ _ => 0 end).
    rewrite (sumN_ext K nva _ va) by (intros b Lb; rewrite (f_vv s1 false a b La Lb), (T1_at false s2 b i Lb Li); unfold va; destruct s1, s2; ring).
    rewrite (sumN_ext K nvb _ vb) by (intros b Lb; rewrite (f_vv s1 true a b La Lb), (T1_at true s2 b i Lb Li); unfold vb; destruct s1, s2; ring).
    rewrite (sumN_ext K noa (fun j => f (at_spin noa false j) _ * _) oa) by (intros j Lj; rewrite (f_oo false s2 j i Lj Li), (T1_at s1 false a j La Lj); unfold oa; destruct s1, s2; ring).
    rewrite (sumN_ext K nob (fun j => f (at_spin noa true j) _ * _) ob) by (intros j Lj; rewrite (f_oo true s2 j i Lj Li), (T1_at s1 true a j La Lj); unfold ob; destruct s1, s2; ring).
    rewrite (sumN_ext K nva (fun b => sumN noa _ + sumN nob _) (fun b => sumN noa (wa b))).
    2: { intros b Lb. rewrite (sum_z nob) by (intros j Lj; rewrite (T1_at false true b j Lb Lj); ring).
      transitivity (sumN noa (wa b) + 0); [f_equal|ring]. apply sumN_ext. intros j Lj.
      rewrite (g_vovo s1 false false s2 a j b i La Lj Lb Li), (T1_at false false b j Lb Lj). unfold wa, anti. destruct s1, s2; cbn [side_len]; ring. }
    rewrite (sumN_ext K nvb (fun b => sumN noa _ + sumN nob _) (fun b => sumN nob (wb b))).
    2: { intros b Lb. rewrite (sum_z noa) by (intros j Lj; rewrite (T1_at true false b j Lb Lj); ring).
      transitivity (0 + sumN nob (wb b)); [f_equal|ring]. apply sumN_ext. intros j Lj.
      rewrite (g_vovo s1 true true s2 a j b i La Lj Lb Li), (T1_at true true b j Lb Lj). unfold wb, anti. destruct s1, s2; cbn [side_len]; ring. }
    unfold va, vb, oa, ob, wa, wb, cis_alpha, cis_beta. clear va vb oa ob wa wb.
    assert (NG : forall m1 m2 (F : nat -> nat -> K), sumN m1 (fun b => sumN m2 (fun j => - F b j)) = - sumN m1 (fun b => sumN m2 (F b))).
    { intros m1 m2 F. rewrite <- sum_neg. apply sumN_ext. intros b _. apply sum_neg. }
    assert (ZZ : forall m1 m2, sumN m1 (fun _ => sumN m2 (fun _ => 0)) = 0 :> K).
    { intros. apply sum_z. intros. apply sumN_0. }
    destruct s1, s2; rewrite ?ZZ, ?NG, ?sumN_0; ring.
  Qed.

  Lemma sigma_solves w :
    (forall a i, (a < nv)%nat -> (i < no)%nat -> sigma a i = w * dat T1 [a; i]) <->
    (forall a i, (a < nva)%nat -> (i < noa)%nat -> cis_alpha noa nva nob nvb fa Ia Iab ta tb a i = w * ta a i) /\
    (forall a i, (a < nvb)%nat -> (i < nob)%nat -> cis_beta noa nva nob nvb fb Ib Iab ta tb a i = w * tb a i).
  Proof.
    split.
    - intros Q. split; intros a i La Li.
      + specialize (Q (at_spin nva false a) (at_spin noa false i)).
        rewrite (sigma_at false false a i La Li), (T1_at false false a i La Li) in Q. apply Q; cbn [at_spin]; lia.
      + specialize (Q (at_spin nva true a) (at_spin noa true i)).
        rewrite (sigma_at true true a i La Li), (T1_at true true a i La Li) in Q. apply Q; cbn [at_spin]; lia.
    - intros [QA QB] a i La Li. destruct (at_split _ _ _ La) as (s1 & a' & -> & La'). destruct (at_split _ _ _ Li) as (s2 & i' & -> & Li').
      rewrite (sigma_at s1 s2 a' i' La' Li'), (T1_at s1 s2 a' i' La' Li').
      destruct s1, s2; [apply QB; assumption|ring|ring|apply QA; assumption].
  Qed.
End CISMain.
