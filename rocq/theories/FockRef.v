(** The energy of the reference determinant. *)
From Coq Require Import List Bool Arith ZArith Lia Ring String.
From Verif Require Import Scalar Tensor PySyntax PySem PySim Sym SymSound Norm CCProg CCSpec Engine Tools SOCtx CCEquiv CCDeriv
  CISpec CIExpSpec CCFockSpec FockStates FockT WickSym FockH CCFock FockLin FockPT.
Import ListNotations.
Local Open Scope string_scope.
Local Open Scope list_scope.

Section Ref.
  Variable K : cring.
  Local Open Scope K_scope.
  Add Ring KrRef : (c_th K).
  Variables (no nv : nat) (h : nat -> nat -> K) (g : nat -> nat -> nat -> nat -> K) (F : one_e K) (I : two_e K).
  Hypothesis AG : antisym_ints (no + nv) g.
  Hypothesis BF : blocks1 no nv (fock no h g) F.
  Hypothesis BI : blocks2 no nv g I.
  Notation ref := (aufbau (no + nv) no).
  Notation Z1 := (tzeros K [nv; no]).
  Notation Z2 := (tzeros K [nv; nv; no; no]).
  Lemma half2 (x : K) : chalf * x + chalf * x = x.
  Proof. transitivity ((chalf + chalf) * x); [ring|]. rewrite (c_half K). ring. Qed.

  Lemma energy_zero e : returns "cc_energy" [arr Z1; arr Z2; arr (ov F); arr (oovv I)] (numv e) -> e = 0.
  Proof.
    intros HR. destruct BF as ((_ & OV & _) & _). destruct BI as (_ & _ & _ & _ & _ & [OOVV _] & _).
    pose proof (cc_energy_formula K no nv Z1 Z2 (ov F) (oovv I) eq_refl eq_refl OV OOVV) as HF.
    pose proof (returns_fun K _ _ _ _ HR HF) as Q.
    assert (Q' : e = s1_sum K no nv Z1 (ov F) + quarter * d_sum K no nv Z2 (oovv I) + chalf * s2_sum K no nv Z1 (oovv I)).
    { injection Q. auto. }
    rewrite Q'.
    assert (N1 : s1_sum K no nv Z1 (ov F) = 0).
    { unfold s1_sum. rewrite <- (sumN_0 K no). apply sumN_ext. intros i _. rewrite <- (sumN_0 K nv). apply sumN_ext. intros a _. cbn. ring. }
    assert (N2 : d_sum K no nv Z2 (oovv I) = 0).
    { unfold d_sum. rewrite <- (sumN_0 K no). apply sumN_ext. intros i _. rewrite <- (sumN_0 K no). apply sumN_ext. intros j _.
      rewrite <- (sumN_0 K nv). apply sumN_ext. intros a _. rewrite <- (sumN_0 K nv). apply sumN_ext. intros b _. cbn. ring. }
    assert (N3 : s2_sum K no nv Z1 (oovv I) = 0).
    { unfold s2_sum. rewrite <- (sumN_0 K no). apply sumN_ext. intros i _. rewrite <- (sumN_0 K no). apply sumN_ext. intros j _.
      rewrite <- (sumN_0 K nv). apply sumN_ext. intros a _. rewrite <- (sumN_0 K nv). apply sumN_ext. intros b _. cbn. ring. }
    rewrite N1, N2, N3. ring.
  Qed.

  (** <0|H|0> = sum h_ii + 1/2 sum <ij||ij> *)
  Lemma ref_hf : amp ref (H_op (no + nv) h g) ref
    = sumN no (fun i => h i i) + chalf * sumN no (fun i => sumN no (fun j => g i j i j)).
  Proof.
    destruct (phi_energy K no nv h g F I AG BF BI Z1 Z2 (zeroT1_ok K no nv) (zeroT2_ok K no nv)) as (e & HR & E).
    rewrite (energy_zero e HR) in E. rewrite (phi_zero K no nv) in E. rewrite amp_eos, E.
    unfold e_ref, den, den_mono, den_fac. cbn [map lsum m_z m_k m_dm m_fs prodK sumL fst snd so_rho look nth so_dim cO].
    destruct BF as (_ & OO & _). destruct BI as (_ & _ & _ & _ & _ & _ & _ & _ & [_ O4]).
    rewrite dyad10, dyadm11.
    transitivity (sumN no (fun i => h i i + sumN no (fun j => g i j i j)) + - chalf * sumN no (fun i => sumN no (fun j => g i j i j))).
    - rewrite (sumN_ext K no (fun i => dat (oo F) [i; i] * 1) (fun i => h i i + sumN no (fun j => g i j i j))).
      + rewrite (sumN_ext K no (fun i => sumN no (fun j => dat (oooo I) [i; j; i; j] * 1)) (fun i => sumN no (fun j => g i j i j))); [ring|].
        intros i Li. apply sumN_ext. intros j Lj. rewrite O4 by auto. cbn [Nat.add]. ring.
      + intros i Li. rewrite OO by auto. unfold fock. ring.
    - rewrite sumN_add. set (x := sumN no (fun i => sumN no (fun j => g i j i j))).
      rewrite <- (half2 x) at 1. ring.
  Qed.
End Ref.
