(** States A|0> and H A|0> over spatial orbitals and over spin orbitals. *)
From Coq Require Import List Bool Arith ZArith Lia Ring String.
From Verif Require Import Scalar Tensor PySyntax PySem CCProg CISpec CIRep CIFacts CIStrings CIFock CIMatrix CILemmas CIVec CIExpSpec CIExp
  CCSpec CCFockSpec FockStates FockExp FockT FockH FockSchr FockPerm NpModel SpinModel SpinSpec SpinFacts SpinRound CCEquiv CCSym CCFock CCSchr
  CCSpin UFockSpec UFock UFockOps UCCSchr CIExpU CCCI PTSpec FockPT FockPT2 ExModel ExSpec ExRow.
Import ListNotations.
Local Open Scope list_scope.

Section Generic.
  Variable K : cring.
  Local Open Scope K_scope.
  Add Ring KrET : (c_th K).
  Notation opsum := (list (K * list op)).
  Variables n noa nva nob nvb : nat.
  Variables ha hb : nat -> nat -> K.
  Variables Ia Ib Iab : nat -> nat -> nat -> nat -> K.
  Variables Fa Fb : one_e K.
  Variables Iaa Ibb : two_e K.
  Variable J : two_e_full K.
  Hypothesis HU : u_hamiltonian n noa nva nob nvb ha hb Ia Ib Iab Fa Fb Iaa Ibb J.
  Notation no := (noa + nob)%nat.
  Notation nv := (nva + nvb)%nat.
  Notation HS := (H_spatial_op n ha hb Ia Ib Iab).
  Notation A0 := (aufbau n noa).
  Notation B0 := (aufbau n nob).
  Notation refS := (A0 ++ B0).
  Notation ref := (aufbau (no + nv) no).
  Notation H := (H_op (no + nv) (hC K n noa nva nob ha hb) (gC K n noa nva nob Ia Ib Iab)).
  Notation mixs := (mix noa nva nob).
  Notation sg := (UCCSchr.sg K noa nva nob).
  Notation Up := (U K noa nob nva).
  Variables A B : opsum.
  Hypothesis AB : acts_as K noa nob nva nvb A B.
  Hypothesis NB : aneutral K n B.

  Lemma NN' : (noa + nob + nva + nvb = n + n)%nat.
  Proof. pose proof (proj1 HU). pose proof (proj1 (proj2 HU)). lia. Qed.
  Notation M0 := (S (nva + nvb)).
  Notation HM0 := (Nat.lt_succ_diag_r (nva + nvb)).
  Notation Uref := (U_ref K n noa nva nob nvb ha hb Ia Ib Iab Fa Fb Iaa Ibb J HU M0 HM0).
  Notation actsH := (acts_H K n noa nva nob nvb ha hb Ia Ib Iab Fa Fb Iaa Ibb J HU M0 HM0).

  Lemma amp_B t : List.length t = (n + n)%nat -> amp t B refS = sg t * amp (mixs t) A ref.
  Proof.
    intros L. pose proof NN' as HNN. rewrite !amp_eos.
    change (sg t * eos A (kd ref) (mixs t)) with (Up (eos A (kd ref)) t).
    rewrite (U_eos K noa nob nva nvb A B _ t AB) by lia. apply eos_ext. intros u Lu. symmetry. apply Uref. lia.
  Qed.
  Lemma amp_HB t : List.length t = (n + n)%nat -> amp t (opmul HS B) refS = sg t * amp (mixs t) (opmul H A) ref.
  Proof.
    intros L. pose proof NN' as HNN. rewrite !amp_eos.
    change (sg t * eos (opmul H A) (kd ref) (mixs t)) with (Up (eos (opmul H A) (kd ref)) t).
    rewrite (U_ext K noa nob nva nvb _ (eos H (eos A (kd ref))) t) by (try lia; intros u _; apply eos_opmul).
    rewrite (U_eos K noa nob nva nvb H HS _ t actsH) by lia. rewrite eos_opmul. apply eos_ext. intros u Lu.
    rewrite (U_eos K noa nob nva nvb A B _ u AB) by lia. apply eos_ext. intros w Lw. symmetry. apply Uref. lia.
  Qed.
  Lemma eqB_iff E t : List.length t = (n + n)%nat ->
    amp t (opmul HS B) refS = E * amp t B refS <-> amp (mixs t) (opmul H A) ref = E * amp (mixs t) A ref.
  Proof.
    intros L. rewrite (amp_B t L), (amp_HB t L).
    unfold UCCSchr.sg. destruct (FockPerm.eps noa nva nob t); cbn [CISpec.sgn]; split; intros Q.
    - transitivity (- (- (1) * amp (mixs t) (opmul H A) ref)); [ring|]. rewrite Q. ring.
    - rewrite Q. ring.
    - transitivity (1 * amp (mixs t) (opmul H A) ref); [ring|]. rewrite Q. ring.
    - rewrite Q. ring.
  Qed.
  Lemma off_B E t : List.length t = (n + n)%nat -> nel (firstn n t) <> noa -> amp t (opmul HS B) refS = E * amp t B refS.
  Proof.
    intros L D. rewrite !amp_eos, eos_opmul.
    pose proof (afix_ref K n noa nva nob nvb ha hb Ia Ib Iab Fa Fb Iaa Ibb J HU M0 HM0) as AR.
    pose proof (afix_eos K n B (Z.of_nat noa) _ NB AR) as AX.
    rewrite (afix_eos K n HS (Z.of_nat noa) _ (aneutral_H K n ha hb Ia Ib Iab) AX t L) by lia.
    rewrite (AX t L) by lia. ring.
  Qed.

  (** a basis of all determinants whose number of excitations is in lv *)
  Variable lv : nat -> Prop.
  Variable L : list (det * det).
  Hypothesis InL : forall x, In x L <-> exists ka kb, excited ka A0 (fst x) /\ excited kb B0 (snd x) /\ lv (ka + kb)%nat.

  Lemma levels_iff E : (forall x, In x L -> amp (lst x) (opmul HS B) refS = E * amp (lst x) B refS) <->
    (forall k bra, lv k -> excited k ref bra -> amp bra (opmul H A) ref = E * amp bra A ref).
  Proof.
    pose proof NN' as HNN. pose proof (proj1 HU) as Na. pose proof (proj1 (proj2 HU)) as Nb.
    pose proof (refS_len n noa nob) as LR.
    pose proof (excited_mix K n noa nva nob nvb ha hb Ia Ib Iab Fa Fb Iaa Ibb J HU M0 HM0) as EM. split.
    - intros S k bra Lk X. pose proof (proj1 X) as Lt. rewrite aufbau_length in Lt.
      assert (INV : exists u, List.length u = (n + n)%nat /\ bra = mixs u).
      { exists (mix noa nob nva bra). rewrite (mix_length noa nob nva nvb) by lia. split; [lia|].
        symmetry. apply (mix_mix noa nob nva nvb). lia. }
      destruct INV as (u & Lu & ->). apply EM in X; [|exact Lu]. apply eqB_iff; [exact Lu|].
      destruct (Nat.eq_dec (nel (firstn n u)) noa) as [Ea|Ea]; [|apply off_B; assumption].
      destruct X as (_ & Ne & D). rewrite nel_app, !nel_aufbau in Ne by lia.
      destruct (level2 n noa nob _ _ u eq_refl eq_refl ltac:(lia) ltac:(lia) Lu Ea Ne) as (ka & kb & Xa & Xb & Lv & _).
      rewrite <- (firstn_skipn n u). apply (S (firstn n u, skipn n u)). apply InL. exists ka, kb. cbn [fst snd].
      split; [exact Xa|]. split; [exact Xb|]. replace (ka + kb)%nat with k by lia. exact Lk.
    - intros S x Ix. apply InL in Ix as (ka & kb & (L1 & N1 & D1) & (L2 & N2 & D2) & Lk). rewrite aufbau_length in L1, L2.
      assert (Lx : List.length (lst x) = (n + n)%nat) by (unfold lst; rewrite app_length; lia).
      apply eqB_iff; [exact Lx|]. apply (S (ka + kb)%nat); [exact Lk|]. apply EM; [exact Lx|].
      split; [rewrite Lx, LR; reflexivity|]. unfold lst. split; [rewrite !nel_app; lia|]. rewrite ndiff_app by (rewrite aufbau_length; auto). lia.
  Qed.
  Lemma in_lv x : In x L -> List.length (fst x) = n /\ List.length (snd x) = n /\ nel (fst x) = noa /\ nel (snd x) = nob.
  Proof.
    intros I. apply InL in I as (ka & kb & (E1 & E2 & _) & (E3 & E4 & _) & _).
    pose proof (proj1 HU) as Na. pose proof (proj1 (proj2 HU)) as Nb.
    rewrite aufbau_length in E1, E3. rewrite nel_aufbau in E2, E4 by lia. auto.
  Qed.
  (** a state without components outside these levels *)
  Lemma support : (forall k bra, ~ lv k -> excited k ref bra -> amp bra A ref = 0) -> (forall k, lv k \/ ~ lv k) ->
    forall t, List.length t = (n + n)%nat -> nel (firstn n t) = noa -> nel t = no -> In t (map lst L) \/ amp t B refS = 0.
  Proof.
    intros Z Dec t Lt Ea En. pose proof (proj1 HU) as Na. pose proof (proj1 (proj2 HU)) as Nb.
    destruct (level2 n noa nob _ _ t eq_refl eq_refl ltac:(lia) ltac:(lia) Lt Ea En) as (ka & kb & Xa & Xb & Lv & _).
    destruct (Dec (ka + kb)%nat) as [Y|Y].
    - left. apply in_map_iff. exists (firstn n t, skipn n t). split; [unfold lst; cbn [fst snd]; apply firstn_skipn|].
      apply InL. exists ka, kb. auto.
    - right. rewrite amp_B by exact Lt.
      rewrite (Z (ka + kb)%nat); [ring|exact Y|].
      apply (excited_mix K n noa nva nob nvb ha hb Ia Ib Iab Fa Fb Iaa Ibb J HU M0 HM0); [exact Lt|].
      split; [rewrite Lt, refS_len; reflexivity|]. split; [rewrite En, nel_app, !nel_aufbau by lia; reflexivity|lia].
  Qed.
End Generic.
