(** Configuration interaction with single and double excitations in terms of the
    linearised residuals: H T = [H, T] + T H. *)
From Coq Require Import List Bool Arith ZArith Lia Ring String.
From Verif Require Import Scalar CISpec CIRep CIFacts CIStrings CILemmas CIFock CIMatrix CIVec CIExpSpec CIExp Tensor PySyntax PySem PySim Sym SymSound
  Norm CCProg CCSpec Engine Tools SOCtx CCEquiv CCDeriv CCFockSpec FockStates FockExp FockT FockSchr WickSym FockH CCFock CCLinSpec FockLin CCLeft
  PTSpec FockPT FockPT2 CISDSpec.
Import ListNotations.
Local Open Scope string_scope.
Local Open Scope list_scope.

(** F_ai a+_a a_i + 1/4 I_abij a+_a a+_b a_j a_i *)
Definition W_sts : list st :=
  [(Mono 1 0 [cV; cO] [(fid cV cO, [D 0; D 1])], [(true, cV, D 0); (false, cO, D 1)]);
   (Mono 1 2 [cV; cV; cO; cO] [(snd (fst (blk cV cV cO cO)), [D 0; D 1; D 2; D 3])],
     [(true, cV, D 0); (true, cV, D 1); (false, cO, D 3); (false, cO, D 2)])].
Definition projTW (sh : list cls) (w : list sop) : option (list mono) := vevs sh (sts_mul (one_st w) (sts_mul T_sts W_sts)).
Definition m_tf : list mono :=
  [Mono 1 0 [] [(fid cV cO, [X 0; X 2]); (14%positive, [X 1; X 3])];
   Mono (-1) 0 [] [(fid cV cO, [X 0; X 3]); (14%positive, [X 1; X 2])];
   Mono (-1) 0 [] [(fid cV cO, [X 1; X 2]); (14%positive, [X 0; X 3])];
   Mono 1 0 [] [(fid cV cO, [X 1; X 3]); (14%positive, [X 0; X 2])]].
Definition tf_cs := Eval vm_compute in find_certs so_tb sh2 (diff (got_ms (projTW sh2 bra2)) m_tf).
Definition tf_chk : bool :=
  is_some (projTW sh2 bra2) && forallb (m_okb 4) (diff (got_ms (projTW sh2 bra2)) m_tf) &&
  check so_tb sh2 (diff (got_ms (projTW sh2 bra2)) m_tf) tf_cs.
Lemma tf_chk_true : tf_chk = true.
Proof. vm_compute. reflexivity. Qed.
Lemma tf_parts :
  projTW sh2 bra2 = Some (got_ms (projTW sh2 bra2)) /\ Forall (m_ok 4) (diff (got_ms (projTW sh2 bra2)) m_tf) /\
  check so_tb sh2 (diff (got_ms (projTW sh2 bra2)) m_tf) tf_cs = true.
Proof.
  pose proof tf_chk_true as C. unfold tf_chk in C.
  apply andb_prop in C as [C D3]. apply andb_prop in C as [D1 D2].
  exact (conj (is_some_got _ D1) (conj (okb_all _ _ D2) D3)).
Qed.

Opaque projTW check.
Section CISD.
  Variable K : cring.
  Local Open Scope K_scope.
  Add Ring KrCS : (c_th K).
  Variables no nv : nat.
  Variable h : nat -> nat -> K.
  Variable g : nat -> nat -> nat -> nat -> K.
  Variable F : one_e K.
  Variable I : two_e K.
  Hypothesis AG : antisym_ints (no + nv) g.
  Hypothesis BF : blocks1 no nv (fock no h g) F.
  Hypothesis BI : blocks2 no nv g I.
  Variables T1 T2 : tensor K.
  Hypothesis H1 : t1_ok no nv T1.
  Hypothesis H2 : t2_ok no nv T2.
  Notation n := (no + nv)%nat.
  Notation ref := (aufbau n no).
  Notation H := (H_op n h g).
  Notation T := (cluster no nv T1 T2).
  Notation W := (cluster no nv (vo F) (vvoo I)).
  Notation rho := (rho_t K F I T1 T2 no nv).
  Notation E0 := (eos H (kd ref) ref).

  Lemma vvoo_ok : t2_ok no nv (vvoo I).
  Proof. destruct (blocks_I_ok K no nv g I AG BI) as [SI AI]. unfold two_e_shape, two_e_antisym in *. split; [|split]; tauto. Qed.

  Lemma H_state t : List.length t = n -> eos H (kd ref) t = E0 * kd ref t + eos W (kd ref) t.
  Proof.
    intros L. pose proof vvoo_ok as HV.
    destruct (dets no nv t L) as [Far|[->|[(a & i & s & La & Li & E)|(a & b & i & j & s & La & Lb & Li & Lj & E)]]].
    - rewrite H_far, T_far by auto. rewrite (kd_ref_not K no nv); [ring|].
      intros ->. rewrite nel_aufbau, vlev_aufbau in Far by lia. lia.
    - rewrite T_ref, kd_ref_ref. ring.
    - rewrite (T_single K no nv g F I AG BI (vo F) (vvoo I) HV a i s t La Li E), (H_single K no nv h g F I AG BF BI a i s t La Li E).
      rewrite (kd_ref_not K no nv); [ring|]. eapply single_not; [| |exact E]; auto.
    - rewrite (T_double K no nv g F I AG BI (vo F) (vvoo I) HV a b i j s t La Lb Li Lj E),
        (H_double K no nv h g F I AG BF BI a b i j s t La Lb Li Lj E).
      rewrite (kd_ref_not K no nv); [ring|]. eapply double_not; [| | | |exact E]; auto.
  Qed.

  Lemma TH_state t : List.length t = n -> eos T (eos H (kd ref)) t = E0 * eos T (kd ref) t + eos T (eos W (kd ref)) t.
  Proof.
    intros L.
    rewrite (eos_ext K T _ (fun u => E0 * kd ref u + eos W (kd ref) u)) by (intros u Lu; apply H_state; congruence).
    rewrite eos_add, eos_mul. reflexivity.
  Qed.
  Lemma W_vmin : vmin K no nv 1 (eos W (kd ref)).
  Proof. apply vmin_raising; [apply T_raising|]. intros t _ V. lia. Qed.
  Lemma TW_vmin : vmin K no nv 2 (eos T (eos W (kd ref))).
  Proof. apply vmin_raising; [apply T_raising|]. apply W_vmin. Qed.

  Lemma W_sts_sound xs psi t : den_sts K no nv rho xs W_sts psi t = eos W psi t.
  Proof.
    unfold cluster. rewrite eos_T. unfold W_sts, den_sts, SL, den_st, fprod, den_fac, conc.
    cbn [map lsum fst snd m_z m_k m_dm m_fs prodK sumL look nth mkop orb cO cV so_rho wdim fid blk].
    rewrite dyad10, dyad12. rewrite <- !sumN_mul_l.
    assert (E : forall x y z w : K, x = z -> y = w -> x + (y + 0) = z + w) by (intros; subst; ring).
    apply E.
    - apply sumN_ext. intros a _. rewrite <- sumN_mul_l. apply sumN_ext. intros i _. ring.
    - apply sumN_ext. intros a _. rewrite <- sumN_mul_l. apply sumN_ext. intros b _. rewrite <- sumN_mul_l.
      apply sumN_ext. intros i _. rewrite <- sumN_mul_l. apply sumN_ext. intros j _. ring.
  Qed.
  Lemma W_sts_ok r : Forall (st_ok r) W_sts.
  Proof. unfold W_sts. repeat constructor; cbn; lia. Qed.

  Definition disconnected a b i j : K :=
    dat (vo F) [a; i] * dat T1 [b; j] - dat (vo F) [a; j] * dat T1 [b; i]
    - dat (vo F) [b; i] * dat T1 [a; j] + dat (vo F) [b; j] * dat T1 [a; i].

  Lemma TW_double a b i j s bra : (a < nv)%nat -> (b < nv)%nat -> (i < no)%nat -> (j < no)%nat ->
    act [Cre (no + a); Cre (no + b); Ann j; Ann i] ref = Some (s, bra) ->
    eos T (eos W (kd ref)) bra = csgn s * disconnected a b i j.
  Proof.
    intros La Lb Li Lj E. destruct tf_parts as (P1 & O1 & C1).
    rewrite (state_bra K no nv _ _ _ _ E). f_equal.
    assert (Hx : inrange (map (so_dim no nv) sh2) [a; b; i; j]) by (repeat constructor; auto).
    cbn [rev map adj app].
    transitivity (den K (so_dim no nv) rho [a; b; i; j] (got_ms (projTW sh2 bra2))).
    - etransitivity; [|exact (vevs_sound K no nv rho sh2 [a; b; i; j] _ _ Hx P1)].
      rewrite den_sts_mul.
      + rewrite one_st_den. cbn [bra2 map conc fst snd look nth mkop orb cO cV]. apply eow_ext. intros u Lu.
        rewrite den_sts_mul; [|apply T_sts_ok|apply W_sts_ok].
        symmetry. rewrite T_sts_sound. apply eos_ext. intros v Lv. apply W_sts_sound.
      + apply (one_st_ok K rho). repeat constructor.
      + apply sts_mul_ok; [apply T_sts_ok|apply W_sts_ok].
    - transitivity (den K (so_dim no nv) rho [a; b; i; j] m_tf).
      + apply den_diff. eapply check_sound; [exact C1|eapply sym_all'; eauto|exact O1|exact Hx].
      + unfold m_tf, den, den_mono, den_fac, disconnected. cbn [map lsum m_z m_k m_dm m_fs prodK sumL fst snd so_rho look nth fid cO cV].
        rewrite dyad10, dyadm10. ring.
  Qed.

  Lemma oneT_eos t : eos (one ++ T) (kd ref) t = kd ref t + eos T (kd ref) t.
  Proof. rewrite eos_app. f_equal. apply eos_one. Qed.
  Lemma HoneT_eos t : List.length t = n -> eos (opmul H (one ++ T)) (kd ref) t
    = eos (linearised T H) (kd ref) t + E0 * eos T (kd ref) t + eos T (eos W (kd ref)) t.
  Proof.
    intros L. rewrite linearised_eos, TH_state, eos_opmul by auto.
    rewrite (eos_ext K H _ (fun u => kd ref u + eos T (kd ref) u)) by (intros u Lu; apply oneT_eos).
    rewrite eos_add. ring.
  Qed.
  Lemma single_excited a i s t : (a < nv)%nat -> (i < no)%nat -> act [Cre (no + a); Ann i] ref = Some (s, t) -> excited 1 ref t.
  Proof.
    intros La Li E. pose proof (bra_length no nv _ _ _ E) as L.
    pose proof (act_nel _ _ _ _ E) as N. rewrite nel_aufbau in N by lia. cbn in N.
    assert (Nt : nel t = no) by lia.
    destruct (word_single no nv a i La Li) as (s' & t' & E' & _ & V). rewrite E in E'. injection E' as _ <-.
    pose proof (vlev_excited no nv t L Nt) as X.
    destruct (vlev no t) as [|[|k]]; [|exact X|lia].
    exfalso. apply (single_not no nv a i s t La Li E). destruct X as (_ & _ & D). symmetry. apply ndiff_zero; [rewrite aufbau_length; auto|lia].
  Qed.
  Lemma TW_low t : List.length t = n -> (vlev no t < 2)%nat -> eos T (eos W (kd ref)) t = 0.
  Proof. apply TW_vmin. Qed.

  (** the projections of H (1 + T)|0> *)
  Lemma cisd_projections : exists R1 R2 e,
    returns "lccsd_simple" [py_one_e F; py_two_e I; arr T1; arr T2] (tup [arr R1; arr R2]) /\
    returns "mp2_energy" [arr T1; arr T2; arr (ov F); arr (oovv I)] (numv e) /\
    shp R1 = [nv; no] /\ shp R2 = [nv; nv; no; no] /\
    amp ref (opmul H (one ++ T)) ref = amp ref H ref + e /\
    (forall a i s bra, (a < nv)%nat -> (i < no)%nat -> act [Cre (no + a); Ann i] ref = Some (s, bra) ->
       amp bra (opmul H (one ++ T)) ref = csgn s * (dat R1 [a; i] + amp ref H ref * dat T1 [a; i])) /\
    (forall a b i j s bra, (a < nv)%nat -> (b < nv)%nat -> (i < no)%nat -> (j < no)%nat ->
       act [Cre (no + a); Cre (no + b); Ann j; Ann i] ref = Some (s, bra) ->
       amp bra (opmul H (one ++ T)) ref
       = csgn s * (dat R2 [a; b; i; j] + amp ref H ref * dat T2 [a; b; i; j] + disconnected a b i j)).
  Proof.
    destruct (lccsd_projections K no nv h g F I AG BF BI T1 T2 H1 H2) as (R1 & R2 & HR & Z1 & Z2 & P1 & P2).
    destruct (mp2_linear K no nv h g F I AG BF BI T1 T2 H1 H2) as (e & He & PE).
    exists R1, R2, e. repeat split; auto.
    - rewrite amp_eos, HoneT_eos, <- amp_eos, PE, T_ref, TW_low by (rewrite ?vlev_aufbau; auto using aufbau_length). ring.
    - intros a i s bra La Li E. pose proof (bra_length no nv _ _ _ E) as L.
      rewrite amp_eos, HoneT_eos, <- amp_eos, (P1 a i s bra La Li E), (T_single K no nv g F I AG BI T1 T2 H2 a i s bra La Li E), TW_low, amp_eos; auto; [ring|].
      destruct (word_single no nv a i La Li) as (s' & t' & E' & _ & V). rewrite E in E'. injection E' as _ <-. lia.
    - intros a b i j s bra La Lb Li Lj E. pose proof (bra_length no nv _ _ _ E) as L.
      rewrite amp_eos, HoneT_eos, <- amp_eos, (P2 a b i j s bra La Lb Li Lj E),
        (T_double K no nv g F I AG BI T1 T2 H2 a b i j s bra La Lb Li Lj E), (TW_double a b i j s bra La Lb Li Lj E), amp_eos by auto. ring.
  Qed.

  Lemma sgn_cancel s (x y : K) : csgn s * x = csgn s * y -> x = y.
  Proof.
    intros E. transitivity (csgn s * (csgn s * x)); [destruct s; cbn; ring|]. rewrite E. destruct s; cbn; ring.
  Qed.
  Lemma double_distinct a b i j s t : (a < nv)%nat -> (b < nv)%nat -> (i < no)%nat -> (j < no)%nat ->
    act [Cre (no + a); Cre (no + b); Ann j; Ann i] ref = Some (s, t) -> a <> b /\ i <> j.
  Proof.
    intros La Lb Li Lj E. assert (LR : List.length ref = n) by apply aufbau_length.
    rewrite act_act4 in E by lia. unfold act4 in E. rewrite !occd_c2 in E by lia.
    split; intros <-; rewrite Nat.eqb_refl in E; cbn [negb andb] in E; rewrite ?andb_false_r in E; cbn [andb] in E; try discriminate.
  Qed.
  Lemma double_excited a b i j s t : (a < nv)%nat -> (b < nv)%nat -> (i < no)%nat -> (j < no)%nat ->
    act [Cre (no + a); Cre (no + b); Ann j; Ann i] ref = Some (s, t) -> exists m, (m <= 2)%nat /\ excited m ref t.
  Proof.
    intros La Lb Li Lj E. pose proof (bra_length no nv _ _ _ E) as L.
    pose proof (act_nel _ _ _ _ E) as N. rewrite nel_aufbau in N by lia. cbn in N.
    assert (Nt : nel t = no) by lia.
    exists (vlev no t). split; [|exact (vlev_excited no nv t L Nt)].
    destruct (double_distinct a b i j s t La Lb Li Lj E) as [Nab Nij].
    destruct (word_double no nv a b i j La Lb Li Lj Nab Nij) as (s' & t' & E' & _ & V). rewrite E in E'. injection E' as _ <-. exact V.
  Qed.

  Lemma cisd : exists R1 R2 e,
    returns "lccsd_simple" [py_one_e F; py_two_e I; arr T1; arr T2] (tup [arr R1; arr R2]) /\
    returns "mp2_energy" [arr T1; arr T2; arr (ov F); arr (oovv I)] (numv e) /\
    shp R1 = [nv; no] /\ shp R2 = [nv; nv; no; no] /\
    forall E, ci_equations 2 ref H T E <->
      E = amp ref H ref + e /\
      (forall a i, (a < nv)%nat -> (i < no)%nat -> dat R1 [a; i] = e * dat T1 [a; i]) /\
      (forall a b i j, (a < nv)%nat -> (b < nv)%nat -> (i < no)%nat -> (j < no)%nat -> a <> b -> i <> j ->
         dat R2 [a; b; i; j] + disconnected a b i j = e * dat T2 [a; b; i; j]).
  Proof.
    destruct cisd_projections as (R1 & R2 & e & HR & He & Z1 & Z2 & P0 & P1 & P2).
    exists R1, R2, e. do 4 (split; [assumption|]). intros E.
    assert (A0 : amp ref (one ++ T) ref = 1) by (rewrite amp_eos, oneT_eos, T_ref, kd_ref_ref; ring).
    assert (A1 : forall a i s bra, (a < nv)%nat -> (i < no)%nat -> act [Cre (no + a); Ann i] ref = Some (s, bra) ->
      amp bra (one ++ T) ref = csgn s * dat T1 [a; i]).
    { intros a i s bra La Li EE. rewrite amp_eos, oneT_eos, (T_single K no nv g F I AG BI T1 T2 H2 a i s bra La Li EE).
      rewrite (kd_ref_not K no nv); [ring|]. eapply single_not; [| |exact EE]; auto. }
    assert (A2 : forall a b i j s bra, (a < nv)%nat -> (b < nv)%nat -> (i < no)%nat -> (j < no)%nat ->
      act [Cre (no + a); Cre (no + b); Ann j; Ann i] ref = Some (s, bra) ->
      amp bra (one ++ T) ref = csgn s * dat T2 [a; b; i; j]).
    { intros a b i j s bra La Lb Li Lj EE. rewrite amp_eos, oneT_eos, (T_double K no nv g F I AG BI T1 T2 H2 a b i j s bra La Lb Li Lj EE).
      rewrite (kd_ref_not K no nv); [ring|]. eapply double_not; [| | | |exact EE]; auto. }
    split.
    - intros C.
      assert (EE : E = amp ref H ref + e).
      { assert (X0 : excited 0 ref ref).
        { pose proof (vlev_excited no nv ref (aufbau_length _ _) (nel_aufbau _ _ (ltac:(lia) : (no <= no + nv)%nat))) as X. rewrite vlev_aufbau in X. exact X. }
        specialize (C 0%nat ref ltac:(lia) X0). rewrite P0, A0 in C. rewrite C. ring. }
      split; [exact EE|]. split.
      + intros a i La Li. destruct (word_single no nv a i La Li) as (s & t & EA & _ & _).
        specialize (C 1%nat t ltac:(lia) (single_excited a i s t La Li EA)).
        rewrite (P1 a i s t La Li EA), (A1 a i s t La Li EA), EE in C.
        assert (Q : dat R1 [a; i] + amp ref H ref * dat T1 [a; i] = (amp ref H ref + e) * dat T1 [a; i]) by (apply (sgn_cancel s); rewrite C; ring).
        transitivity (dat R1 [a; i] + amp ref H ref * dat T1 [a; i] - amp ref H ref * dat T1 [a; i]); [ring|]. rewrite Q. ring.
      + intros a b i j La Lb Li Lj Nab Nij. destruct (word_double no nv a b i j La Lb Li Lj Nab Nij) as (s & t & EA & Lt & V).
        destruct (double_excited a b i j s t La Lb Li Lj EA) as (m & Lm & X).
        specialize (C m t Lm X). rewrite (P2 a b i j s t La Lb Li Lj EA), (A2 a b i j s t La Lb Li Lj EA), EE in C.
        assert (Q : dat R2 [a; b; i; j] + amp ref H ref * dat T2 [a; b; i; j] + disconnected a b i j = (amp ref H ref + e) * dat T2 [a; b; i; j])
          by (apply (sgn_cancel s); rewrite C; ring).
        transitivity (dat R2 [a; b; i; j] + amp ref H ref * dat T2 [a; b; i; j] + disconnected a b i j - amp ref H ref * dat T2 [a; b; i; j]); [ring|].
        rewrite Q. ring.
    - intros (EE & C1 & C2) m bra Lm X. destruct (excited_vlev no nv m bra X) as (L & N & V).
      destruct (low_dets no nv bra L N ltac:(lia)) as [->|[(a & i & s & La & Li & EA)|(a & b & i & j & s & La & Lb & Li & Lj & EA)]].
      + rewrite P0, A0, EE. ring.
      + rewrite (P1 a i s bra La Li EA), (A1 a i s bra La Li EA), C1, EE by auto. ring.
      + destruct (double_distinct a b i j s bra La Lb Li Lj EA) as [Nab Nij].
        rewrite (P2 a b i j s bra La Lb Li Lj EA), (A2 a b i j s bra La Lb Li Lj EA), EE.
        specialize (C2 a b i j La Lb Li Lj Nab Nij).
        transitivity (csgn s * (amp ref H ref * dat T2 [a; b; i; j] + (dat R2 [a; b; i; j] + disconnected a b i j))); [ring|]. rewrite C2. ring.
  Qed.

  (** the block of H between single excitations *)
  Lemma cis_any : exists R1 R2,
    returns "lccsd_simple" [py_one_e F; py_two_e I; arr T1; arr T2] (tup [arr R1; arr R2]) /\
    shp R1 = [nv; no] /\
    forall E, (forall bra, excited 1 ref bra -> amp bra (opmul H T) ref = E * amp bra T ref) <->
      (forall a i, (a < nv)%nat -> (i < no)%nat -> dat R1 [a; i] - dat (vo F) [a; i] = (E - amp ref H ref) * dat T1 [a; i]).
  Proof.
    destruct cisd_projections as (R1 & R2 & e & HR & _ & Z1 & _ & _ & P1 & _).
    exists R1, R2. do 2 (split; [assumption|]). intros E.
    assert (Q : forall a i s bra, (a < nv)%nat -> (i < no)%nat -> act [Cre (no + a); Ann i] ref = Some (s, bra) ->
      amp bra (opmul H T) ref = csgn s * (dat R1 [a; i] + amp ref H ref * dat T1 [a; i] - dat (vo F) [a; i]) /\
      amp bra T ref = csgn s * dat T1 [a; i]).
    { intros a i s bra La Li EA. pose proof (P1 a i s bra La Li EA) as P. pose proof (bra_length no nv _ _ _ EA) as L.
      rewrite !amp_eos, eos_opmul in *.
      rewrite (eos_ext K H _ (fun u => kd ref u + eos T (kd ref) u)) in P by (intros u Lu; apply oneT_eos). rewrite eos_add in P.
      rewrite (H_single K no nv h g F I AG BF BI a i s bra La Li EA) in P.
      split; [|exact (T_single K no nv g F I AG BI T1 T2 H2 a i s bra La Li EA)].
      transitivity (csgn s * dat (vo F) [a; i] + eos H (eos T (kd ref)) bra - csgn s * dat (vo F) [a; i]); [ring|]. rewrite P. ring. }
    split.
    - intros C a i La Li. destruct (word_single no nv a i La Li) as (s & t & EA & _ & _).
      specialize (C t (single_excited a i s t La Li EA)). destruct (Q a i s t La Li EA) as [Q1 Q2]. rewrite Q1, Q2 in C.
      assert (Q3 : dat R1 [a; i] + amp ref H ref * dat T1 [a; i] - dat (vo F) [a; i] = E * dat T1 [a; i]) by (apply (sgn_cancel s); rewrite C; ring).
      transitivity (dat R1 [a; i] + amp ref H ref * dat T1 [a; i] - dat (vo F) [a; i] - amp ref H ref * dat T1 [a; i]); [ring|]. rewrite Q3. ring.
    - intros C bra X. destruct (single_word no nv bra X) as (a & i & s & La & Li & EA). destruct (Q a i s bra La Li EA) as [Q1 Q2].
      rewrite Q1, Q2. specialize (C a i La Li).
      transitivity (csgn s * (dat R1 [a; i] - dat (vo F) [a; i] + amp ref H ref * dat T1 [a; i])); [ring|]. rewrite C. ring.
  Qed.
  Lemma cis : T2 = tzeros K [nv; nv; no; no] -> exists R1 R2,
    returns "lccsd_simple" [py_one_e F; py_two_e I; arr T1; arr T2] (tup [arr R1; arr R2]) /\
    shp R1 = [nv; no] /\
    forall E, (forall bra, excited 1 ref bra -> amp bra (opmul H T) ref = E * amp bra T ref) <->
      (forall a i, (a < nv)%nat -> (i < no)%nat -> dat R1 [a; i] - dat (vo F) [a; i] = (E - amp ref H ref) * dat T1 [a; i]).
  Proof. intros _. exact cis_any. Qed.
End CISD.
Transparent projTW check.
