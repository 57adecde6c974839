(** The Lambda equations and the Lagrangian of CCSD against Fock space. *)
From Coq Require Import List Bool Arith ZArith Lia Ring String.
From Verif Require Import Scalar CISpec CIFacts CIFock CIMatrix CIVec CIExpSpec CIExp Tensor PySyntax PySem PySim Sym SymSound
  Norm CCProg CCSpec Engine Tools SOCtx CCEquiv CCDeriv CCFockSpec FockStates FockExp FockT WickSym FockH CCFock CCDensSpec CCDens.
Import ListNotations.
Local Open Scope string_scope.
Local Open Scope list_scope.

Definition neg_sts (l : list st) : list st := map (fun s : st => (m_neg (fst s), snd s)) l.
(** [Hbar, w] *)
Definition comm_sts (r : nat) (w : list sop) : list st :=
  sts_mul (H_sts r) (one_st w) ++ neg_sts (sts_mul (one_st w) (H_sts r)).
Definition lcom (sh : list cls) (w : list sop) : option (list mono) :=
  vevs sh (sts_mul (lam c_one) (comm_sts (List.length sh) w)).

Definition lsh1 : list cls := [cO; cV].
Definition lsh2 : list cls := [cO; cO; cV; cV].
Definition lw1 : list sop := [(true, cV, X 1); (false, cO, X 0)].
Definition lw2 : list sop := [(true, cV, X 2); (true, cV, X 3); (false, cO, X 1); (false, cO, X 0)].
Definition lres1 : stens := get_arr (item 0 (run_s "ccsd_lambda_simple" aL)).
Definition lres2 : stens := get_arr (item 1 (run_s "ccsd_lambda_simple" aL)).

Definition l1_cs := Eval vm_compute in find_certs so_tb lsh1 (diff (got_ms (lcom lsh1 lw1)) (s_ms lres1)).
Definition l2_cs := Eval vm_compute in find_certs so_tb lsh2 (diff (got_ms (lcom lsh2 lw2)) (s_ms lres2)).
Definition l_chk : bool :=
  run_form (FTup [FArr; FArr]) "ccsd_lambda_simple" aL &&
  is_some (lcom lsh1 lw1) && is_some (lcom lsh2 lw2) &&
  cls_list_eqb (s_sh lres1) lsh1 && cls_list_eqb (s_sh lres2) lsh2 &&
  forallb (m_okb 2) (got_ms (lcom lsh1 lw1)) && forallb (m_okb 4) (got_ms (lcom lsh2 lw2)) &&
  check so_tb lsh1 (diff (got_ms (lcom lsh1 lw1)) (s_ms lres1)) l1_cs &&
  check so_tb lsh2 (diff (got_ms (lcom lsh2 lw2)) (s_ms lres2)) l2_cs.
Lemma l_chk_true : l_chk = true.
Proof. vm_compute. reflexivity. Qed.

Opaque lcom run_s run_form check.
Lemma l_parts : run_form (FTup [FArr; FArr]) "ccsd_lambda_simple" aL = true /\
  lcom lsh1 lw1 = Some (got_ms (lcom lsh1 lw1)) /\ lcom lsh2 lw2 = Some (got_ms (lcom lsh2 lw2)) /\
  s_sh lres1 = lsh1 /\ s_sh lres2 = lsh2 /\
  Forall (m_ok 2) (got_ms (lcom lsh1 lw1)) /\ Forall (m_ok 4) (got_ms (lcom lsh2 lw2)) /\
  check so_tb lsh1 (diff (got_ms (lcom lsh1 lw1)) (s_ms lres1)) l1_cs = true /\
  check so_tb lsh2 (diff (got_ms (lcom lsh2 lw2)) (s_ms lres2)) l2_cs = true.
Proof.
  pose proof l_chk_true as C. unfold l_chk in C.
  apply andb_prop in C as [C D8]. apply andb_prop in C as [C D7]. apply andb_prop in C as [C D6].
  apply andb_prop in C as [C D5]. apply andb_prop in C as [C D4]. apply andb_prop in C as [C D3].
  apply andb_prop in C as [C D2]. apply andb_prop in C as [C D1].
  exact (conj C (conj (is_some_got _ D1) (conj (is_some_got _ D2) (conj (cls_list_eqb_eq _ _ D3)
    (conj (cls_list_eqb_eq _ _ D4) (conj (okb_all _ _ D5) (conj (okb_all _ _ D6) (conj D7 D8)))))))).
Qed.

Section Main.
  Variable K : cring.
  Local Open Scope K_scope.
  Add Ring KrCLa : (c_th K).
  Variables no nv : nat.
  Variable h : nat -> nat -> K.
  Variable g : nat -> nat -> nat -> nat -> K.
  Variable F : one_e K.
  Variable I : two_e K.
  Hypothesis AG : antisym_ints (no + nv) g.
  Hypothesis BF : blocks1 no nv (fock no h g) F.
  Hypothesis BI : blocks2 no nv g I.
  Variable inv : nat -> K.
  Variable M : nat.
  Hypothesis HI : inverts inv M.
  Hypothesis HM : (nv < M)%nat.
  Variables T1 T2 L1 L2 : tensor K.
  Hypothesis H1 : t1_ok no nv T1.
  Hypothesis H2 : t2_ok no nv T2.
  Hypothesis HL1 : l1_ok no nv L1.
  Hypothesis HL2 : l2_ok no nv L2.
  Notation ref := (aufbau (no + nv) no).
  Notation H := (H_op (no + nv) h g).
  Notation rho := (rho_l K F I T1 T2 L1 L2).
  Notation dim := (wdim no nv).
  Notation dens := (den_sts K no nv rho).
  Notation Hbar := (transformed inv M (cluster no nv T1 T2) H).
  Notation Lam := (lambda_op no nv 1 (fun i a => dat L1 [i; a]) (fun i j a b => dat L2 [i; j; a; b])).

  Lemma H_dens xs psi t : List.length t = (no + nv)%nat -> dens xs (H_sts (List.length xs)) psi t = eos Hbar psi t.
  Proof.
    intros Lt. destruct (t2_anti K no nv T2 H2) as [A1 A2].
    rewrite (H_sts_sound K no nv rho h g).
    - symmetry. unfold cluster. rewrite transformed_eos; auto using H_in.
    - intros. eapply blocks_F; eauto.
    - intros. eapply blocks_G; eauto.
  Qed.

  Lemma neg_dens xs l psi t : dens xs (neg_sts l) psi t = - dens xs l psi t.
  Proof.
    induction l as [|s l IH]; [unfold den_sts, neg_sts, SL; cbn [map lsum]; ring|].
    cbn [neg_sts map]. rewrite !dens_cons. change (map _ l) with (neg_sts l). rewrite IH.
    unfold den_st. cbn [fst snd m_neg m_z m_k m_dm]. rewrite dyad_opp. unfold fprod. cbn [m_neg m_fs]. ring.
  Qed.
  Lemma neg_sts_ok r l : Forall (st_ok r) l -> Forall (st_ok r) (neg_sts l).
  Proof.
    intros Hl. apply Forall_map. eapply Forall_impl; [|exact Hl]. intros [m w] [A B]. split; [exact A|exact B].
  Qed.

  Lemma comm_dens xs w psi t : List.length t = (no + nv)%nat ->
    Forall (fun o : sop => match snd o with X k => (k < List.length xs)%nat | D _ => False end) w ->
    dens xs (comm_sts (List.length xs) w) psi t
    = eos (commutator Hbar [(1, map (conc no xs []) w)]) psi t.
  Proof.
    intros Lt Hw. unfold comm_sts, commutator. unfold den_sts. rewrite SL_app.
    fold (dens xs (sts_mul (H_sts (List.length xs)) (one_st w)) psi t).
    fold (dens xs (neg_sts (sts_mul (one_st w) (H_sts (List.length xs)))) psi t).
    assert (OW : Forall (st_ok (List.length xs)) (one_st w)) by (apply (one_st_ok K (rho)); exact Hw).
    rewrite neg_dens. rewrite !den_sts_mul by auto using H_sts_ok.
    rewrite H_dens by exact Lt. rewrite one_st_den.
    rewrite eos_app. rewrite eos_opscale. rewrite !eos_opmul.
    assert (E : forall phi u, eos [((1 : K), map (conc no xs []) w)] phi u = eow (map (conc no xs []) w) phi u).
    { intros. unfold eos, SL. cbn [map lsum fst snd]. ring. }
    rewrite E.
    rewrite (eos_ext K Hbar (dens xs (one_st w) psi) (eos [((1 : K), map (conc no xs []) w)] psi) t)
      by (intros u _; rewrite E; apply one_st_den).
    rewrite (eow_ext K _ (dens xs (H_sts (List.length xs)) psi) (eos Hbar psi) t)
      by (intros u Lu; apply H_dens; congruence).
    ring.
  Qed.

  Lemma lcom_sound sh w xs ms : inrange (map dim sh) xs ->
    Forall (fun o : sop => match snd o with X k => (k < List.length sh)%nat | D _ => False end) w ->
    lcom sh w = Some ms ->
    cc_commutator inv M no nv 1 T1 T2 L1 L2 H [(1, map (conc no xs []) w)] = den K dim rho xs ms.
  Proof.
    intros Hx Hw P.
    assert (Lx : List.length xs = List.length sh) by (apply Forall2_length in Hx; rewrite map_length in Hx; auto).
    rewrite <- (vevs_sound K no nv rho sh xs _ _ Hx P). rewrite <- Lx in *.
    assert (Oc : m_ok (List.length xs) c_one) by repeat constructor.
    rewrite den_sts_mul.
    - rewrite lam_sound. unfold cc_commutator. rewrite amp_eos, eos_opmul.
      assert (E : den K dim rho xs [c_one] = 1).
      { unfold den, den_mono, den_fac, c_one. cbn [map lsum m_z m_k m_dm m_fs prodK sumL fst snd so_rho]. rewrite dyad10. ring. }
      rewrite E. apply eos_ext. intros u Lu. rewrite ref_length in Lu. symmetry. apply comm_dens; auto.
    - apply lam_ok, Oc.
    - apply Forall_app. assert (OW : Forall (st_ok (List.length xs)) (one_st w)) by (apply (one_st_ok K (rho)); exact Hw).
      split; [|apply neg_sts_ok]; apply sts_mul_ok; auto using H_sts_ok.
  Qed.

  Definition lambda_are (M1 M2 : tensor K) : Prop :=
    shp M1 = [no; nv] /\ shp M2 = [no; no; nv; nv] /\
    (forall i a, (i < no)%nat -> (a < nv)%nat ->
       dat M1 [i; a] = cc_commutator inv M no nv 1 T1 T2 L1 L2 H [(1, [Cre (no + a); Ann i])]) /\
    (forall i j a b, (i < no)%nat -> (j < no)%nat -> (a < nv)%nat -> (b < nv)%nat ->
       dat M2 [i; j; a; b]
       = cc_commutator inv M no nv 1 T1 T2 L1 L2 H [(1, [Cre (no + a); Cre (no + b); Ann j; Ann i])]).

  Lemma lambda_simple_are : exists M1 M2,
    returns "ccsd_lambda_simple" [py_one_e F; py_two_e I; arr L1; arr L2; arr T1; arr T2] (tup [arr M1; arr M2]) /\
    lambda_are M1 M2.
  Proof.
    destruct BF as [OF _]. pose proof (blocks_I_ok K no nv g I AG BI) as OI.
    assert (HA : Forall2 (Rval K (so_dim no nv) rho) aL [py_one_e F; py_two_e I; arr L1; arr L2; arr T1; arr T2]) by so_args.
    assert (HS : sym_ok K (so_dim no nv) rho so_tb) by so_args.
    destruct l_parts as (E1 & P1 & P2 & S1 & S2 & O1 & O2 & C1 & C2).
    destruct (run_pair_sound K (so_dim no nv) rho _ _ _ E1 HA) as (R1 & R2 & HR & (Z1 & M1 & D1) & (Z2 & M2 & D2)).
    fold lres1 in *. fold lres2 in *. rewrite S1 in Z1, M1. rewrite S2 in Z2, M2.
    exists R1, R2. split; [exact HR|]. split; [exact Z1|]. split; [exact Z2|]. split.
    - intros i a Li La.
      assert (Hx : inrange (map (so_dim no nv) lsh1) [i; a]) by (repeat constructor; auto).
      rewrite D1 by (rewrite Z1; exact Hx).
      etransitivity; [|symmetry; apply (lcom_sound lsh1 lw1 [i; a] (got_ms (lcom lsh1 lw1)) Hx); [repeat constructor|exact P1]].
      symmetry. apply den_diff. eapply check_sound; [exact C1|exact HS|apply diff_ok; [exact O1|exact M1]|exact Hx].
    - intros i j a b Li Lj La Lb.
      assert (Hx : inrange (map (so_dim no nv) lsh2) [i; j; a; b]) by (repeat constructor; auto).
      rewrite D2 by (rewrite Z2; exact Hx).
      etransitivity; [|symmetry; apply (lcom_sound lsh2 lw2 [i; j; a; b] (got_ms (lcom lsh2 lw2)) Hx); [repeat constructor|exact P2]].
      symmetry. apply den_diff. eapply check_sound; [exact C2|exact HS|apply diff_ok; [exact O2|exact M2]|exact Hx].
  Qed.

  Lemma lambda_are_teq M1 M2 N1 N2 : teq M1 N1 -> teq M2 N2 -> lambda_are M1 M2 -> lambda_are N1 N2.
  Proof.
    intros [Y1 D1] [Y2 D2] (S1 & S2 & P1 & P2). split; [congruence|]. split; [congruence|]. split.
    - intros i a Li La. rewrite <- (P1 i a Li La). symmetry. apply D1. rewrite S1. repeat constructor; auto.
    - intros i j a b Li Lj La Lb. rewrite <- (P2 i j a b Li Lj La Lb). symmetry. apply D2. rewrite S2. repeat constructor; auto.
  Qed.
  Lemma lambda_xeq M1 M2 r : xeq (tup [arr M1; arr M2]) r -> lambda_are M1 M2 ->
    exists N1 N2, r = tup [arr N1; arr N2] /\ lambda_are N1 N2.
  Proof.
    intros E HA. inversion E as [| |vs ws Q|]; subst.
    inversion Q as [|? w1 ? ws1 Q1 Q2]; subst. inversion Q2 as [|? w2 ? ws2 Q3 Q4]; subst. inversion Q4; subst.
    inversion Q1 as [|? S1 E1| |]; subst. inversion Q3 as [|? S2 E2| |]; subst.
    exists S1, S2. split; [reflexivity|]. exact (lambda_are_teq M1 M2 S1 S2 E1 E2 HA).
  Qed.

  Lemma lambda_all_are f : In f ["ccsd_lambda_simple"; "ccsd_lambda_opt"; "ccsd_lambda_stanton"] -> exists M1 M2,
    returns f [py_one_e F; py_two_e I; arr L1; arr L2; arr T1; arr T2] (tup [arr M1; arr M2]) /\ lambda_are M1 M2.
  Proof.
    destruct lambda_simple_are as (M1 & M2 & HR & HA).
    destruct BF as [OF _]. pose proof (blocks_I_ok K no nv g I AG BI) as OI.
    destruct (lambda_agree K no nv F I L1 L2 T1 T2 OF OI HL1 HL2 H1 H2) as (r & r1 & r2 & r3 & int & A0 & A1 & A2 & A3 & A4 & X1 & X2 & X3).
    rewrite (returns_fun K _ _ _ _ A0 HR) in *.
    destruct (lambda_xeq M1 M2 r1 X1 HA) as (N1 & N2 & -> & B1). destruct (lambda_xeq M1 M2 r2 X2 HA) as (N3 & N4 & -> & B2).
    intros [<-|[<-|[<-|[]]]]; eauto.
  Qed.
  Lemma lambda_int_are : exists int M1 M2,
    returns "lambda_int" [py_one_e F; py_two_e I; arr T1; arr T2] int /\
    returns "ccsd_lambda_opt_int" [py_one_e F; py_two_e I; arr L1; arr L2; arr T1; arr T2; int] (tup [arr M1; arr M2]) /\
    lambda_are M1 M2.
  Proof.
    destruct lambda_simple_are as (M1 & M2 & HR & HA).
    destruct BF as [OF _]. pose proof (blocks_I_ok K no nv g I AG BI) as OI.
    destruct (lambda_agree K no nv F I L1 L2 T1 T2 OF OI HL1 HL2 H1 H2) as (r & r1 & r2 & r3 & int & A0 & A1 & A2 & A3 & A4 & X1 & X2 & X3).
    rewrite (returns_fun K _ _ _ _ A0 HR) in *.
    destruct (lambda_xeq M1 M2 r3 X3 HA) as (N1 & N2 & -> & B1). exists int, N1, N2. auto.
  Qed.

  (** ** The Lagrangian *)
  Lemma lagrangian_expect : exists e R1 R2,
    returns "cc_energy" [arr T1; arr T2; arr (ov F); arr (oovv I)] (numv e) /\
    returns "ccsd_simple" [py_one_e F; py_two_e I; arr T1; arr T2] (tup [arr R1; arr R2]) /\
    cc_expect inv M no nv 1 T1 T2 L1 L2 H
    = amp ref H ref + (e + (dot2 no nv (dat L1) (dat R1) + quarter * dot4 no no nv nv (dat L2) (dat R2))).
  Proof.
    destruct (cc_energy_expectation K no nv h g F I AG BF BI inv M HI HM T1 T2 H1 H2) as (e & He & Ee).
    destruct (chk_parts) as (E1 & _ & _ & P1 & P2 & S1 & S2 & O1 & O2 & _ & _ & C1 & C2 & _).
    pose proof (args_T K no nv h g F I AG BF BI T1 T2 H1 H2) as HA.
    destruct (run_pair_sound K (so_dim no nv) _ _ _ _ E1 HA) as (R1 & R2 & HR & (Z1 & M1 & D1) & (Z2 & M2 & D2)).
    fold res1 in *. fold res2 in *. rewrite S1 in Z1, M1. rewrite S2 in Z2, M2.
    exists e, R1, R2. split; [exact He|]. split; [exact HR|].
    unfold cc_expect. rewrite amp_eos, eos_opmul. rewrite amp_eos in Ee.
    unfold lambda_op. unfold eos at 1. rewrite SL_cons, SL_app. cbn [fst snd eow]. rewrite Ee.
    assert (Q1 : forall i a, (i < no)%nat -> (a < nv)%nat -> eow [Cre i; Ann (no + a)] (eos Hbar (kd ref)) ref = dat R1 [a; i]).
    { intros i a Li La.
      assert (Hx : inrange (map (so_dim no nv) sh1) [a; i]) by (repeat constructor; auto).
      pose proof (proj_T K no nv h g F I AG BF BI inv M HI HM T1 T2 H2 sh1 bra1 [a; i] (got_ms (proj sh1 bra1)) Hx) as PT.
      cbn [bra1 map conc fst snd look nth mkop orb cO cV] in PT.
      etransitivity; [apply PT; [repeat constructor|exact P1]|].
      rewrite D1 by (rewrite Z1; exact Hx).
      apply den_diff. eapply check_sound; [exact C1|exact (sym_all K no nv g F I AG BI T1 T2 H2)|apply diff_ok; [exact O1|exact M1]|exact Hx]. }
    assert (Q2 : forall i j a b, (i < no)%nat -> (j < no)%nat -> (a < nv)%nat -> (b < nv)%nat ->
      eow [Cre i; Cre j; Ann (no + b); Ann (no + a)] (eos Hbar (kd ref)) ref = dat R2 [a; b; i; j]).
    { intros i j a b Li Lj La Lb.
      assert (Hx : inrange (map (so_dim no nv) sh2) [a; b; i; j]) by (repeat constructor; auto).
      pose proof (proj_T K no nv h g F I AG BF BI inv M HI HM T1 T2 H2 sh2 bra2 [a; b; i; j] (got_ms (proj sh2 bra2)) Hx) as PT.
      cbn [bra2 map conc fst snd look nth mkop orb cO cV] in PT.
      etransitivity; [apply PT; [repeat constructor|exact P2]|].
      rewrite D2 by (rewrite Z2; exact Hx).
      apply den_diff. eapply check_sound; [exact C2|exact (sym_all K no nv g F I AG BI T1 T2 H2)|apply diff_ok; [exact O2|exact M2]|exact Hx]. }
    match goal with |- _ + (?A + ?B) = _ => 
      assert (EA : A = dot2 no nv (dat L1) (dat R1)); [|assert (EB : B = quarter * dot4 no no nv nv (dat L2) (dat R2)); [|rewrite EA, EB; ring]] end.
    - rewrite SL_fm_seq. unfold dot2. apply sumN_ext. intros i Li. rewrite SL_map_seq. apply sumN_ext. intros a La.
      cbn [fst snd]. rewrite Q1 by auto. reflexivity.
    - unfold dot4. rewrite SL_fm_seq, <- sumN_mul_l. apply sumN_ext. intros i Li.
      rewrite SL_fm_seq, <- sumN_mul_l. apply sumN_ext. intros j Lj.
      rewrite SL_fm_seq, <- sumN_mul_l. apply sumN_ext. intros a La.
      rewrite SL_map_seq, <- sumN_mul_l. apply sumN_ext. intros b Lb.
      cbn [fst snd]. rewrite Q2 by auto. ring.
  Qed.
  Lemma energy_from_rdm :
    exists Pba Pji Pai Pcdab Pklij Pabij Pciab Pbcai Pjkai Pkaij Pbjai,
    Forall (fun fP => returns (K := K) (fst fP) [arr T1; arr T2; arr L1; arr L2] (arr (snd fP)))
      [("ccsd_1rdm_ba", Pba); ("ccsd_1rdm_ji", Pji); ("ccsd_1rdm_ai", Pai);
       ("ccsd_2rdm_cdab", Pcdab); ("ccsd_2rdm_klij", Pklij); ("ccsd_2rdm_abij", Pabij);
       ("ccsd_2rdm_ciab", Pciab); ("ccsd_2rdm_bcai", Pbcai); ("ccsd_2rdm_jkai", Pjkai);
       ("ccsd_2rdm_kaij", Pkaij); ("ccsd_2rdm_bjai", Pbjai)] /\
    cc_expect inv M no nv 1 T1 T2 L1 L2 H = amp ref H ref +
    ((dot2 no nv (dat L1) (dat (vo F)) + (dot2 nv nv (dat Pba) (dat (vv F)) +
       (dot2 no no (dat Pji) (dat (oo F)) + dot2 nv no (dat Pai) (dat (ov F))))) +
     (quarter * (dot4 no no nv nv (dat L2) (dat (vvoo I)) + (dot4 nv nv nv nv (dat Pcdab) (dat (vvvv I)) +
        (dot4 no no no no (dat Pklij) (dat (oooo I)) + dot4 nv nv no no (dat Pabij) (dat (oovv I))))) +
     (chalf * (dot4 nv no nv nv (dat Pciab) (dat (vvvo I)) + (dot4 nv nv nv no (dat Pbcai) (dat (vovv I)) +
        (dot4 no no nv no (dat Pjkai) (dat (vooo I)) + dot4 no nv no no (dat Pkaij) (dat (ooov I))))) +
      dot4 nv no nv no (dat Pbjai) (dat (vovo I))))).
  Proof.
    destruct lagrangian_expect as (e & R1 & R2 & He & HR & EE).
    destruct BF as [OF _]. pose proof (blocks_I_ok K no nv g I AG BI) as OI.
    destruct (rdm_lagrangian K no nv F I T1 T2 L1 L2 OF OI H1 H2 HL1 HL2)
      as (e' & S1 & S2 & P1 & P2 & P3 & P4 & P5 & P6 & P7 & P8 & P9 & P10 & P11 & He' & HR' & Ps & EQ).
    pose proof (returns_fun K _ _ _ _ He He') as X. injection X as <-.
    pose proof (returns_fun K _ _ _ _ HR HR') as X. injection X as <- <-.
    exists P1, P2, P3, P4, P5, P6, P7, P8, P9, P10, P11. split; [exact Ps|]. rewrite EE. f_equal. exact EQ.
  Qed.
End Main.
