(** Second order perturbation theory. *)
From Coq Require Import List Bool Arith ZArith Lia Ring String.
From Verif Require Import Scalar CISpec CIFacts CIFock CIMatrix CIVec CIExpSpec CIExp Tensor PySyntax PySem PySim Sym SymSound
  Norm CCProg CCSpec Engine Tools SOCtx CCEquiv CCDeriv CCFockSpec FockStates FockExp FockT FockSchr WickSym FockH CCFock CCLinSpec FockLin
  PTSpec.
Import ListNotations.
Local Open Scope string_scope.
Local Open Scope list_scope.

(** *** The matrix elements of T and H between the reference and the singles and doubles, symbolically *)
Definition T_sts : list st :=
  [(Mono 1 0 [cV; cO] [(14%positive, [D 0; D 1])], [(true, cV, D 0); (false, cO, D 1)]);
   (Mono 1 2 [cV; cV; cO; cO] [(15%positive, [D 0; D 1; D 2; D 3])],
     [(true, cV, D 0); (true, cV, D 1); (false, cO, D 3); (false, cO, D 2)])].
Definition projT (sh : list cls) (w : list sop) : option (list mono) := vevs sh (sts_mul (one_st w) T_sts).
Definition is_T (m : mono) : bool := existsb (fun f => Pos.eqb (fst f) 14 || Pos.eqb (fst f) 15) (m_fs m).
Definition noT (l : list mono) : list mono := filter (fun m => negb (is_T m)) l.

Definition m_t1 : list mono := [Mono 1 0 [] [(14%positive, [X 0; X 1])]].
Definition m_t2 : list mono := [Mono 1 0 [] [(15%positive, [X 0; X 1; X 2; X 3])]].
Definition m_vo : list mono := [Mono 1 0 [] [(fid cV cO, [X 0; X 1])]].
Definition m_vvoo : list mono := [Mono 1 0 [] [(snd (fst (blk cV cV cO cO)), [X 0; X 1; X 2; X 3])]].


Definition t1_cs := Eval vm_compute in find_certs so_tb sh1 (diff (got_ms (projT sh1 bra1)) m_t1).
Definition t2_cs := Eval vm_compute in find_certs so_tb sh2 (diff (got_ms (projT sh2 bra2)) m_t2).
Definition h1_cs := Eval vm_compute in find_certs so_tb sh1 (diff (noT (got_ms (proj sh1 bra1))) m_vo).
Definition h2_cs := Eval vm_compute in find_certs so_tb sh2 (diff (noT (got_ms (proj sh2 bra2))) m_vvoo).
Definition pt_chk : bool :=
  is_some (projT sh1 bra1) && is_some (projT sh2 bra2) && is_some (proj sh1 bra1) && is_some (proj sh2 bra2) &&
  forallb (m_okb 2) (diff (got_ms (projT sh1 bra1)) m_t1) && forallb (m_okb 4) (diff (got_ms (projT sh2 bra2)) m_t2) &&
  forallb (m_okb 2) (diff (noT (got_ms (proj sh1 bra1))) m_vo) && forallb (m_okb 4) (diff (noT (got_ms (proj sh2 bra2))) m_vvoo) &&
  check so_tb sh1 (diff (got_ms (projT sh1 bra1)) m_t1) t1_cs && check so_tb sh2 (diff (got_ms (projT sh2 bra2)) m_t2) t2_cs &&
  check so_tb sh1 (diff (noT (got_ms (proj sh1 bra1))) m_vo) h1_cs && check so_tb sh2 (diff (noT (got_ms (proj sh2 bra2))) m_vvoo) h2_cs.
Lemma pt_chk_true : pt_chk = true.
Proof. vm_compute. reflexivity. Qed.
Lemma pt_parts :
  projT sh1 bra1 = Some (got_ms (projT sh1 bra1)) /\ projT sh2 bra2 = Some (got_ms (projT sh2 bra2)) /\
  proj sh1 bra1 = Some (got_ms (proj sh1 bra1)) /\ proj sh2 bra2 = Some (got_ms (proj sh2 bra2)) /\
  Forall (m_ok 2) (diff (got_ms (projT sh1 bra1)) m_t1) /\ Forall (m_ok 4) (diff (got_ms (projT sh2 bra2)) m_t2) /\
  Forall (m_ok 2) (diff (noT (got_ms (proj sh1 bra1))) m_vo) /\ Forall (m_ok 4) (diff (noT (got_ms (proj sh2 bra2))) m_vvoo) /\
  check so_tb sh1 (diff (got_ms (projT sh1 bra1)) m_t1) t1_cs = true /\
  check so_tb sh2 (diff (got_ms (projT sh2 bra2)) m_t2) t2_cs = true /\
  check so_tb sh1 (diff (noT (got_ms (proj sh1 bra1))) m_vo) h1_cs = true /\
  check so_tb sh2 (diff (noT (got_ms (proj sh2 bra2))) m_vvoo) h2_cs = true.
Proof.
  pose proof pt_chk_true as C. unfold pt_chk in C.
  apply andb_prop in C as [C D12]. apply andb_prop in C as [C D11].
  apply andb_prop in C as [C D10]. apply andb_prop in C as [C D9]. apply andb_prop in C as [C D8].
  apply andb_prop in C as [C D7]. apply andb_prop in C as [C D6]. apply andb_prop in C as [C D5].
  apply andb_prop in C as [C D4]. apply andb_prop in C as [C D3]. apply andb_prop in C as [D1 D2].
  exact (conj (is_some_got _ D1) (conj (is_some_got _ D2) (conj (is_some_got _ D3) (conj (is_some_got _ D4)
    (conj (okb_all _ _ D5) (conj (okb_all _ _ D6) (conj (okb_all _ _ D7) (conj (okb_all _ _ D8)
    (conj D9 (conj D10 (conj D11 D12))))))))))).
Qed.

Opaque proj projT check.
Section Elements.
  Variable K : cring.
  Local Open Scope K_scope.
  Add Ring KrPA : (c_th K).
  Variables no nv : nat.
  Variable h : nat -> nat -> K.
  Variable g : nat -> nat -> nat -> nat -> K.
  Variable F : one_e K.
  Variable I : two_e K.
  Hypothesis AG : antisym_ints (no + nv) g.
  Hypothesis BF : blocks1 no nv (fock no h g) F.
  Hypothesis BI : blocks2 no nv g I.
  Notation ref := (aufbau (no + nv) no).
  Notation H := (H_op (no + nv) h g).

  Lemma prodK_zero l : In 0 l -> prodK (K := K) l = 0.
  Proof.
    induction l as [|x l IH]; intros Hin; [destruct Hin|]. cbn [prodK]. destruct Hin as [->|Hin]; [ring|]. rewrite IH by auto. ring.
  Qed.
  Lemma den_noT dim (rho : positive -> list nat -> K) xs ms :
    (forall l, rho 14%positive l = 0) -> (forall l, rho 15%positive l = 0) ->
    den K dim rho xs ms = den K dim rho xs (noT ms).
  Proof.
    intros Z1 Z2. induction ms as [|m ms IH]; [reflexivity|].
    unfold noT. cbn [filter]. change (den K dim rho xs (m :: ms)) with (den_mono K dim rho xs m + den K dim rho xs ms).
    destruct (is_T m) eqn:E; cbn [negb].
    - fold (noT ms). rewrite IH. unfold den_mono.
      rewrite (sumL_ext K _ _ (fun _ => 0)); [rewrite sumL_0; ring|]. intros ds _. apply prodK_zero.
      unfold is_T in E. apply existsb_exists in E as (f & Hf & E). apply in_map_iff. exists f. split; [|exact Hf].
      unfold den_fac. apply orb_prop in E as [E|E]; apply Pos.eqb_eq in E; rewrite E; auto.
    - change (den K dim rho xs (m :: filter (fun m => negb (is_T m)) ms)) with (den_mono K dim rho xs m + den K dim rho xs (noT ms)).
      rewrite IH. reflexivity.
  Qed.

  Section WithT.
  Variables T1 T2 : tensor K.
  Hypothesis H1 : t1_ok no nv T1.
  Hypothesis H2 : t2_ok no nv T2.
  Notation rho := (rho_t K F I T1 T2 no nv).
  Notation T := (cluster no nv T1 T2).

  Lemma T_sts_sound xs psi t : den_sts K no nv rho xs T_sts psi t = eos T psi t.
  Proof.
    unfold cluster. rewrite eos_T. unfold T_sts, den_sts, SL, den_st, fprod, den_fac, conc.
    cbn [map lsum fst snd m_z m_k m_dm m_fs prodK sumL look nth mkop orb cO cV so_rho wdim].
    rewrite dyad10, dyad12. rewrite <- !sumN_mul_l.
    assert (E : forall x y z w : K, x = z -> y = w -> x + (y + 0) = z + w) by (intros; subst; ring).
    apply E.
    - apply sumN_ext. intros a _. rewrite <- sumN_mul_l. apply sumN_ext. intros i _. ring.
    - apply sumN_ext. intros a _. rewrite <- sumN_mul_l. apply sumN_ext. intros b _. rewrite <- sumN_mul_l.
      apply sumN_ext. intros i _. rewrite <- sumN_mul_l. apply sumN_ext. intros j _. ring.
  Qed.
  Lemma T_sts_ok r : Forall (st_ok r) T_sts.
  Proof. unfold T_sts. repeat constructor; cbn; lia. Qed.

  Lemma projT_sound sh w xs ms : inrange (map (so_dim no nv) sh) xs ->
    Forall (fun o : sop => match snd o with X k => (k < List.length sh)%nat | D _ => False end) w ->
    projT sh w = Some ms ->
    eow (map (conc no xs []) w) (eos T (kd ref)) ref = den K (so_dim no nv) rho xs ms.
  Proof.
    intros Hx Hw P.
    assert (Lx : List.length xs = List.length sh) by (apply Forall2_length in Hx; rewrite map_length in Hx; auto).
    etransitivity; [|exact (vevs_sound K no nv rho sh xs _ _ Hx P)].
    rewrite den_sts_mul.
    - rewrite one_st_den. apply eow_ext. intros u Lu. symmetry. apply T_sts_sound.
    - rewrite Lx. apply (one_st_ok K rho). exact Hw.
    - apply T_sts_ok.
  Qed.

  Lemma state_bra w s bra (psi : state K) : act w ref = Some (s, bra) ->
    psi bra = csgn s * eow (rev (map adj w)) psi ref.
  Proof. intros E. rewrite (eow_adj K w _ _ _ _ E). destruct s; cbn [CISpec.sgn]; ring. Qed.

  Lemma T_single a i s bra : (a < nv)%nat -> (i < no)%nat -> act [Cre (no + a); Ann i] ref = Some (s, bra) ->
    eos T (kd ref) bra = csgn s * dat T1 [a; i].
  Proof.
    intros La Li E. destruct pt_parts as (P1 & _ & _ & _ & O1 & _ & _ & _ & C1 & _).
    rewrite (state_bra _ _ _ _ E). f_equal.
    assert (Hx : inrange (map (so_dim no nv) sh1) [a; i]) by (repeat constructor; auto).
    pose proof (projT_sound sh1 bra1 [a; i] (got_ms (projT sh1 bra1)) Hx) as PT. cbn [rev map adj app].
    cbn [bra1 map conc fst snd look nth mkop orb cO cV] in PT.
    etransitivity; [apply PT; [repeat constructor|exact P1]|].
    transitivity (den K (so_dim no nv) rho [a; i] m_t1).
    - apply den_diff. eapply check_sound; [exact C1|eapply sym_all'; eauto|exact O1|exact Hx].
    - unfold m_t1, den, den_mono, den_fac. cbn [map lsum m_z m_k m_dm m_fs prodK sumL fst snd so_rho look nth]. rewrite dyad10. ring.
  Qed.
  Lemma T_double a b i j s bra : (a < nv)%nat -> (b < nv)%nat -> (i < no)%nat -> (j < no)%nat ->
    act [Cre (no + a); Cre (no + b); Ann j; Ann i] ref = Some (s, bra) ->
    eos T (kd ref) bra = csgn s * dat T2 [a; b; i; j].
  Proof.
    intros La Lb Li Lj E. destruct pt_parts as (_ & P1 & _ & _ & _ & O1 & _ & _ & _ & C1 & _).
    rewrite (state_bra _ _ _ _ E). f_equal.
    assert (Hx : inrange (map (so_dim no nv) sh2) [a; b; i; j]) by (repeat constructor; auto).
    pose proof (projT_sound sh2 bra2 [a; b; i; j] (got_ms (projT sh2 bra2)) Hx) as PT. cbn [rev map adj app].
    cbn [bra2 map conc fst snd look nth mkop orb cO cV] in PT.
    etransitivity; [apply PT; [repeat constructor|exact P1]|].
    transitivity (den K (so_dim no nv) rho [a; b; i; j] m_t2).
    - apply den_diff. eapply check_sound; [exact C1|eapply sym_all'; eauto|exact O1|exact Hx].
    - unfold m_t2, den, den_mono, den_fac. cbn [map lsum m_z m_k m_dm m_fs prodK sumL fst snd so_rho look nth]. rewrite dyad10. ring.
  Qed.
  End WithT.

  Notation Z1 := (tzeros K [nv; no]).
  Notation Z2 := (tzeros K [nv; nv; no; no]).
  Lemma phi_zero t : phi K no nv h g Z1 Z2 t = eos H (kd ref) t.
  Proof. unfold phi, eos. apply SL_ext. intros a _. f_equal. apply tildew_zero; reflexivity. Qed.

  Lemma H_single a i s bra : (a < nv)%nat -> (i < no)%nat -> act [Cre (no + a); Ann i] ref = Some (s, bra) ->
    eos H (kd ref) bra = csgn s * dat (vo F) [a; i].
  Proof.
    intros La Li E. destruct pt_parts as (_ & _ & P1 & _ & _ & _ & O1 & _ & _ & _ & C1 & _).
    rewrite <- phi_zero, (phi_bra _ _ _ _ _ _ _ _ _ _ E). f_equal.
    assert (Hx : inrange (map (so_dim no nv) sh1) [a; i]) by (repeat constructor; auto).
    pose proof (phi_proj K no nv h g F I AG BF BI Z1 Z2 sh1 bra1 [a; i] (got_ms (proj sh1 bra1)) Hx) as PT. cbn [rev map adj app].
    cbn [bra1 map conc fst snd look nth mkop orb cO cV] in PT.
    etransitivity; [apply PT; [repeat constructor|exact P1]|].
    rewrite den_noT by reflexivity.
    transitivity (den K (so_dim no nv) (rho_t K F I Z1 Z2 no nv) [a; i] m_vo).
    - apply den_diff. eapply check_sound; [exact C1|eapply sym_all'; eauto using zeroT1_ok, zeroT2_ok|exact O1|exact Hx].
    - unfold m_vo, den, den_mono, den_fac. cbn [map lsum m_z m_k m_dm m_fs prodK sumL fst snd so_rho look nth fid cO cV]. rewrite dyad10. ring.
  Qed.
  Lemma H_double a b i j s bra : (a < nv)%nat -> (b < nv)%nat -> (i < no)%nat -> (j < no)%nat ->
    act [Cre (no + a); Cre (no + b); Ann j; Ann i] ref = Some (s, bra) ->
    eos H (kd ref) bra = csgn s * dat (vvoo I) [a; b; i; j].
  Proof.
    intros La Lb Li Lj E. destruct pt_parts as (_ & _ & _ & P1 & _ & _ & _ & O1 & _ & _ & _ & C1).
    rewrite <- phi_zero, (phi_bra _ _ _ _ _ _ _ _ _ _ E). f_equal.
    assert (Hx : inrange (map (so_dim no nv) sh2) [a; b; i; j]) by (repeat constructor; auto).
    pose proof (phi_proj K no nv h g F I AG BF BI Z1 Z2 sh2 bra2 [a; b; i; j] (got_ms (proj sh2 bra2)) Hx) as PT. cbn [rev map adj app].
    cbn [bra2 map conc fst snd look nth mkop orb cO cV] in PT.
    etransitivity; [apply PT; [repeat constructor|exact P1]|].
    rewrite den_noT by reflexivity.
    transitivity (den K (so_dim no nv) (rho_t K F I Z1 Z2 no nv) [a; b; i; j] m_vvoo).
    - apply den_diff. eapply check_sound; [exact C1|eapply sym_all'; eauto using zeroT1_ok, zeroT2_ok|exact O1|exact Hx].
    - unfold m_vvoo, den, den_mono, den_fac. cbn [map lsum m_z m_k m_dm m_fs prodK sumL fst snd so_rho look nth blk cO cV]. rewrite dyad10. ring.
  Qed.
End Elements.
Transparent proj projT check.

