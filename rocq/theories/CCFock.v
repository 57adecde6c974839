(** The coupled cluster energy and residuals against Fock space. *)
From Coq Require Import List Bool Arith ZArith Lia Ring String.
From Verif Require Import Scalar CISpec CIFacts CIFock CIMatrix CIVec CIExpSpec CIExp Tensor PySyntax PySem PySim Sym SymSound
  Norm CCProg CCSpec Engine Tools SOCtx CCEquiv CCDeriv CCFockSpec FockStates FockExp FockT WickSym FockH.
Import ListNotations.
Local Open Scope string_scope.
Local Open Scope list_scope.

Notation csgn := CISpec.sgn.

Definition got_ms (o : option (list mono)) : list mono := match o with Some l => l | None => [] end.
Definition is_some {A} (o : option A) : bool := match o with Some _ => true | None => false end.
Lemma is_some_got o : is_some o = true -> o = Some (got_ms o).
Proof. destruct o; [reflexivity|discriminate]. Qed.

(** words of operators to the left *)
Definition one_st (w : list sop) : list st := [(Mono 1 0 [] [], w)].
Definition bra1 : list sop := [(true, cO, X 1); (false, cV, X 0)].
Definition bra2 : list sop := [(true, cO, X 2); (true, cO, X 3); (false, cV, X 1); (false, cV, X 0)].
Definition sh1 : list cls := [cV; cO].
Definition sh2 : list cls := [cV; cV; cO; cO].

Definition proj (sh : list cls) (w : list sop) : option (list mono) :=
  vevs sh (sts_mul (one_st w) (H_sts (List.length sh))).
Definition res1 : stens := get_arr (item 0 (run_s "ccsd_simple" aT)).
Definition res2 : stens := get_arr (item 1 (run_s "ccsd_simple" aT)).

(** sum_i F_ii - 1/2 sum_ij I_ijij *)
Definition e_ref : list mono :=
  [Mono 1 0 [cO] [(1%positive, [D 0; D 0])]; Mono (-1) 1 [cO; cO] [(13%positive, [D 0; D 1; D 0; D 1])]].

Definition p1_cs := Eval vm_compute in find_certs so_tb sh1 (diff (got_ms (proj sh1 bra1)) (s_ms res1)).
Definition p2_cs := Eval vm_compute in find_certs so_tb sh2 (diff (got_ms (proj sh2 bra2)) (s_ms res2)).
Definition p0_cs := Eval vm_compute in
  find_certs so_tb [] (diff (got_ms (proj [] [])) (e_ref ++ get_num (run_s "cc_energy" aE))).
Definition p_chk : bool :=
  run_form (FTup [FArr; FArr]) "ccsd_simple" aT && run_form FNum "cc_energy" aE &&
  is_some (proj [] []) && is_some (proj sh1 bra1) && is_some (proj sh2 bra2) &&
  cls_list_eqb (s_sh res1) sh1 && cls_list_eqb (s_sh res2) sh2 &&
  forallb (m_okb 2) (got_ms (proj sh1 bra1)) && forallb (m_okb 4) (got_ms (proj sh2 bra2)) &&
  forallb (m_okb 0) (got_ms (proj [] [])) && forallb (m_okb 0) e_ref &&
  check so_tb sh1 (diff (got_ms (proj sh1 bra1)) (s_ms res1)) p1_cs &&
  check so_tb sh2 (diff (got_ms (proj sh2 bra2)) (s_ms res2)) p2_cs &&
  check so_tb [] (diff (got_ms (proj [] [])) (e_ref ++ get_num (run_s "cc_energy" aE))) p0_cs.
Lemma p_chk_true : p_chk = true.
Proof. vm_compute. reflexivity. Qed.

Lemma okb_all r l : forallb (m_okb r) l = true -> Forall (m_ok r) l.
Proof. intros H. rewrite forallb_forall in H. apply Forall_forall. intros m Hm. apply m_okb_ok. auto. Qed.

Section Blocks.
  Variable K : cring.
  Local Open Scope K_scope.
  Add Ring KrCF : (c_th K).
  Variables no nv : nat.
  Variable h : nat -> nat -> K.
  Variable g : nat -> nat -> nat -> nat -> K.
  Variable F : one_e K.
  Variable I : two_e K.
  Hypothesis AG : antisym_ints (no + nv) g.
  Hypothesis BF : blocks1 no nv (fock no h g) F.
  Hypothesis BI : blocks2 no nv g I.
  Variables T1 T2 L1 L2 : tensor K.
  Notation rho := (rho_l K F I T1 T2 L1 L2).
  Notation dim := (wdim no nv).

  Lemma blocks_F c1 c2 i j : ov_cls c1 -> ov_cls c2 -> (i < dim c1)%nat -> (j < dim c2)%nat ->
    rho (fid c1 c2) [i; j] = fock no h g (orb no c1 i) (orb no c2 j).
  Proof.
    destruct BF as (_ & B1 & B2 & B3 & B4).
    intros [-> | ->] [-> | ->] Li Lj; cbn [wdim cO cV fid orb so_rho] in *; auto.
  Qed.

  Lemma ag1 p q r s : (p < no + nv)%nat -> (q < no + nv)%nat -> (r < no + nv)%nat -> (s < no + nv)%nat ->
    g p q r s = - g q p r s.
  Proof. intros. apply AG; auto. Qed.
  Lemma ag2 p q r s : (p < no + nv)%nat -> (q < no + nv)%nat -> (r < no + nv)%nat -> (s < no + nv)%nat ->
    g p q r s = - g p q s r.
  Proof. intros. apply AG; auto. Qed.
  Lemma ag12 p q r s : (p < no + nv)%nat -> (q < no + nv)%nat -> (r < no + nv)%nat -> (s < no + nv)%nat ->
    g p q r s = g q p s r.
  Proof. intros. rewrite ag1, ag2 by auto. ring. Qed.

  Lemma blocks_G c1 c2 c3 c4 i j k l : ov_cls c1 -> ov_cls c2 -> ov_cls c3 -> ov_cls c4 ->
    (i < dim c1)%nat -> (j < dim c2)%nat -> (k < dim c3)%nat -> (l < dim c4)%nat ->
    g (orb no c1 i) (orb no c2 j) (orb no c3 k) (orb no c4 l)
    = let '(s, t, p) := blk c1 c2 c3 c4 in csgn s * rho t (map (fun m => nth m [i; j; k; l] 0%nat) p).
  Proof.
    destruct BI as ([_ B1] & [_ B2] & [_ B3] & [_ B4] & [_ B5] & [_ B6] & [_ B7] & [_ B8] & [_ B9]).
    intros [-> | ->] [-> | ->] [-> | ->] [-> | ->] Li Lj Lk Ll; cbn [wdim cO cV orb blk so_rho map nth CISpec.sgn] in *;
      first [rewrite B1 by auto | rewrite B2 by auto | rewrite B3 by auto | rewrite B4 by auto | rewrite B5 by auto
            | rewrite B6 by auto | rewrite B7 by auto | rewrite B8 by auto | rewrite B9 by auto]; cbn [plus Nat.add];
      first [ring | rewrite ag1 by lia; ring | rewrite ag2 by lia; ring | rewrite ag12 by lia; ring].
  Qed.

  Lemma blocks_I_ok : two_e_ok no nv I.
  Proof.
    destruct BI as ([S1 B1] & [S2 B2] & [S3 B3] & [S4 B4] & [S5 B5] & [S6 B6] & [S7 B7] & [S8 B8] & [S9 B9]).
    split; [repeat split; assumption|].
    repeat split; intros p q r s Hi;
      repeat match goal with H : inrange (shp ?t) _, E : shp ?t = _ |- _ => rewrite E in H end;
      inversion Hi as [|? ? ? ? Lp Hi1]; subst; inversion Hi1 as [|? ? ? ? Lq Hi2]; subst;
      inversion Hi2 as [|? ? ? ? Lr Hi3]; subst; inversion Hi3 as [|? ? ? ? Ls Hi4]; subst;
      first [rewrite !B1 by auto | rewrite !B2 by auto | rewrite !B3 by auto | rewrite !B4 by auto
            | rewrite !B6 by auto | rewrite !B7 by auto | rewrite !B8 by auto | rewrite !B9 by auto];
      first [apply ag1; lia | apply ag2; lia].
  Qed.
End Blocks.

Section Transformed.
  Variable K : cring.
  Local Open Scope K_scope.
  Add Ring KrCG : (c_th K).
  Variables no nv : nat.
  Notation ref := (aufbau (no + nv) no).
  Notation dim := (wdim no nv).

  Lemma H_in h g : Forall (fun a : K * list op => Forall (fun o => (opi o < no + nv)%nat) (snd a)) (H_op (no + nv) h g).
  Proof.
    apply Forall_app. split; apply Forall_forall; intros x Hx;
    repeat match goal with
    | H : In _ (seq _ _) |- _ => apply in_seq in H
    | H : In _ (flat_map _ _) |- _ => apply in_flat_map in H as (? & ? & ?)
    | H : In _ (map _ _) |- _ => apply in_map_iff in H as (? & <- & ?)
    end; cbn [snd]; repeat first [apply Forall_cons | apply Forall_nil]; cbn; lia.
  Qed.

  Section Vals.
  Variable rho : positive -> list nat -> K.
  Notation dens := (den_sts K no nv rho).

  Lemma one_st_den xs w psi t : dens xs (one_st w) psi t = eow (map (conc no xs []) w) psi t.
  Proof.
    unfold one_st, den_sts, SL, den_st, fprod. cbn [map lsum fst snd m_z m_k m_dm m_fs prodK sumL].
    rewrite dyad10. ring.
  Qed.
  Lemma one_st_ok r w : Forall (fun o : sop => match snd o with X k => (k < r)%nat | D _ => False end) w ->
    Forall (st_ok r) (one_st w).
  Proof.
    intros H. repeat constructor. eapply Forall_impl; [|exact H]. intros [q [k|k]]; cbn; auto. tauto.
  Qed.

  (** an expectation value of a word times the transformed Hamiltonian, symbolically *)
  Lemma proj_sound h g inv M sh w xs ms :
    (forall c1 c2 i j, ov_cls c1 -> ov_cls c2 -> (i < dim c1)%nat -> (j < dim c2)%nat ->
      rho (fid c1 c2) [i; j] = fock no h g (orb no c1 i) (orb no c2 j)) ->
    (forall c1 c2 c3 c4 i j k l, ov_cls c1 -> ov_cls c2 -> ov_cls c3 -> ov_cls c4 ->
      (i < dim c1)%nat -> (j < dim c2)%nat -> (k < dim c3)%nat -> (l < dim c4)%nat ->
      g (orb no c1 i) (orb no c2 j) (orb no c3 k) (orb no c4 l)
      = let '(s, t, p) := blk c1 c2 c3 c4 in csgn s * rho t (map (fun m => nth m [i; j; k; l] 0%nat) p)) ->
    (forall a b i j, (a < nv)%nat -> (b < nv)%nat -> (i < no)%nat -> (j < no)%nat ->
      rt2 K rho a b i j = - rt2 K rho b a i j) ->
    (forall a b i j, (a < nv)%nat -> (b < nv)%nat -> (i < no)%nat -> (j < no)%nat ->
      rt2 K rho a b i j = - rt2 K rho a b j i) ->
    inverts inv M -> (nv < M)%nat ->
    inrange (map dim sh) xs ->
    Forall (fun o : sop => match snd o with X k => (k < List.length sh)%nat | D _ => False end) w ->
    proj sh w = Some ms ->
    eow (map (conc no xs []) w)
      (eos (transformed inv M (T_op no nv (rt1 K rho) (rt2 K rho)) (H_op (no + nv) h g)) (kd ref)) ref
    = den K dim rho xs ms.
  Proof.
    intros HF HG A1 A2 Hi HM Hx Hw P.
    assert (Lx : List.length xs = List.length sh) by (apply Forall2_length in Hx; rewrite map_length in Hx; auto).
    rewrite <- (vevs_sound K no nv rho sh xs _ _ Hx P).
    rewrite den_sts_mul.
    - rewrite one_st_den. apply eow_ext. intros u Lu. rewrite ref_length in Lu.
      rewrite <- Lx, (H_sts_sound K no nv rho h g HF HG).
      unfold tw. apply transformed_eos; auto using H_in.
    - rewrite Lx. apply one_st_ok, Hw.
    - rewrite Lx. apply H_sts_ok.
  Qed.
  End Vals.

  (** without amplitudes the transformation is the identity *)
  Lemma tilde_zero t1 t2 o psi t : (forall a i, t1 a i = 0) -> (forall a b i j, t2 a b i j = 0) ->
    tilde K no nv t1 t2 o psi t = eo o psi t.
  Proof.
    intros Z1 Z2. unfold tilde. replace (eos (B_op K no nv t1 t2 o) psi t) with (0 : K); [ring|].
    unfold eos. symmetry. apply SL_zero. intros x Hx.
    destruct o as [p|p]; cbn [B_op] in Hx; destruct (_ : bool) in Hx; try contradiction;
      apply in_app_or in Hx as [Hx|Hx];
      repeat match goal with
      | H : In _ (flat_map _ _) |- _ => apply in_flat_map in H as (? & ? & ?)
      | H : In _ (map _ _) |- _ => apply in_map_iff in H as (? & <- & ?)
      end; cbn [fst snd]; rewrite ?Z1, ?Z2; ring.
  Qed.
  Lemma tildew_zero t1 t2 w psi : (forall a i, t1 a i = 0) -> (forall a b i j, t2 a b i j = 0) -> forall t,
    tildew K no nv t1 t2 w psi t = eow w psi t.
  Proof.
    intros Z1 Z2. induction w as [|o w IH]; intros t; [reflexivity|]. cbn [tildew eow].
    rewrite tilde_zero by auto. apply eo_ext. intros u _. apply IH.
  Qed.
End Transformed.

Opaque proj run_s run_form check.
Section Main.
  Variable K : cring.
  Local Open Scope K_scope.
  Add Ring KrCH : (c_th K).
  Variables no nv : nat.
  Variable h : nat -> nat -> K.
  Variable g : nat -> nat -> nat -> nat -> K.
  Variable F : one_e K.
  Variable I : two_e K.
  Hypothesis AG : antisym_ints (no + nv) g.
  Hypothesis BF : blocks1 no nv (fock no h g) F.
  Hypothesis BI : blocks2 no nv g I.
  Variable inv : nat -> K.
  Variable M : nat.
  Hypothesis HI : inverts inv M.
  Hypothesis HM : (nv < M)%nat.
  Notation ref := (aufbau (no + nv) no).
  Notation H := (H_op (no + nv) h g).
  Notation Tof T1 T2 := (cluster no nv T1 T2).

  Lemma t2_anti (T2 : tensor K) : t2_ok no nv T2 ->
    (forall a b i j, (a < nv)%nat -> (b < nv)%nat -> (i < no)%nat -> (j < no)%nat ->
      dat T2 [a; b; i; j] = - dat T2 [b; a; i; j]) /\
    (forall a b i j, (a < nv)%nat -> (b < nv)%nat -> (i < no)%nat -> (j < no)%nat ->
      dat T2 [a; b; i; j] = - dat T2 [a; b; j; i]).
  Proof.
    intros (S & A & B). split; intros a b i j La Lb Li Lj; [apply A|apply B]; rewrite S; repeat constructor; auto.
  Qed.

  Lemma chk_parts : run_form (FTup [FArr; FArr]) "ccsd_simple" aT = true /\ run_form FNum "cc_energy" aE = true /\
    proj [] [] = Some (got_ms (proj [] [])) /\ proj sh1 bra1 = Some (got_ms (proj sh1 bra1)) /\
    proj sh2 bra2 = Some (got_ms (proj sh2 bra2)) /\ s_sh res1 = sh1 /\ s_sh res2 = sh2 /\
    Forall (m_ok 2) (got_ms (proj sh1 bra1)) /\ Forall (m_ok 4) (got_ms (proj sh2 bra2)) /\
    Forall (m_ok 0) (got_ms (proj [] [])) /\ Forall (m_ok 0) e_ref /\
    check so_tb sh1 (diff (got_ms (proj sh1 bra1)) (s_ms res1)) p1_cs = true /\
    check so_tb sh2 (diff (got_ms (proj sh2 bra2)) (s_ms res2)) p2_cs = true /\
    check so_tb [] (diff (got_ms (proj [] [])) (e_ref ++ get_num (run_s "cc_energy" aE))) p0_cs = true.
  Proof.
    pose proof p_chk_true as C. unfold p_chk in C.
    apply andb_prop in C as [C D13]. apply andb_prop in C as [C D12]. apply andb_prop in C as [C D11].
    apply andb_prop in C as [C D10]. apply andb_prop in C as [C D9]. apply andb_prop in C as [C D8].
    apply andb_prop in C as [C D7]. apply andb_prop in C as [C D6]. apply andb_prop in C as [C D5].
    apply andb_prop in C as [C D4]. apply andb_prop in C as [C D3]. apply andb_prop in C as [C D2].
    apply andb_prop in C as [C D1].
    exact (conj C (conj D1 (conj (is_some_got _ D2) (conj (is_some_got _ D3) (conj (is_some_got _ D4)
      (conj (cls_list_eqb_eq _ _ D5) (conj (cls_list_eqb_eq _ _ D6) (conj (okb_all _ _ D7) (conj (okb_all _ _ D8)
      (conj (okb_all _ _ D9) (conj (okb_all _ _ D10) (conj D11 (conj D12 D13))))))))))))).
  Qed.

  Section WithT.
  Variables T1 T2 : tensor K.
  Hypothesis H1 : t1_ok no nv T1.
  Hypothesis H2 : t2_ok no nv T2.
  Notation rho := (rho_t K F I T1 T2 no nv).
  Notation Hbar := (transformed inv M (Tof T1 T2) H).

  Lemma sym_all : sym_ok K (so_dim no nv) rho so_tb.
  Proof. pose proof (blocks_I_ok K no nv g I AG BI). so_args. Qed.

  Lemma proj_T sh w xs ms : inrange (map (so_dim no nv) sh) xs ->
    Forall (fun o : sop => match snd o with X k => (k < List.length sh)%nat | D _ => False end) w ->
    proj sh w = Some ms ->
    eow (map (conc no xs []) w) (eos Hbar (kd ref)) ref = den K (so_dim no nv) rho xs ms.
  Proof.
    destruct (t2_anti T2 H2) as [A1 A2].
    apply (proj_sound K no nv rho h g inv M sh w xs ms); auto.
    - intros. eapply blocks_F; eauto.
    - intros. eapply blocks_G; eauto.
  Qed.

  (** <bra| Hbar |0> where bra is the word applied to the reference *)
  Lemma bra_amp w s bra : act w ref = Some (s, bra) ->
    amp bra Hbar ref = csgn s * eow (rev (map adj w)) (eos Hbar (kd ref)) ref.
  Proof.
    intros E. rewrite amp_eos, (eow_adj K w _ _ _ _ E). destruct s; cbn [CISpec.sgn]; ring.
  Qed.

  Lemma args_T : Forall2 (Rval K (so_dim no nv) rho) aT [py_one_e F; py_two_e I; arr T1; arr T2].
  Proof. destruct BF as [OF _]. pose proof (blocks_I_ok K no nv g I AG BI). so_args. Qed.
  Lemma args_E : Forall2 (Rval K (so_dim no nv) rho) aE [arr T1; arr T2; arr (ov F); arr (oovv I)].
  Proof. destruct BF as [OF _]. pose proof (blocks_I_ok K no nv g I AG BI). so_args. Qed.

  Lemma ccsd_simple_projections :
    exists R1 R2,
      returns "ccsd_simple" [py_one_e F; py_two_e I; arr T1; arr T2] (tup [arr R1; arr R2]) /\
      shp R1 = [nv; no] /\ shp R2 = [nv; nv; no; no] /\
      (forall a i s bra, (a < nv)%nat -> (i < no)%nat -> act [Cre (no + a); Ann i] ref = Some (s, bra) ->
         amp bra Hbar ref = csgn s * dat R1 [a; i]) /\
      (forall a b i j s bra, (a < nv)%nat -> (b < nv)%nat -> (i < no)%nat -> (j < no)%nat ->
         act [Cre (no + a); Cre (no + b); Ann j; Ann i] ref = Some (s, bra) ->
         amp bra Hbar ref = csgn s * dat R2 [a; b; i; j]).
  Proof.
    destruct chk_parts as (E1 & _ & _ & P1 & P2 & S1 & S2 & O1 & O2 & _ & _ & C1 & C2 & _).
    destruct (run_pair_sound K (so_dim no nv) rho _ _ _ E1 args_T) as (R1 & R2 & HR & (Z1 & M1 & D1) & (Z2 & M2 & D2)).
    fold res1 in *. fold res2 in *. rewrite S1 in Z1, M1. rewrite S2 in Z2, M2.
    exists R1, R2. split; [exact HR|]. split; [exact Z1|]. split; [exact Z2|]. split.
    - intros a i s bra La Li E. rewrite (bra_amp _ _ _ E). f_equal.
      assert (Hx : inrange (map (so_dim no nv) sh1) [a; i]) by (repeat constructor; auto).
      pose proof (proj_T sh1 bra1 [a; i] (got_ms (proj sh1 bra1)) Hx) as PT. cbn [rev map adj app]. cbn [bra1 map conc fst snd look nth mkop orb cO cV] in PT.
      etransitivity; [apply PT; [repeat constructor|exact P1]|].
      rewrite D1 by (rewrite Z1; exact Hx).
      apply den_diff. eapply check_sound; [exact C1|exact sym_all|apply diff_ok; [exact O1|exact M1]|exact Hx].
    - intros a b i j s bra La Lb Li Lj E. rewrite (bra_amp _ _ _ E). f_equal.
      assert (Hx : inrange (map (so_dim no nv) sh2) [a; b; i; j]) by (repeat constructor; auto).
      pose proof (proj_T sh2 bra2 [a; b; i; j] (got_ms (proj sh2 bra2)) Hx) as PT. cbn [rev map adj app].
      cbn [bra2 map conc fst snd look nth mkop orb cO cV] in PT.
      etransitivity; [apply PT; [repeat constructor|exact P2]|].
      rewrite D2 by (rewrite Z2; exact Hx).
      apply den_diff. eapply check_sound; [exact C2|exact sym_all|apply diff_ok; [exact O2|exact M2]|exact Hx].
  Qed.

  Lemma energy_e_ref : exists e,
    returns "cc_energy" [arr T1; arr T2; arr (ov F); arr (oovv I)] (numv e) /\
    eos Hbar (kd ref) ref = den K (so_dim no nv) rho [] e_ref + e.
  Proof.
    destruct chk_parts as (_ & E2 & P0 & _ & _ & _ & _ & _ & _ & O0 & OE & _ & _ & C0).
    destruct (run_num_sound K _ rho _ _ _ E2 args_E) as (e & HR & (Me & De)).
    exists e. split; [exact HR|]. rewrite De, <- den_app.
    pose proof (proj_T [] [] [] _ (Forall2_nil _) (Forall_nil _) P0) as PT. cbn [map eow] in PT. rewrite PT.
    apply den_diff. eapply check_sound; [exact C0|exact sym_all| |constructor]. apply diff_ok; [exact O0|].
    apply Forall_app. split; [exact OE|exact Me].
  Qed.
  End WithT.

  Lemma ref_energy : amp ref H ref = den K (so_dim no nv) (rho_t K F I (tzeros K [nv; no]) (tzeros K [nv; nv; no; no]) no nv) [] e_ref.
  Proof.
    set (Z1 := tzeros K [nv; no]). set (Z2 := tzeros K [nv; nv; no; no]).
    destruct (energy_e_ref Z1 Z2 (zeroT1_ok K no nv) (zeroT2_ok K no nv)) as (e & HR & E).
    assert (e0 : e = 0).
    { destruct BF as ((_ & OV & _) & _). destruct BI as (_ & _ & _ & _ & _ & [OOVV _] & _).
      pose proof (cc_energy_formula K no nv Z1 Z2 (ov F) (oovv I) eq_refl eq_refl OV OOVV) as HF.
      pose proof (returns_fun K _ _ _ _ HR HF) as Q.
      assert (Q' : e = s1_sum K no nv Z1 (ov F) + quarter * d_sum K no nv Z2 (oovv I) + chalf * s2_sum K no nv Z1 (oovv I)).
      { injection Q. auto. }
      rewrite Q'.
      assert (N1 : s1_sum K no nv Z1 (ov F) = 0).
      { unfold s1_sum. rewrite <- (sumN_0 K no). apply sumN_ext. intros i _. rewrite <- (sumN_0 K nv). apply sumN_ext. intros a _.
        change (dat Z1 [a; i]) with (0 : K). ring. }
      assert (N2 : d_sum K no nv Z2 (oovv I) = 0).
      { unfold d_sum. rewrite <- (sumN_0 K no). apply sumN_ext. intros i _. rewrite <- (sumN_0 K no). apply sumN_ext. intros j _.
        rewrite <- (sumN_0 K nv). apply sumN_ext. intros a _. rewrite <- (sumN_0 K nv). apply sumN_ext. intros b _.
        change (dat Z2 [a; b; i; j]) with (0 : K). ring. }
      assert (N3 : s2_sum K no nv Z1 (oovv I) = 0).
      { unfold s2_sum. rewrite <- (sumN_0 K no). apply sumN_ext. intros i _. rewrite <- (sumN_0 K no). apply sumN_ext. intros j _.
        rewrite <- (sumN_0 K nv). apply sumN_ext. intros a _. rewrite <- (sumN_0 K nv). apply sumN_ext. intros b _.
        change (dat Z1 [a; i]) with (0 : K). ring. }
      rewrite N1, N2, N3. ring. }
    rewrite e0 in E. rewrite amp_eos.
    transitivity (eos (transformed inv M (Tof Z1 Z2) H) (kd ref) ref); [|rewrite E; ring].
    symmetry. unfold cluster. rewrite transformed_eos; auto using H_in, ref_length.
    - unfold eos. apply SL_ext. intros a _. f_equal. apply tildew_zero; reflexivity.
    - intros. cbn. ring.
    - intros. cbn. ring.
  Qed.

  Lemma cc_energy_expectation T1 T2 : t1_ok no nv T1 -> t2_ok no nv T2 -> exists e,
    returns "cc_energy" [arr T1; arr T2; arr (ov F); arr (oovv I)] (numv e) /\
    amp ref (transformed inv M (Tof T1 T2) H) ref = amp ref H ref + e.
  Proof.
    intros H1 H2. destruct (energy_e_ref T1 T2 H1 H2) as (e & HR & E). exists e. split; auto.
    rewrite ref_energy, amp_eos, E. f_equal.
  Qed.
End Main.

Lemma ccsd_stanton_projections (K : cring) no nv h g F I inv M T1 T2 :
  antisym_ints (no + nv) g -> blocks1 no nv (fock no h g) F -> blocks2 no nv g I ->
  inverts inv M -> (nv < M)%nat -> t1_ok no nv T1 -> t2_ok no nv T2 ->
  exists R1 R2,
      returns (K := K) "ccsd_stanton" [py_one_e F; py_two_e I; arr T1; arr T2] (tup [arr R1; arr R2]) /\
      shp R1 = [nv; no] /\ shp R2 = [nv; nv; no; no] /\
      (forall a i s bra, (a < nv)%nat -> (i < no)%nat -> act [Cre (no + a); Ann i] (aufbau (no + nv) no) = Some (s, bra) ->
         amp bra (transformed inv M (cluster no nv T1 T2) (H_op (no + nv) h g)) (aufbau (no + nv) no)
         = (csgn s * dat R1 [a; i])%K) /\
      (forall a b i j s bra, (a < nv)%nat -> (b < nv)%nat -> (i < no)%nat -> (j < no)%nat ->
         act [Cre (no + a); Cre (no + b); Ann j; Ann i] (aufbau (no + nv) no) = Some (s, bra) ->
         amp bra (transformed inv M (cluster no nv T1 T2) (H_op (no + nv) h g)) (aufbau (no + nv) no)
         = (csgn s * dat R2 [a; b; i; j])%K).
Proof.
  intros AG BF BI HI HM H1 H2.
  destruct (ccsd_simple_projections K no nv h g F I AG BF BI inv M HI HM T1 T2 H1 H2) as (R1 & R2 & HR & Z1 & Z2 & P1 & P2).
  destruct BF as [OF _]. pose proof (blocks_I_ok K no nv g I AG BI) as OI.
  destruct (ccsd_stanton_simple K no nv F I T1 T2 OF OI H1 H2) as (r & s & Hr & Hs & E).
  rewrite (returns_fun K _ _ _ _ Hr HR) in E. inversion E as [| |vs ws Q|]; subst.
  inversion Q as [|? w1 ? ws1 Q1 Q2]; subst. inversion Q2 as [|? w2 ? ws2 Q3 Q4]; subst. inversion Q4; subst.
  inversion Q1 as [|? S1 [Y1 D1] E1| |]; subst. inversion Q3 as [|? S2 [Y2 D2] E2| |]; subst.
  exists S1, S2. split; [exact Hs|]. split; [congruence|]. split; [congruence|]. split.
  - intros a i s bra La Li Ea. rewrite (P1 a i s bra La Li Ea), D1; [reflexivity|]. rewrite Z1. repeat constructor; auto.
  - intros a b i j s bra La Lb Li Lj Ea. rewrite (P2 a b i j s bra La Lb Li Lj Ea), D2; [reflexivity|].
    rewrite Z2. repeat constructor; auto.
Qed.

(** every set of blocks comes from some h and g *)
Section Realize.
  Variable K : cring.
  Local Open Scope K_scope.
  Add Ring KrCR : (c_th K).
  Variables no nv : nat.
  Variable F : one_e K.
  Variable I : two_e K.
  Hypothesis OF : one_e_ok no nv F.
  Hypothesis OI : two_e_ok no nv I.

  Definition cl (p : nat) : cls := if Nat.ltb p no then cO else cV.
  Definition lx (p : nat) : nat := if Nat.ltb p no then p else (p - no)%nat.
  Notation rho := (rho_t K F I (tzeros K [nv; no]) (tzeros K [nv; nv; no; no]) no nv).
  Definition g_of (p q r s : nat) : K :=
    let '(b, t, o) := blk (cl p) (cl q) (cl r) (cl s) in
    csgn b * rho t (map (fun m => nth m [lx p; lx q; lx r; lx s] 0%nat) o).
  Definition f_of (p q : nat) : K := rho (fid (cl p) (cl q)) [lx p; lx q].
  Definition h_of (p q : nat) : K := f_of p q - sumN no (fun i => g_of p i q i).

  Lemma cl_o p : (p < no)%nat -> cl p = cO /\ lx p = p.
  Proof. intros L. unfold cl, lx. destruct (Nat.ltb_spec p no); [auto|lia]. Qed.
  Lemma cl_v p : cl (no + p) = cV /\ lx (no + p) = p.
  Proof. unfold cl, lx. destruct (Nat.ltb_spec (no + p) no); [lia|]. split; [auto|lia]. Qed.
  Lemma cl_cases p : (p < no + nv)%nat -> (cl p = cO /\ (lx p < no)%nat) \/ (cl p = cV /\ (lx p < nv)%nat).
  Proof. intros L. unfold cl, lx. destruct (Nat.ltb_spec p no); [left|right]; split; auto; lia. Qed.

  Lemma g_of_anti : antisym_ints (no + nv) g_of.
  Proof.
    destruct OI as [(S1 & S2 & S3 & S4 & S5 & S6 & S7 & S8 & S9)
            ([A1 B1] & A2 & A3 & [A4 B4] & [A6 B6] & A7 & A8 & [A9 B9])].
    intros p q r s Lp Lq Lr Ls. unfold g_of.
    destruct (cl_cases p Lp) as [[-> Xp]|[-> Xp]], (cl_cases q Lq) as [[-> Xq]|[-> Xq]],
      (cl_cases r Lr) as [[-> Xr]|[-> Xr]], (cl_cases s Ls) as [[-> Xs]|[-> Xs]];
    cbn [blk cO cV map nth so_rho CISpec.sgn]; split; try ring;
    first
      [ rewrite A1 by (rewrite S1; repeat constructor; auto); ring | rewrite B1 by (rewrite S1; repeat constructor; auto); ring
      | rewrite A2 by (rewrite S2; repeat constructor; auto); ring | rewrite A3 by (rewrite S3; repeat constructor; auto); ring
      | rewrite A4 by (rewrite S4; repeat constructor; auto); ring | rewrite B4 by (rewrite S4; repeat constructor; auto); ring
      | rewrite A6 by (rewrite S6; repeat constructor; auto); ring | rewrite B6 by (rewrite S6; repeat constructor; auto); ring
      | rewrite A7 by (rewrite S7; repeat constructor; auto); ring | rewrite A8 by (rewrite S8; repeat constructor; auto); ring
      | rewrite A9 by (rewrite S9; repeat constructor; auto); ring | rewrite B9 by (rewrite S9; repeat constructor; auto); ring ].
  Qed.

  Lemma g_of_blocks : blocks2 no nv g_of I.
  Proof.
    destruct OI as [(S1 & S2 & S3 & S4 & S5 & S6 & S7 & S8 & S9) _].
    repeat split; auto; intros p q r s Lp Lq Lr Ls; unfold g_of; cbn [Nat.add];
      repeat match goal with
      | |- context [cl (no + ?x)] => destruct (cl_v x) as [-> ->]
      | L : (?x < no)%nat |- context [cl ?x] => destruct (cl_o x L) as [-> ->]
      end; cbn [blk cO cV map nth so_rho CISpec.sgn]; ring.
  Qed.

  Lemma h_of_blocks : blocks1 no nv (fock no h_of g_of) F.
  Proof.
    split; [exact OF|].
    assert (E : forall p q, fock no h_of g_of p q = f_of p q) by (intros; unfold fock, h_of; ring).
    repeat split; intros p q Lp Lq; rewrite E; unfold f_of;
      repeat match goal with
      | |- context [cl (no + ?x)] => destruct (cl_v x) as [-> ->]
      | L : (?x < no)%nat |- context [cl ?x] => destruct (cl_o x L) as [-> ->]
      end; reflexivity.
  Qed.

  Lemma blocks_realized : exists h g, antisym_ints (no + nv) g /\ blocks1 no nv (fock no h g) F /\ blocks2 no nv g I.
  Proof. exists h_of, g_of. auto using g_of_anti, g_of_blocks, h_of_blocks. Qed.
End Realize.
