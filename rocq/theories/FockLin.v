(** The linearised equations: over the dual numbers, with T times the
    infinitesimal, exp(-T) H exp(T) is H + eps [H, T]. *)
From Coq Require Import List Bool Arith ZArith Lia Ring String.
From Verif Require Import Scalar CISpec CIFacts CIFock CIMatrix CIVec CIExpSpec CIExp Tensor PySyntax PySem PySim Sym SymSound
  Norm CCProg CCSpec Engine Tools SOCtx CCEquiv CCDeriv CCFockSpec FockStates FockExp FockT WickSym FockH CCFock CCLinSpec.
Import ListNotations.
Local Open Scope string_scope.
Local Open Scope list_scope.

(** *** Projections of the transformed operator, without the exponential *)
Section Tilde.
  Variable K : cring.
  Local Open Scope K_scope.
  Add Ring KrFL : (c_th K).
  Variables no nv : nat.
  Variable h : nat -> nat -> K.
  Variable g : nat -> nat -> nat -> nat -> K.
  Variable F : one_e K.
  Variable I : two_e K.
  Hypothesis AG : antisym_ints (no + nv) g.
  Hypothesis BF : blocks1 no nv (fock no h g) F.
  Hypothesis BI : blocks2 no nv g I.
  Notation ref := (aufbau (no + nv) no).
  Notation H := (H_op (no + nv) h g).
  Variables T1 T2 : tensor K.
  Hypothesis H1 : t1_ok no nv T1.
  Hypothesis H2 : t2_ok no nv T2.
  Notation rho := (rho_t K F I T1 T2 no nv).
  Notation t1 := (fun a i => dat T1 [a; i]).
  Notation t2 := (fun a b i j => dat T2 [a; b; i; j]).
  Definition phi : state K := fun t => SL H (fun a => fst a * tildew K no nv t1 t2 (snd a) (kd ref) t).

  Lemma phi_proj sh w xs ms : inrange (map (so_dim no nv) sh) xs ->
    Forall (fun o : sop => match snd o with X k => (k < List.length sh)%nat | D _ => False end) w ->
    proj sh w = Some ms ->
    eow (map (conc no xs []) w) phi ref = den K (so_dim no nv) rho xs ms.
  Proof.
    intros Hx Hw P.
    assert (Lx : List.length xs = List.length sh) by (apply Forall2_length in Hx; rewrite map_length in Hx; auto).
    etransitivity; [|exact (vevs_sound K no nv rho sh xs _ _ Hx P)].
    rewrite den_sts_mul.
    - rewrite one_st_den. apply eow_ext. intros u Lu. rewrite ref_length in Lu.
      rewrite <- Lx, (H_sts_sound K no nv rho h g).
      + reflexivity.
      + exact (blocks_F K no nv h g F I BF T1 T2 (tzeros K [no; nv]) (tzeros K [no; no; nv; nv])).
      + exact (blocks_G K no nv g F I AG BI T1 T2 (tzeros K [no; nv]) (tzeros K [no; no; nv; nv])).
    - rewrite Lx. apply (one_st_ok K rho). exact Hw.
    - rewrite Lx. first [apply H_sts_ok | apply (H_sts_ok K)].
  Qed.

  Lemma phi_bra w s bra : act w ref = Some (s, bra) ->
    phi bra = csgn s * eow (rev (map adj w)) phi ref.
  Proof. intros E. rewrite (eow_adj K w _ _ _ _ E). destruct s; cbn [CISpec.sgn]; ring. Qed.

  Lemma sym_all' : sym_ok K (so_dim no nv) rho so_tb.
  Proof. pose proof (blocks_I_ok K no nv g I AG BI). so_args. Qed.
  Lemma args_T' : Forall2 (Rval K (so_dim no nv) rho) aT [py_one_e F; py_two_e I; arr T1; arr T2].
  Proof. destruct BF as [OF _]. pose proof (blocks_I_ok K no nv g I AG BI). so_args. Qed.
  Lemma args_E' : Forall2 (Rval K (so_dim no nv) rho) aE [arr T1; arr T2; arr (ov F); arr (oovv I)].
  Proof. destruct BF as [OF _]. pose proof (blocks_I_ok K no nv g I AG BI). so_args. Qed.

  Lemma phi_residuals :
    exists R1 R2,
      returns "ccsd_simple" [py_one_e F; py_two_e I; arr T1; arr T2] (tup [arr R1; arr R2]) /\
      shp R1 = [nv; no] /\ shp R2 = [nv; nv; no; no] /\
      (forall a i s bra, (a < nv)%nat -> (i < no)%nat -> act [Cre (no + a); Ann i] ref = Some (s, bra) ->
         phi bra = csgn s * dat R1 [a; i]) /\
      (forall a b i j s bra, (a < nv)%nat -> (b < nv)%nat -> (i < no)%nat -> (j < no)%nat ->
         act [Cre (no + a); Cre (no + b); Ann j; Ann i] ref = Some (s, bra) ->
         phi bra = csgn s * dat R2 [a; b; i; j]).
  Proof.
    destruct chk_parts as (E1 & _ & _ & P1 & P2 & S1 & S2 & O1 & O2 & _ & _ & C1 & C2 & _).
    destruct (run_pair_sound K (so_dim no nv) rho _ _ _ E1 args_T') as (R1 & R2 & HR & (Z1 & M1 & D1) & (Z2 & M2 & D2)).
    fold res1 in *. fold res2 in *. rewrite S1 in Z1, M1. rewrite S2 in Z2, M2.
    exists R1, R2. split; [exact HR|]. split; [exact Z1|]. split; [exact Z2|]. split.
    - intros a i s bra La Li E. rewrite (phi_bra _ _ _ E). f_equal.
      assert (Hx : inrange (map (so_dim no nv) sh1) [a; i]) by (repeat constructor; auto).
      pose proof (phi_proj sh1 bra1 [a; i] (got_ms (proj sh1 bra1)) Hx) as PT. cbn [rev map adj app]. cbn [bra1 map conc fst snd look nth mkop orb cO cV] in PT.
      etransitivity; [apply PT; [repeat constructor|exact P1]|].
      rewrite D1 by (rewrite Z1; exact Hx).
      apply den_diff. eapply check_sound; [exact C1|exact sym_all'|apply diff_ok; [exact O1|exact M1]|exact Hx].
    - intros a b i j s bra La Lb Li Lj E. rewrite (phi_bra _ _ _ E). f_equal.
      assert (Hx : inrange (map (so_dim no nv) sh2) [a; b; i; j]) by (repeat constructor; auto).
      pose proof (phi_proj sh2 bra2 [a; b; i; j] (got_ms (proj sh2 bra2)) Hx) as PT. cbn [rev map adj app].
      cbn [bra2 map conc fst snd look nth mkop orb cO cV] in PT.
      etransitivity; [apply PT; [repeat constructor|exact P2]|].
      rewrite D2 by (rewrite Z2; exact Hx).
      apply den_diff. eapply check_sound; [exact C2|exact sym_all'|apply diff_ok; [exact O2|exact M2]|exact Hx].
  Qed.

  Lemma phi_energy : exists e,
    returns "cc_energy" [arr T1; arr T2; arr (ov F); arr (oovv I)] (numv e) /\
    phi ref = den K (so_dim no nv) rho [] e_ref + e.
  Proof.
    destruct chk_parts as (_ & E2 & P0 & _ & _ & _ & _ & _ & _ & O0 & OE & _ & _ & C0).
    destruct (run_num_sound K _ rho _ _ _ E2 args_E') as (e & HR & (Me & De)).
    exists e. split; [exact HR|]. rewrite De, <- den_app.
    pose proof (phi_proj [] [] [] _ (Forall2_nil _) (Forall_nil _) P0) as PT. cbn [map eow] in PT. rewrite PT.
    apply den_diff. eapply check_sound; [exact C0|exact sym_all'| |constructor]. apply diff_ok; [exact O0|].
    apply Forall_app. split; [exact OE|exact Me].
  Qed.
End Tilde.

(** *** Dual numbers *)
Section DualFock.
  Variable K : cring.
  Local Open Scope K_scope.
  Add Ring KrFD : (c_th K).
  Notation DK := (DualK K).
  Definition pst (p q : state K) : state DK := fun t => (p t, q t).

  Lemma fst_sgn b : fst (CISpec.sgn b : DK) = CISpec.sgn b.
  Proof. destruct b; reflexivity. Qed.
  Lemma snd_sgn b : snd (CISpec.sgn b : DK) = 0.
  Proof. destruct b; cbn; ring. Qed.
  Lemma eo_pst o p q t : eo o (pst p q) t = (eo o p t, eo o q t).
  Proof.
    unfold eo, pst. destruct (_ && _)%bool; [|reflexivity].
    apply injective_projections; cbn [cmul DualK dual_mul fst snd]; rewrite fst_sgn, ?snd_sgn; ring.
  Qed.
  Lemma eow_pst w p q : forall t, eow w (pst p q) t = (eow w p t, eow w q t).
  Proof.
    induction w as [|o w IH]; intros t; [reflexivity|]. cbn [eow].
    rewrite (eo_ext DK o _ (pst (eow w p) (eow w q))) by (intros u _; apply IH). apply eo_pst.
  Qed.
  Lemma SL_pair {A} (l : list A) (f : A -> DK) : SL l f = (SL l (fun a => fst (f a)), SL l (fun a => snd (f a))).
  Proof.
    unfold SL. induction l as [|a l IH]; [reflexivity|]. cbn [map lsum]. rewrite IH. reflexivity.
  Qed.
  Lemma sumN_pair n (f : nat -> DK) : sumN n f = (sumN n (fun i => fst (f i)), sumN n (fun i => snd (f i))).
  Proof. rewrite !sumN_lsum. exact (SL_pair (seq 0 n) f). Qed.

  Lemma snd_add (x y : DK) : snd (cadd x y) = snd x + snd y.
  Proof. reflexivity. Qed.
  Lemma snd_mul (x y : DK) : snd (cmul x y) = fst x * snd y + snd x * fst y.
  Proof. reflexivity. Qed.
  Lemma snd_sums n (f : nat -> DK) : snd (sumN n f) = sumN n (fun i => snd (f i)).
  Proof. rewrite sumN_pair. reflexivity. Qed.
  Lemma fst_sums n (f : nat -> DK) : fst (sumN n f) = sumN n (fun i => fst (f i)).
  Proof. rewrite sumN_pair. reflexivity. Qed.
  Lemma snd_sumN n (f : nat -> DK) : (forall i, snd (f i) = 0) -> snd (sumN n f) = 0.
  Proof. intros E. rewrite snd_sums, <- (sumN_0 K n). apply sumN_ext. auto. Qed.

  Variables no nv : nat.
  Variable t1 : nat -> nat -> K.
  Variable t2 : nat -> nat -> nat -> nat -> K.
  Notation e1 := (fun a i => (0, t1 a i) : DK).
  Notation e2 := (fun a b i j => (0, t2 a b i j) : DK).
  Notation n := (no + nv)%nat.
  Hypothesis A1 : forall a b i j, (a < nv)%nat -> (b < nv)%nat -> (i < no)%nat -> (j < no)%nat -> t2 a b i j = - t2 b a i j.
  Hypothesis A2 : forall a b i j, (a < nv)%nat -> (b < nv)%nat -> (i < no)%nat -> (j < no)%nat -> t2 a b i j = - t2 a b j i.
  Notation T := (T_op no nv t1 t2).

  (** a list of words with coefficients c and one with coefficients eps c *)
  Definition inf_pair (x : DK * list op) (y : K * list op) : Prop := fst x = (0, fst y) /\ snd x = snd y.
  Lemma SL_inf A' A p q t : Forall2 inf_pair A' A ->
    eos A' (pst p q) t = (0, eos A p t).
  Proof.
    unfold eos, SL. induction 1 as [|x y l m [E1 E2] H IH]; [reflexivity|]. cbn [map lsum]. rewrite IH, E1, E2, eow_pst.
    apply injective_projections; cbn [cmul cadd DualK dual_mul fst snd]; ring.
  Qed.
  Lemma F2_map {A B C} (P : B -> C -> Prop) (f : A -> B) (g : A -> C) l : (forall x, P (f x) (g x)) -> Forall2 P (map f l) (map g l).
  Proof. intros H. induction l; constructor; auto. Qed.
  Lemma F2_flat {A B C} (P : B -> C -> Prop) (f : A -> list B) (g : A -> list C) l : (forall x, Forall2 P (f x) (g x)) ->
    Forall2 P (flat_map f l) (flat_map g l).
  Proof. intros H. induction l; [constructor|]. cbn. apply Forall2_app; auto. Qed.

  Lemma B_inf o : Forall2 inf_pair (B_op DK no nv e1 e2 o) (B_op K no nv t1 t2 o).
  Proof.
    destruct o as [p|p]; cbn [B_op]; destruct (_ : bool); try constructor;
      apply Forall2_app; repeat first [apply F2_map; intros | apply F2_flat; intros]; split; cbn [fst snd]; try reflexivity;
      apply injective_projections; cbn [cmul copp chalf DualK dual_mul fst snd]; ring.
  Qed.

  Lemma tildew_dual w p : Forall (fun o => (opi o < n)%nat) w -> forall t, List.length t = n ->
    tildew DK no nv e1 e2 w (pst p (fun _ => 0)) t
    = (eow w p t, eow w (eos T p) t - eos T (eow w p) t).
  Proof.
    induction 1 as [|o w Ho Hw IH]; intros t L.
    - cbn [tildew eow]. unfold pst. apply injective_projections; cbn; ring.
    - cbn [tildew eow]. unfold tilde.
      set (d := pst (eow w p) (fun u => eow w (eos T p) u - eos T (eow w p) u)).
      assert (E : forall u, List.length u = List.length t -> tildew DK no nv e1 e2 w (pst p (fun _ => 0)) u = d u)
        by (intros u Lu; rewrite IH by congruence; reflexivity).
      rewrite (eo_ext DK o _ d t E), (eos_ext DK _ _ d t E). unfold d.
      rewrite eo_pst, (SL_inf _ _ _ _ _ (B_inf o)).
      apply injective_projections; cbn [cadd DualK fst snd]; [ring|].
      rewrite (eo_ext K o _ (fun u => eow w (eos T p) u + (- (1)) * eos T (eow w p) u)) by (intros; ring).
      rewrite eo_add, eo_mul, (T_comm K no nv t1 t2 A1 A2 o (eow w p) t Ho L). ring.
  Qed.
End DualFock.

Lemma tildew_ext' (K : cring) no nv t1 t2 w (p q : state K) : forall t,
  (forall u, List.length u = List.length t -> p u = q u) ->
  tildew K no nv t1 t2 w p t = tildew K no nv t1 t2 w q t.
Proof.
  induction w as [|o w IH]; intros t H; cbn [tildew]; [apply H; reflexivity|].
  unfold tilde. f_equal; [apply eo_ext | apply eos_ext]; intros u Lu; apply IH; intros v Lv; apply H; congruence.
Qed.

Section DualHam.
  Variable K : cring.
  Local Open Scope K_scope.
  Add Ring KrFE : (c_th K).
  Notation DK := (DualK K).
  Variables no nv : nat.
  Variable h : nat -> nat -> K.
  Variable g : nat -> nat -> nat -> nat -> K.
  Notation dh := (fun p q => (h p q, 0) : DK).
  Notation dg := (fun p q r s => (g p q r s, 0) : DK).
  Notation H := (H_op (no + nv) h g).

  Definition con_pair (x : DK * list op) (y : K * list op) : Prop := fst x = (fst y, 0) /\ snd x = snd y.
  Lemma H_con : Forall2 con_pair (H_op (no + nv) dh dg) H.
  Proof.
    unfold H_op. apply Forall2_app; repeat first [apply F2_map; intros | apply F2_flat; intros]; split; cbn [fst snd]; try reflexivity.
    unfold quarter. apply injective_projections; cbn [cmul chalf DualK dual_mul fst snd]; ring.
  Qed.
  Lemma lift_ints : antisym_ints (no + nv) g -> antisym_ints (K := DK) (no + nv) dg.
  Proof.
    intros A p q r s L1 L2 L3 L4. destruct (A p q r s L1 L2 L3 L4) as [X Y].
    split; apply injective_projections; cbn [copp DualK fst snd]; try exact X; try exact Y; ring.
  Qed.
  Lemma lift_fock p q : fock no dh dg p q = (fock no h g p q, 0) :> DK.
  Proof.
    unfold fock. rewrite sumN_pair. apply injective_projections; cbn [cadd DualK fst snd]; [reflexivity|].
    rewrite (sumN_0 K). ring.
  Qed.
  Lemma lift_blocks1 F : blocks1 no nv (fock no h g) F -> blocks1 no nv (fock no dh dg) (lift_one_e F).
  Proof.
    intros (O & B1 & B2 & B3 & B4). split; [apply lift_one_e_ok, O|].
    repeat split; intros p q Lp Lq; rewrite lift_fock; cbn [lift_one_e lift oo ov vo vv dat];
      first [rewrite B1 by auto | rewrite B2 by auto | rewrite B3 by auto | rewrite B4 by auto]; reflexivity.
  Qed.
  Lemma lift_blocks2 I : blocks2 no nv g I -> blocks2 no nv dg (lift_two_e I).
  Proof.
    intros B. repeat match goal with H : _ /\ _ |- _ => destruct H end.
    unfold blocks2 in *. unfold block2 in *. repeat match goal with H : _ /\ _ |- _ => destruct H end.
    repeat split; cbn [lift_two_e lift shp dat vvvv vvvo vovv vvoo vovo oovv vooo ooov oooo]; auto;
      intros; apply injective_projections; cbn [fst snd]; auto.
  Qed.
End DualHam.

Section LinMain.
  Variable K : cring.
  Local Open Scope K_scope.
  Add Ring KrFM : (c_th K).
  Notation DK := (DualK K).
  Variables no nv : nat.
  Variable h : nat -> nat -> K.
  Variable g : nat -> nat -> nat -> nat -> K.
  Variable F : one_e K.
  Variable I : two_e K.
  Hypothesis AG : antisym_ints (no + nv) g.
  Hypothesis BF : blocks1 no nv (fock no h g) F.
  Hypothesis BI : blocks2 no nv g I.
  Notation ref := (aufbau (no + nv) no).
  Notation H := (H_op (no + nv) h g).
  Notation dh := (fun p q => (h p q, 0) : DK).
  Notation dg := (fun p q r s => (g p q r s, 0) : DK).

  (** H + [H, T] *)
  Lemma linearised_eos (T A : list (K * list op)) psi t :
    eos (linearised T A) psi t = eos A psi t + (eos A (eos T psi) t - eos T (eos A psi) t).
  Proof. unfold linearised. rewrite !eos_app, eos_opscale, !eos_opmul. ring. Qed.

  Section T.
  Variables T1 T2 : tensor K.
  Hypothesis H1 : t1_ok no nv T1.
  Hypothesis H2 : t2_ok no nv T2.
  Notation T := (cluster no nv T1 T2).

  Lemma phi_dual t : List.length t = (no + nv)%nat ->
    phi DK no nv dh dg (infinitesimal T1) (infinitesimal T2) t
    = (amp t H ref, eos H (eos T (kd ref)) t - eos T (eos H (kd ref)) t).
  Proof.
    intros L. destruct (t2_anti K no nv T2 H2) as [A1 A2].
    unfold phi. rewrite amp_eos.
    assert (E : forall a, In a (H_op (no + nv) dh dg) ->
      tildew DK no nv (fun a i => dat (infinitesimal T1) [a; i]) (fun a b i j => dat (infinitesimal T2) [a; b; i; j]) (snd a) (kd ref) t
      = (eow (snd a) (kd ref) t, eow (snd a) (eos T (kd ref)) t - eos T (eow (snd a) (kd ref)) t)).
    { intros a Ha. pose proof (H_in DK no nv dh dg) as HI. rewrite Forall_forall in HI.
      etransitivity; [|exact (tildew_dual K no nv (fun a i => dat T1 [a; i]) (fun a b i j => dat T2 [a; b; i; j]) A1 A2 (snd a) (kd ref) (HI a Ha) t L)].
      apply tildew_ext'. intros u _. unfold kd, pst. destruct (det_eqb ref u); reflexivity. }
    assert (G : forall L' L0, Forall2 (con_pair K) L' L0 -> incl L' (H_op (no + nv) dh dg) ->
      SL L' (fun a => cmul (fst a) (tildew DK no nv (fun a i => dat (infinitesimal T1) [a; i]) (fun a b i j => dat (infinitesimal T2) [a; b; i; j]) (snd a) (kd ref) t))
      = (eos L0 (kd ref) t, eos L0 (eos T (kd ref)) t - eos T (eos L0 (kd ref)) t)).
    { induction 1 as [|x y l m [E1 E2] _ IH]; intros Hin.
      - apply injective_projections; [reflexivity|]. cbn [snd]. rewrite eos_nil.
        rewrite (eos_ext K T (eos [] (kd ref)) (fun _ => (0 : K) * (0 : K))) by (intros; rewrite eos_nil; ring).
        rewrite eos_mul. etransitivity; [reflexivity|]. cbn. ring.
      - change (SL (x :: l) ?f) with (cadd (f x) (SL l f)). cbv beta.
        rewrite IH by (intros z Hz; apply Hin; right; exact Hz). rewrite E by (apply Hin; left; reflexivity).
        rewrite E1, E2.
        rewrite (eos_ext K T (eos (y :: m) (kd ref)) (fun u => fst y * eow (snd y) (kd ref) u + eos m (kd ref) u))
          by (intros; reflexivity).
        rewrite eos_add, eos_mul.
        change (eos (y :: m) ?f t) with (fst y * eow (snd y) f t + eos m f t).
        apply injective_projections; cbn [cadd cmul DualK dual_mul fst snd]; ring. }
    rewrite (G _ _ (H_con K no nv h g) (incl_refl _)). reflexivity.
  Qed.

  Lemma bra_length w s bra : act w ref = Some (s, bra) -> List.length bra = (no + nv)%nat.
  Proof. intros E. apply act_length in E. rewrite E. apply ref_length. Qed.

  Lemma dual_parts (x y s : K) b (R : DK) : (x, y) = cmul (csgn b) R :> DK -> x + y = csgn b * (fst R + snd R).
  Proof.
    intros E. injection E as E1 E2. rewrite E1, E2, fst_sgn, snd_sgn. ring.
  Qed.

  Lemma lccsd_projections :
    exists R1 R2,
      returns "lccsd_simple" [py_one_e F; py_two_e I; arr T1; arr T2] (tup [arr R1; arr R2]) /\
      shp R1 = [nv; no] /\ shp R2 = [nv; nv; no; no] /\
      (forall a i s bra, (a < nv)%nat -> (i < no)%nat -> act [Cre (no + a); Ann i] ref = Some (s, bra) ->
         amp bra (linearised T H) ref = csgn s * dat R1 [a; i]) /\
      (forall a b i j s bra, (a < nv)%nat -> (b < nv)%nat -> (i < no)%nat -> (j < no)%nat ->
         act [Cre (no + a); Cre (no + b); Ann j; Ann i] ref = Some (s, bra) ->
         amp bra (linearised T H) ref = csgn s * dat R2 [a; b; i; j]).
  Proof.
    pose proof (blocks_I_ok K no nv g I AG BI) as OI. pose proof (proj1 BF) as OF.
    destruct (ccsd_linear_part K no nv F I T1 T2 OF OI H1 H2) as (S1 & S2 & R1 & R2 & HS & HR & [Z1 D1] & [Z2 D2]).
    destruct (phi_residuals DK no nv dh dg (lift_one_e F) (lift_two_e I) (lift_ints K no nv g AG) (lift_blocks1 K no nv h g F BF)
      (lift_blocks2 K no nv g I BI) (infinitesimal T1) (infinitesimal T2) H1 (infinitesimal_t2_ok K no nv T2 H2))
      as (S1' & S2' & HS' & Y1 & Y2 & P1 & P2).
    pose proof (returns_fun DK _ _ _ _ HS HS') as Q. injection Q as -> ->.
    cbn [lin_parts shp dat] in *.
    exists R1, R2. split; [exact HR|]. split; [congruence|]. split; [congruence|]. split.
    - intros a i s bra La Li E. specialize (P1 a i s bra La Li E).
      rewrite phi_dual in P1 by (eapply bra_length; eauto).
      rewrite amp_eos, linearised_eos, <- amp_eos.
      rewrite (dual_parts _ _ 0 _ _ P1), D1 by (rewrite Y1; repeat constructor; auto). reflexivity.
    - intros a b i j s bra La Lb Li Lj E. specialize (P2 a b i j s bra La Lb Li Lj E).
      rewrite phi_dual in P2 by (eapply bra_length; eauto).
      rewrite amp_eos, linearised_eos, <- amp_eos.
      rewrite (dual_parts _ _ 0 _ _ P2), D2 by (rewrite Y2; repeat constructor; auto). reflexivity.
  Qed.
  End T.
End LinMain.

Section LinMore.
  Variable K : cring.
  Local Open Scope K_scope.
  Add Ring KrFN : (c_th K).
  Notation DK := (DualK K).
  Variables no nv : nat.
  Variable h : nat -> nat -> K.
  Variable g : nat -> nat -> nat -> nat -> K.
  Variable F : one_e K.
  Variable I : two_e K.
  Hypothesis AG : antisym_ints (no + nv) g.
  Hypothesis BF : blocks1 no nv (fock no h g) F.
  Hypothesis BI : blocks2 no nv g I.
  Notation ref := (aufbau (no + nv) no).
  Notation H := (H_op (no + nv) h g).
  Notation dh := (fun p q => (h p q, 0) : DK).
  Notation dg := (fun p q r s => (g p q r s, 0) : DK).

  Lemma lccd_projections T2 : t2_ok no nv T2 ->
    exists R2,
      returns "lccd_simple" [py_one_e F; py_two_e I; arr T2] (arr R2) /\
      shp R2 = [nv; nv; no; no] /\
      (forall a b i j s bra, (a < nv)%nat -> (b < nv)%nat -> (i < no)%nat -> (j < no)%nat ->
         act [Cre (no + a); Cre (no + b); Ann j; Ann i] ref = Some (s, bra) ->
         amp bra (linearised (doubles no nv T2) H) ref = csgn s * dat R2 [a; b; i; j]).
  Proof.
    intros H2. pose proof (blocks_I_ok K no nv g I AG BI) as OI. pose proof (proj1 BF) as OF.
    destruct (ccd_linear_part K no nv F I (tzeros K [nv; no]) T2 OF OI H2) as (S2 & R2 & HS & HR & [Z2 D2]).
    destruct (ccd_ccsd_zero_singles DK no nv (lift_one_e F) (lift_two_e I) (infinitesimal T2) (lift_one_e_ok K no nv F OF)
      (lift_two_e_ok K no nv I OI) (infinitesimal_t2_ok K no nv T2 H2)) as [(U1 & U2 & U & HU & HD & [EU EV]) _].
    pose proof (returns_fun DK _ _ _ _ HS HD) as Q. injection Q as ->.
    destruct (phi_residuals DK no nv dh dg (lift_one_e F) (lift_two_e I) (lift_ints K no nv g AG) (lift_blocks1 K no nv h g F BF)
      (lift_blocks2 K no nv g I BI) (tzeros DK [nv; no]) (infinitesimal T2) (zeroT1_ok DK no nv) (infinitesimal_t2_ok K no nv T2 H2))
      as (V1 & V2 & HV & Y1 & Y2 & _ & P2).
    pose proof (returns_fun DK _ _ _ _ HU HV) as Q. injection Q as -> ->.
    cbn [lin_parts shp dat] in *.
    exists R2. split; [exact HR|]. split; [congruence|].
    intros a b i j s bra La Lb Li Lj E. specialize (P2 a b i j s bra La Lb Li Lj E).
    change (phi DK no nv dh dg (tzeros DK [nv; no]) (infinitesimal T2) bra)
      with (phi DK no nv dh dg (infinitesimal (tzeros K [nv; no])) (infinitesimal T2) bra) in P2.
    rewrite (phi_dual K no nv h g (tzeros K [nv; no]) T2 H2) in P2 by (eapply bra_length; eauto).
    change (doubles no nv T2) with (cluster no nv (tzeros K [nv; no]) T2).
    rewrite amp_eos, linearised_eos, <- amp_eos.
    rewrite (dual_parts _ _ _ 0 _ _ P2), <- D2 by (rewrite <- EU, Y2; repeat constructor; auto).
    rewrite EV by (rewrite Y2; repeat constructor; auto). reflexivity.
  Qed.

  Lemma ccd_projections inv M T2 f : f = "ccd_simple" \/ f = "ccd_stanton" -> inverts inv M -> (nv < M)%nat -> t2_ok no nv T2 ->
    exists R2,
      returns f [py_one_e F; py_two_e I; arr T2] (arr R2) /\
      shp R2 = [nv; nv; no; no] /\
      (forall a b i j s bra, (a < nv)%nat -> (b < nv)%nat -> (i < no)%nat -> (j < no)%nat ->
         act [Cre (no + a); Cre (no + b); Ann j; Ann i] ref = Some (s, bra) ->
         amp bra (transformed inv M (doubles no nv T2) H) ref = csgn s * dat R2 [a; b; i; j]).
  Proof.
    intros Hf HI HM H2. pose proof (blocks_I_ok K no nv g I AG BI) as OI. pose proof (proj1 BF) as OF.
    change (doubles no nv T2) with (cluster no nv (tzeros K [nv; no]) T2).
    destruct (ccd_ccsd_zero_singles K no nv F I T2 OF OI H2) as [(U1 & U2 & U & HU & HD & [EU EV]) (U1' & U2' & U' & HU' & HD' & [EU' EV'])].
    destruct Hf as [-> | ->].
    - destruct (ccsd_simple_projections K no nv h g F I AG BF BI inv M HI HM (tzeros K [nv; no]) T2 (zeroT1_ok K no nv) H2)
        as (V1 & V2 & HV & Y1 & Y2 & _ & P2).
      pose proof (returns_fun K _ _ _ _ HU HV) as Q. injection Q as -> ->.
      exists U. split; [exact HD|]. split; [congruence|]. intros a b i j s bra La Lb Li Lj E.
      rewrite (P2 a b i j s bra La Lb Li Lj E), EV by (rewrite Y2; repeat constructor; auto). reflexivity.
    - destruct (ccsd_stanton_projections K no nv h g F I inv M (tzeros K [nv; no]) T2 AG BF BI HI HM (zeroT1_ok K no nv) H2)
        as (V1 & V2 & HV & Y1 & Y2 & _ & P2).
      pose proof (returns_fun K _ _ _ _ HU' HV) as Q. injection Q as -> ->.
      exists U'. split; [exact HD'|]. split; [congruence|]. intros a b i j s bra La Lb Li Lj E.
      rewrite (P2 a b i j s bra La Lb Li Lj E), EV' by (rewrite Y2; repeat constructor; auto). reflexivity.
  Qed.

  (** the energy *)
  Lemma e_ref_lift T1 T2 : snd (den DK (so_dim no nv)
    (rho_t DK (lift_one_e F) (lift_two_e I) (infinitesimal T1) (infinitesimal T2) no nv) [] e_ref) = 0.
  Proof.
    unfold e_ref, den, den_mono. cbn [map lsum m_z m_k m_dm m_fs sumL].
    rewrite dyad10, dyadm11.
    rewrite snd_add, snd_add, !snd_mul, !(snd_sumN K (so_dim no nv cO)).
    - cbn. ring.
    - intros i. rewrite (snd_sumN K (so_dim no nv cO)); [reflexivity|]. intros j. cbn. ring.
    - intros i. cbn. ring.
  Qed.

  Lemma mp2_linear T1 T2 : t1_ok no nv T1 -> t2_ok no nv T2 -> exists e,
    returns "mp2_energy" [arr T1; arr T2; arr (ov F); arr (oovv I)] (numv e) /\
    amp ref (linearised (cluster no nv T1 T2) H) ref = amp ref H ref + e.
  Proof.
    intros H1 H2. destruct BF as ((_ & OV & _) & _). destruct BI as (_ & _ & _ & _ & _ & [OOVV _] & _).
    eexists. split; [exact (mp2_energy_formula K no nv T1 T2 (ov F) (oovv I) H1 (proj1 H2) OV OOVV)|].
    destruct (phi_energy DK no nv dh dg (lift_one_e F) (lift_two_e I) (lift_ints K no nv g AG) (lift_blocks1 K no nv h g F BF)
      (lift_blocks2 K no nv g I BI) (infinitesimal T1) (infinitesimal T2) H1 (infinitesimal_t2_ok K no nv T2 H2)) as (e & He & E).
    pose proof (cc_energy_formula DK no nv (infinitesimal T1) (infinitesimal T2) (lift (ov F)) (lift (oovv I)) H1 (proj1 H2) OV OOVV) as HF.
    pose proof (returns_fun DK _ _ _ _ He HF) as Q. injection Q as ->.
    rewrite (phi_dual K no nv h g T1 T2 H2) in E by apply ref_length.
    apply (f_equal snd) in E. cbn [snd] in E. rewrite snd_add, e_ref_lift in E.
    rewrite amp_eos, linearised_eos, <- amp_eos. f_equal. rewrite E.
    cbn [snd].
    assert (Q1 : snd (s1_sum DK no nv (infinitesimal T1) (lift (ov F))) = s1_sum K no nv T1 (ov F)).
    { unfold s1_sum. rewrite snd_sums. apply sumN_ext. intros i _. rewrite snd_sums. apply sumN_ext. intros a _. cbn. ring. }
    assert (Q2 : snd (d_sum DK no nv (infinitesimal T2) (lift (oovv I))) = d_sum K no nv T2 (oovv I)).
    { unfold d_sum. rewrite snd_sums. apply sumN_ext. intros i _. rewrite snd_sums. apply sumN_ext. intros j _.
      rewrite snd_sums. apply sumN_ext. intros a _. rewrite snd_sums. apply sumN_ext. intros b _. cbn. ring. }
    assert (Q3 : snd (s2_sum DK no nv (infinitesimal T1) (lift (oovv I))) = 0).
    { unfold s2_sum. apply snd_sumN. intros i. apply snd_sumN. intros j. apply snd_sumN. intros a. apply snd_sumN. intros b. cbn. ring. }
    rewrite Q1, Q2, Q3. unfold quarter. ring.
  Qed.
End LinMore.
