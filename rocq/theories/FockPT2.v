(** Second order perturbation theory: levels of excitation, diagonal operators, the main lemmas. *)
From Coq Require Import List Bool Arith ZArith Lia Ring String.
From Verif Require Import Scalar CISpec CIRep CIFacts CIStrings CILemmas CIFock CIMatrix CIVec CIExpSpec CIExp Tensor PySyntax PySem PySim Sym SymSound
  Norm CCProg CCSpec Engine Tools SOCtx CCEquiv CCDeriv CCFockSpec FockStates FockExp FockT FockSchr WickSym FockH CCFock CCLinSpec FockLin
  PTSpec FockPT UtilsModel UtilsFacts.
Import ListNotations.
Local Open Scope string_scope.
Local Open Scope list_scope.

(** *** Levels *)
Fixpoint ncre (w : list op) : nat := match w with [] => 0 | Cre _ :: w' => S (ncre w') | Ann _ :: w' => ncre w' end.
Fixpoint nann (w : list op) : nat := match w with [] => 0 | Ann _ :: w' => S (nann w') | Cre _ :: w' => nann w' end.
Section Levels.
  Variable K : cring.
  Local Open Scope K_scope.
  Add Ring KrPB : (c_th K).
  Notation opsum := (list (K * list op)).
  Variables no nv : nat.
  Notation n := (no + nv)%nat.
  Notation ref := (aufbau n no).

  Definition vmax (k : nat) (psi : state K) : Prop := forall t, List.length t = n -> (k < vlev no t)%nat -> psi t = 0.
  Lemma vlev_put_true p t : (vlev no t <= vlev no (put p true t))%nat.
  Proof.
    unfold vlev. destruct (Nat.lt_ge_cases p no) as [L|L].
    - rewrite skipn_put_lt by auto. lia.
    - rewrite skipn_put_ge by auto. generalize (skipn no t). intros u. generalize (p - no)%nat. clear.
      induction u as [|c u IH]; intros [|q]; cbn; [lia|lia|destruct c; lia|specialize (IH q); destruct c; lia].
  Qed.
  Lemma vlev_put_false p t : (vlev no (put p false t) <= vlev no t <= S (vlev no (put p false t)))%nat.
  Proof.
    unfold vlev. destruct (Nat.lt_ge_cases p no) as [L|L].
    - rewrite skipn_put_lt by auto. lia.
    - rewrite skipn_put_ge by auto. generalize (skipn no t). intros u. generalize (p - no)%nat. clear.
      induction u as [|c u IH]; intros [|q]; cbn; [lia|lia|destruct c; lia|specialize (IH q); destruct c; lia].
  Qed.
  Lemma vmax_eow w k psi : vmax k psi -> vmax (k + ncre w) (eow w psi).
  Proof.
    intros P. induction w as [|o w IH]; intros t L V; [apply P; auto; cbn in V; lia|].
    cbn [eow]. unfold eo. destruct (_ && _); [|reflexivity].
    rewrite IH; [ring|rewrite put_length; auto|].
    destruct o as [p|p]; cbn [opi opb negb ncre] in *.
    - pose proof (vlev_put_false p t). lia.
    - pose proof (vlev_put_true p t). lia.
  Qed.
  Lemma vmin_eow w k psi : vmin K no nv (k + nann w) psi -> vmin K no nv k (eow w psi).
  Proof.
    revert k. induction w as [|o w IH]; intros k P t L V; [apply P; auto; cbn; lia|].
    cbn [eow]. unfold eo. destruct (_ && _); [|reflexivity].
    destruct o as [p|p]; cbn [opi opb negb nann] in *.
    - rewrite (IH k); [ring| |rewrite put_length; auto|pose proof (vlev_put_false p t); lia].
      intros u Lu Vu. apply P; auto.
    - rewrite (IH (S k)); [ring| |rewrite put_length; auto|pose proof (vlev_put_le no p true t); lia].
      intros u Lu Vu. apply P; auto. lia.
  Qed.
  Lemma vmax_eos A c k psi : Forall (fun a : K * list op => (ncre (snd a) <= c)%nat) A -> vmax k psi -> vmax (k + c) (eos A psi).
  Proof.
    intros HA P t L V. unfold eos. apply SL_zero. intros a Ha. rewrite Forall_forall in HA. specialize (HA a Ha).
    rewrite (vmax_eow (snd a) k psi P t L) by lia. ring.
  Qed.
  Lemma vmin_eos A c k psi : Forall (fun a : K * list op => (nann (snd a) <= c)%nat) A -> vmin K no nv (k + c) psi -> vmin K no nv k (eos A psi).
  Proof.
    intros HA P t L V. unfold eos. apply SL_zero. intros a Ha. rewrite Forall_forall in HA. specialize (HA a Ha).
    rewrite (vmin_eow (snd a) k psi); [ring| |exact L|exact V]. intros u Lu Vu. apply P; auto. lia.
  Qed.
  Ltac seqs := repeat match goal with
    | H : In _ (seq _ _) |- _ => apply in_seq in H
    | H : In _ (flat_map _ _) |- _ => apply in_flat_map in H as (? & ? & ?)
    | H : In _ (map _ _) |- _ => apply in_map_iff in H as (? & <- & ?)
    end.
  Lemma H_ncre h g : Forall (fun a : K * list op => (ncre (snd a) <= 2)%nat) (H_op n h g).
  Proof. apply Forall_app. split; apply Forall_forall; intros x Hx; seqs; cbn; lia. Qed.
  Lemma H_nann h g : Forall (fun a : K * list op => (nann (snd a) <= 2)%nat) (H_op n h g).
  Proof. apply Forall_app. split; apply Forall_forall; intros x Hx; seqs; cbn; lia. Qed.
  Lemma T_ncre t1 t2 : Forall (fun a : K * list op => (ncre (snd a) <= 2)%nat) (T_op no nv t1 t2).
  Proof. apply Forall_app. split; apply Forall_forall; intros x Hx; seqs; cbn; lia. Qed.
  Lemma vmax_ref : vmax 0 (kd ref).
  Proof.
    intros t L V. unfold kd. destruct (det_eqb ref t) eqn:E; [|reflexivity].
    apply det_eqb_eq in E. subst t. rewrite vlev_aufbau in V. lia.
  Qed.

  (** determinants of level at most 2 *)
  Lemma low_dets t : List.length t = n -> nel t = no -> (vlev no t <= 2)%nat ->
    t = ref \/
    (exists a i s, (a < nv)%nat /\ (i < no)%nat /\ act [Cre (no + a); Ann i] ref = Some (s, t)) \/
    (exists a b i j s, (a < nv)%nat /\ (b < nv)%nat /\ (i < no)%nat /\ (j < no)%nat /\
       act [Cre (no + a); Cre (no + b); Ann j; Ann i] ref = Some (s, t)).
  Proof.
    intros L N V. pose proof (vlev_excited no nv t L N) as X.
    destruct (vlev no t) as [|[|[|k]]] eqn:E; [| | |lia].
    - left. destruct X as (_ & _ & D). symmetry. apply ndiff_zero; [rewrite aufbau_length; auto|lia].
    - right. left. apply single_word. exact X.
    - right. right. apply double_word. exact X.
  Qed.
End Levels.

(** *** Diagonal operators *)
Section Diagonal.
  Variable K : cring.
  Local Open Scope K_scope.
  Add Ring KrPC : (c_th K).
  Variable n : nat.
  Variable e : nat -> K.
  Definition en (t : det) : K := sumN n (fun p => if occd t p then e p else 0).

  Lemma number_op p (psi : state K) t : (p < List.length t)%nat -> eow [Cre p; Ann p] psi t = (if occd t p then 1 else 0) * psi t.
  Proof.
    intros L. cbn [eow]. unfold eo. cbn [opi opb negb]. rewrite put_length.
    replace (Nat.ltb p (List.length t)) with true by (symmetry; apply Nat.ltb_lt; exact L). cbn [andb].
    destruct (occd t p) eqn:O; cbn [Bool.eqb]; [|ring].
    rewrite occd_put, Nat.eqb_refl. replace (Nat.ltb p (List.length t)) with true by (symmetry; apply Nat.ltb_lt; exact L).
    cbn [Bool.eqb andb]. rewrite put_put, <- O, put_same, odd_below_put, Nat.ltb_irrefl. cbn [andb].
    transitivity (csgn (odd_below p t) * csgn (odd_below p t) * psi t); [ring|]. rewrite sgn_sgn, xorb_nilpotent. cbn. ring.
  Qed.
  Lemma diagonal_eos psi t : List.length t = n -> eos (diagonal n e) psi t = en t * psi t.
  Proof.
    intros L. unfold diagonal, eos. rewrite SL_map_seq. unfold en. rewrite <- sumN_mul_r. apply sumN_ext. intros p Hp.
    cbn [fst snd]. rewrite number_op by lia. destruct (occd t p); ring.
  Qed.

  Lemma en_put p b t : (p < n)%nat -> List.length t = n ->
    en (put p b t) = en t + (if b then e p else 0) - (if occd t p then e p else 0).
  Proof.
    intros L Lt. unfold en.
    transitivity (sumN n (fun q => (if occd t q then e q else 0) + delta q p * ((if b then e q else 0) - (if occd t q then e q else 0)))).
    - apply sumN_ext. intros q Hq. rewrite occd_put. unfold delta. destruct (Nat.eqb p q) eqn:E.
      + apply Nat.eqb_eq in E. subst q. rewrite Nat.eqb_refl. replace (Nat.ltb p (List.length t)) with true by (symmetry; apply Nat.ltb_lt; lia).
        cbn [andb]. destruct b, (occd t p); ring.
      + rewrite Nat.eqb_sym, E. cbn [andb]. destruct (occd t q); ring.
    - rewrite sumN_add, sumN_delta by exact L. ring.
  Qed.
  Lemma en_act1 o s g t : List.length s = n -> act1 o s = Some (g, t) ->
    en t = en s + (match o with Cre p => e p | Ann p => - e p end).
  Proof.
    intros L A. apply act1_rev in A as (C & _ & ->). rewrite put_length in L.
    apply andb_prop in C as [C1 C2]. apply Nat.ltb_lt in C1. apply eqb_prop in C2.
    rewrite en_put by lia. rewrite C2. destruct o as [p|p]; cbn [opb opi negb]; ring.
  Qed.
  Lemma en_act w : forall s g t, List.length s = n -> act w s = Some (g, t) ->
    en t = en s + lsum (map (fun o => match o with Cre p => e p | Ann p => - e p end) w).
  Proof.
    induction w as [|o w IH]; intros s g t L A.
    - cbn in A. injection A as _ <-. cbn. ring.
    - cbn [act] in A. destruct (act w s) as [[g1 u]|] eqn:E; [|discriminate].
      destruct (act1 o u) as [[g2 v]|] eqn:E1; [|discriminate]. injection A as _ <-.
      rewrite (en_act1 o u g2 v); [|rewrite (act_length _ _ _ _ E); exact L|exact E1].
      rewrite (IH _ _ _ L E). cbn [map lsum]. ring.
  Qed.
End Diagonal.

Section Second.
  Variable K : cring.
  Local Open Scope K_scope.
  Add Ring KrPD : (c_th K).
  Variables no nv : nat.
  Variable h : nat -> nat -> K.
  Variable g : nat -> nat -> nat -> nat -> K.
  Variable F : one_e K.
  Variable I : two_e K.
  Hypothesis AG : antisym_ints (no + nv) g.
  Hypothesis BF : blocks1 no nv (fock no h g) F.
  Hypothesis BI : blocks2 no nv g I.
  Variables eo_ ev Da Db T1 T2 : tensor K.
  Hypothesis So : shp eo_ = [no].
  Hypothesis Sv : shp ev = [nv].
  Hypothesis HDa : UtilsModel.D1 ev eo_ = Some Da.
  Hypothesis HDb : UtilsModel.D2 ev eo_ = Some Db.
  Hypothesis S1 : shp T1 = [nv; no].
  Hypothesis S2 : shp T2 = [nv; nv; no; no].
  Hypothesis U1 : forall a i, (a < nv)%nat -> (i < no)%nat -> exists x, x * dat Da [a; i] = 1.
  Hypothesis U2 : forall a b i j, (a < nv)%nat -> (b < nv)%nat -> (i < no)%nat -> (j < no)%nat -> exists x, x * dat Db [a; b; i; j] = 1.
  Hypothesis E1 : forall a i, (a < nv)%nat -> (i < no)%nat -> dat T1 [a; i] * dat Da [a; i] = - dat (vo F) [a; i].
  Hypothesis E2 : forall a b i j, (a < nv)%nat -> (b < nv)%nat -> (i < no)%nat -> (j < no)%nat ->
    dat T2 [a; b; i; j] * dat Db [a; b; i; j] = - dat (vvoo I) [a; b; i; j].
  Notation n := (no + nv)%nat.
  Notation ref := (aufbau n no).
  Notation H := (H_op n h g).
  Notation T := (cluster no nv T1 T2).
  Definition eps (p : nat) : K := if Nat.ltb p no then dat eo_ [p] else dat ev [(p - no)%nat].
  Notation H0 := (diagonal n eps).
  Notation E0 := (sumN no (fun i => dat eo_ [i])).
  Notation V := (minus H H0).

  Lemma da_val a i : (a < nv)%nat -> (i < no)%nat -> dat Da [a; i] = dat ev [a] - dat eo_ [i].
  Proof.
    intros La Li. destruct (D1_spec K ev eo_ nv no Sv So) as (D & HD & _ & E). rewrite HDa in HD. injection HD as <-. auto.
  Qed.
  Lemma db_val a b i j : (a < nv)%nat -> (b < nv)%nat -> (i < no)%nat -> (j < no)%nat ->
    dat Db [a; b; i; j] = dat ev [a] + dat ev [b] - dat eo_ [i] - dat eo_ [j].
  Proof.
    intros La Lb Li Lj. destruct (D2_spec K ev eo_ nv no Sv So) as (D & HD & _ & E & _). rewrite HDb in HD. injection HD as <-. auto.
  Qed.
  Lemma cancel_r (x d y : K) (u : K) : u * d = 1 -> x * d = y * d -> x = y.
  Proof.
    intros Hu E. transitivity (x * d * u); [transitivity (x * (u * d)); [rewrite Hu; ring|ring]|].
    rewrite E. transitivity (y * (u * d)); [ring|rewrite Hu; ring].
  Qed.
  Lemma pt_t2_ok : t2_ok no nv T2.
  Proof.
    pose proof (blocks_I_ok K no nv g I AG BI) as (_ & OI).
    assert (VA : forall a b i j, (a < nv)%nat -> (b < nv)%nat -> (i < no)%nat -> (j < no)%nat ->
      dat (vvoo I) [a; b; i; j] = - dat (vvoo I) [b; a; i; j] /\ dat (vvoo I) [a; b; i; j] = - dat (vvoo I) [a; b; j; i]).
    { destruct BI as (_ & _ & _ & [_ B] & _). intros a b i j La Lb Li Lj. rewrite !B by auto. apply AG; lia. }
    split; [exact S2|]. split; intros a b i j Hi; rewrite S2 in Hi;
      inversion Hi as [|? ? ? ? La Hi1]; subst; inversion Hi1 as [|? ? ? ? Lb Hi2]; subst;
      inversion Hi2 as [|? ? ? ? Li Hi3]; subst; inversion Hi3 as [|? ? ? ? Lj Hi4]; subst;
      destruct (U2 a b i j La Lb Li Lj) as (u & Hu); apply (cancel_r _ _ _ u Hu);
      rewrite E2 by auto; destruct (VA a b i j La Lb Li Lj) as [V1 V2].
    - transitivity (- (dat T2 [b; a; i; j] * dat Db [b; a; i; j])).
      + rewrite E2, V1 by auto. ring.
      + rewrite !db_val by auto. ring.
    - transitivity (- (dat T2 [a; b; j; i] * dat Db [a; b; j; i])).
      + rewrite E2, V2 by auto. ring.
      + rewrite !db_val by auto. ring.
  Qed.

  Lemma en_ref : en K n eps ref = E0.
  Proof.
    unfold en. rewrite sumN_plus. rewrite (sumN_ext K nv _ (fun _ => 0)).
    - rewrite sumN_0. transitivity (sumN no (fun i => dat eo_ [i]) + 0); [|ring]. f_equal.
      apply sumN_ext. intros i Li. rewrite aufbau_occ by lia. unfold eps.
      replace (Nat.ltb i no) with true by (symmetry; apply Nat.ltb_lt; exact Li). reflexivity.
    - intros a La. rewrite aufbau_occ by lia. replace (Nat.ltb (no + a) no) with false by (symmetry; apply Nat.ltb_ge; lia). reflexivity.
  Qed.
  Lemma eps_o i : (i < no)%nat -> eps i = dat eo_ [i].
  Proof. intros L. unfold eps. replace (Nat.ltb i no) with true by (symmetry; apply Nat.ltb_lt; exact L). reflexivity. Qed.
  Lemma eps_v a : eps (no + a) = dat ev [a].
  Proof.
    unfold eps. replace (Nat.ltb (no + a) no) with false by (symmetry; apply Nat.ltb_ge; lia).
    replace (no + a - no)%nat with a by lia. reflexivity.
  Qed.
  Lemma en_single a i s bra : (a < nv)%nat -> (i < no)%nat -> act [Cre (no + a); Ann i] ref = Some (s, bra) ->
    en K n eps bra = E0 + dat Da [a; i].
  Proof.
    intros La Li E. rewrite (en_act K n eps _ _ _ _ (aufbau_length _ _) E), en_ref, da_val by auto.
    cbn [map lsum]. rewrite eps_v, eps_o by auto. ring.
  Qed.
  Lemma en_double a b i j s bra : (a < nv)%nat -> (b < nv)%nat -> (i < no)%nat -> (j < no)%nat ->
    act [Cre (no + a); Cre (no + b); Ann j; Ann i] ref = Some (s, bra) -> en K n eps bra = E0 + dat Db [a; b; i; j].
  Proof.
    intros La Lb Li Lj E. rewrite (en_act K n eps _ _ _ _ (aufbau_length _ _) E), en_ref, db_val by auto.
    cbn [map lsum]. rewrite !eps_v, !eps_o by auto. ring.
  Qed.

  Lemma eos_one (psi : state K) t : eos one psi t = psi t.
  Proof. unfold eos, one, SL. cbn. ring. Qed.
  Lemma eos_V psi t : List.length t = n -> eos V psi t = eos H psi t - en K n eps t * psi t.
  Proof. intros L. unfold minus. rewrite eos_app, eos_opscale, diagonal_eos by auto. ring. Qed.
  Lemma T_ref psi : eos T psi ref = 0.
  Proof.
    apply (vmin_raising K no nv T 0 psi (T_raising K no nv _ _)); [intros t _ L; lia|apply aufbau_length|rewrite vlev_aufbau; lia].
  Qed.
  Lemma kd_ref_not t : t <> ref -> kd ref t = 0 :> K.
  Proof. intros N. unfold kd. destruct (det_eqb ref t) eqn:E; [|reflexivity]. apply det_eqb_eq in E. congruence. Qed.
  Lemma kd_ref_ref : kd ref ref = 1 :> K.
  Proof. unfold kd. rewrite det_eqb_refl. reflexivity. Qed.

  (** the determinants that the reference is coupled to *)
  Lemma H_far t : List.length t = n -> nel t <> no \/ (2 < vlev no t)%nat -> eos H (kd ref) t = 0.
  Proof.
    intros L [N|N].
    - apply (nfix_eos K no nv H _ _ (neutral_H K no nv h g) (nfix_ref K no nv) t L). lia.
    - apply (vmax_eos K no nv H 2 0 _ (H_ncre K no nv h g) (vmax_ref K no nv) t L). lia.
  Qed.
  Lemma T_far t : List.length t = n -> nel t <> no \/ (2 < vlev no t)%nat -> eos T (kd ref) t = 0.
  Proof.
    intros L [N|N].
    - apply (nfix_eos K no nv T _ _ (neutral_T K no nv _ _) (nfix_ref K no nv) t L). lia.
    - apply (vmax_eos K no nv T 2 0 _ (T_ncre K no nv _ _) (vmax_ref K no nv) t L). lia.
  Qed.
  Lemma dets t : List.length t = n -> (nel t <> no \/ (2 < vlev no t)%nat) \/ t = ref \/
    (exists a i s, (a < nv)%nat /\ (i < no)%nat /\ act [Cre (no + a); Ann i] ref = Some (s, t)) \/
    (exists a b i j s, (a < nv)%nat /\ (b < nv)%nat /\ (i < no)%nat /\ (j < no)%nat /\
       act [Cre (no + a); Cre (no + b); Ann j; Ann i] ref = Some (s, t)).
  Proof.
    intros L. destruct (Nat.eq_dec (nel t) no) as [N|N]; [|left; left; exact N].
    destruct (Nat.le_gt_cases (vlev no t) 2) as [W|W]; [|left; right; exact W].
    right. apply low_dets; auto.
  Qed.
  Lemma single_not a i s t : (a < nv)%nat -> (i < no)%nat -> act [Cre (no + a); Ann i] ref = Some (s, t) -> t <> ref.
  Proof. intros La Li E ->. eapply word_single_neq; [| |exact E]; auto. Qed.
  Lemma double_not a b i j s t : (a < nv)%nat -> (b < nv)%nat -> (i < no)%nat -> (j < no)%nat ->
    act [Cre (no + a); Cre (no + b); Ann j; Ann i] ref = Some (s, t) -> t <> ref.
  Proof. intros La Lb Li Lj E ->. eapply word_double_neq; [| | | |exact E]; auto. Qed.

  Lemma pt_eigenstate : eigenstate n ref H0 E0.
  Proof.
    intros t L. rewrite !amp_eos, eos_one, diagonal_eos by auto. unfold kd. destruct (det_eqb ref t) eqn:E; [|ring].
    apply det_eqb_eq in E. subst t. rewrite en_ref. reflexivity.
  Qed.

  Lemma pt_equation_of t : t2_ok no nv T2 -> List.length t = n -> t <> ref ->
    (en K n eps t - E0) * eos T (kd ref) t = - eos H (kd ref) t.
  Proof.
    intros H2 L NR. destruct (dets t L) as [Far|[->|[(a & i & s & La & Li & E)|(a & b & i & j & s & La & Lb & Li & Lj & E)]]].
    - rewrite T_far, H_far by auto. ring.
    - congruence.
    - rewrite (T_single K no nv g F I AG BI T1 T2 H2 a i s t La Li E), (H_single K no nv h g F I AG BF BI a i s t La Li E).
      rewrite (en_single a i s t La Li E).
      transitivity (csgn s * (dat T1 [a; i] * dat Da [a; i])); [ring|]. rewrite E1 by auto. ring.
    - rewrite (T_double K no nv g F I AG BI T1 T2 H2 a b i j s t La Lb Li Lj E),
        (H_double K no nv h g F I AG BF BI a b i j s t La Lb Li Lj E).
      rewrite (en_double a b i j s t La Lb Li Lj E).
      transitivity (csgn s * (dat T2 [a; b; i; j] * dat Db [a; b; i; j])); [ring|]. rewrite E2 by auto. ring.
  Qed.

  Lemma pt_equation t : List.length t = n -> t <> ref -> (en K n eps t - E0) * eos T (kd ref) t = - eos H (kd ref) t.
  Proof. exact (pt_equation_of t pt_t2_ok). Qed.

  Lemma pt_first_order : first_order n ref H0 V E0 (amp ref V ref) T.
  Proof.
    assert (Lr : List.length ref = n) by apply aufbau_length.
    split; [rewrite amp_eos; apply T_ref|]. split.
    - intros t L N. rewrite nel_aufbau in N by lia. rewrite amp_eos. apply T_far; auto.
    - intros t L. rewrite !amp_eos, eos_one, eos_opmul, diagonal_eos, !eos_V by auto.
      destruct (list_eq_dec bool_dec t ref) as [->|NR].
      + rewrite T_ref, kd_ref_ref, en_ref. ring.
      + rewrite (kd_ref_not t NR). transitivity ((en K n eps t - E0) * eos T (kd ref) t); [ring|].
        rewrite pt_equation by auto. ring.
  Qed.

  Lemma pt_unique Psi : first_order n ref H0 V E0 (amp ref V ref) Psi ->
    vmin K no nv 3 (fun t => eos Psi (kd ref) t + - (1) * eos T (kd ref) t).
  Proof.
    intros (P0 & P1 & P2) t L W. rewrite nel_aufbau in P1 by lia.
    assert (E : t <> ref -> (en K n eps t - E0) * eos Psi (kd ref) t = (en K n eps t - E0) * eos T (kd ref) t).
    { intros NR. rewrite pt_equation by auto. specialize (P2 t L).
      rewrite !amp_eos, eos_one, eos_opmul, diagonal_eos, !eos_V in P2 by (try apply aufbau_length; auto). rewrite (kd_ref_not t NR) in P2.
      transitivity (en K n eps t * eos Psi (kd ref) t - E0 * eos Psi (kd ref) t); [ring|]. rewrite P2. ring. }
    destruct (dets t L) as [[N|Far]|[->|[(a & i & s & La & Li & A)|(a & b & i & j & s & La & Lb & Li & Lj & A)]]].
    - specialize (P1 t L N). rewrite amp_eos in P1. rewrite P1, T_far by auto. ring.
    - lia.
    - rewrite amp_eos in P0. rewrite P0, T_ref. ring.
    - specialize (E (single_not a i s t La Li A)). rewrite (en_single a i s t La Li A) in E.
      destruct (U1 a i La Li) as (u & Hu).
      assert (Q : eos Psi (kd ref) t = eos T (kd ref) t); [|rewrite Q; ring].
      apply (cancel_r _ (dat Da [a; i]) _ u Hu).
      transitivity ((E0 + dat Da [a; i] - E0) * eos Psi (kd ref) t); [ring|]. rewrite E. ring.
    - specialize (E (double_not a b i j s t La Lb Li Lj A)). rewrite (en_double a b i j s t La Lb Li Lj A) in E.
      destruct (U2 a b i j La Lb Li Lj) as (u & Hu).
      assert (Q : eos Psi (kd ref) t = eos T (kd ref) t); [|rewrite Q; ring].
      apply (cancel_r _ (dat Db [a; b; i; j]) _ u Hu).
      transitivity ((E0 + dat Db [a; b; i; j] - E0) * eos Psi (kd ref) t); [ring|]. rewrite E. ring.
  Qed.

  Lemma pt_energy : exists e,
    returns "mp2_energy" [arr T1; arr T2; arr (ov F); arr (oovv I)] (numv e) /\
    forall Psi, first_order n ref H0 V E0 (amp ref V ref) Psi -> amp ref (opmul V Psi) ref = e.
  Proof.
    assert (Lr : List.length ref = n) by apply aufbau_length.
    destruct (mp2_linear K no nv h g F I AG BF BI T1 T2 S1 pt_t2_ok) as (e & HR & E). exists e. split; [exact HR|].
    intros Psi HP. pose proof (pt_unique Psi HP) as Q. destruct HP as (P0 & _).
    rewrite !amp_eos in *. rewrite linearised_eos, T_ref in E. rewrite eos_opmul, eos_V, P0 by auto.
    assert (E' : eos H (eos T (kd ref)) ref = e).
    { transitivity (eos H (kd ref) ref + (eos H (eos T (kd ref)) ref - 0) - eos H (kd ref) ref); [ring|]. rewrite E. ring. }
    assert (Z : eos H (fun t => eos Psi (kd ref) t + - (1) * eos T (kd ref) t) ref = 0).
    { apply (vmin_eos K no nv H 2 1 _ (H_nann K no nv h g) Q ref Lr). rewrite vlev_aufbau. lia. }
    rewrite eos_add, eos_mul in Z.
    transitivity (eos H (eos Psi (kd ref)) ref + - (1) * eos H (eos T (kd ref)) ref + eos H (eos T (kd ref)) ref); [ring|].
    rewrite Z, E'. ring.
  Qed.
End Second.
