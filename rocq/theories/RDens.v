(** Restricted density matrices and Lambda equations in Fock space (RDensSpec.v). *)
From Coq Require Import List Bool Arith ZArith Lia Ring String Factorial.
From Verif Require Import Scalar Tensor PySyntax PySem CCProg CISpec CIFacts CIStrings CIFock CIMatrix CILemmas CIVec CIExpSpec CIExp
  CCSpec CCEquiv CCFockSpec CCDensSpec FockStates FockExp FockT FockH FockSchr FockPerm NpModel SpinModel SpinSpec SpinFacts SpinRound
  UFockSpec UFock UFockOps UCCSchr CCSpin CCRest CCCI RFockSpec RCC UDensSpec UDens UDens2 UDens3 RDensSpec.
Import ListNotations.
Local Open Scope list_scope.

Section Same2.
  Variable K : cring.
  Local Open Scope K_scope.
  Add Ring KrRD0 : (c_th K).
  Variable N : nat.
  Lemma same_refl (A : list (K * list op)) : acts_same N A A.
  Proof. intros psi t _. reflexivity. Qed.
  Lemma same_scale (A B : list (K * list op)) c : acts_same N A B -> acts_same N (opscale c A) (opscale c B).
  Proof. intros S psi t L. rewrite !eos_opscale, S by assumption. reflexivity. Qed.
  Lemma same_app (A A' B B' : list (K * list op)) : acts_same N A A' -> acts_same N B B' -> acts_same N (A ++ B) (A' ++ B').
  Proof. intros S S' psi t L. rewrite !eos_app, S, S' by assumption. reflexivity. Qed.
  Lemma same_comm (A A' B B' : list (K * list op)) : acts_same N A A' -> acts_same N B B' -> acts_same N (commutator A B) (commutator A' B').
  Proof. intros S S'. apply same_app; [apply same_mul; assumption|]. apply same_scale, same_mul; assumption. Qed.
  Lemma same_transformed inv M (T T' A A' : list (K * list op)) : acts_same N T T' -> acts_same N A A' ->
    acts_same N (transformed inv M T A) (transformed inv M T' A').
  Proof.
    intros S S'. unfold transformed. apply same_mul; [apply same_exp, same_scale, S|]. apply same_mul; [exact S'|]. apply same_exp, S.
  Qed.
End Same2.

Section RL.
  Variable K : cring.
  Local Open Scope K_scope.
  Add Ring KrRD : (c_th K).
  Variables n no nv : nat.
  Hypothesis Nn : (no + nv)%nat = n.
  Variables L1 L2 : tensor K.
  Hypothesis OK : r_lams_ok no nv L1 L2.
  Notation LA := (tminus L2 (swap_ket L2)).
  Lemma LA_at i j a b : dat LA [i; j; a; b] = dat L2 [i; j; a; b] - dat L2 [i; j; b; a].
  Proof. reflexivity. Qed.
  Lemma LA_ok : l2_ok no nv LA.
  Proof.
    destruct OK as (S1 & S2 & Sy).
    assert (SA : shp LA = [no; no; nv; nv]) by exact S2.
    split; [exact SA|]. split; intros i j a b Hi; rewrite SA in Hi; unfold inrange in Hi;
      repeat match goal with X : Forall2 _ _ _ |- _ => inversion X; clear X; subst end; rewrite !LA_at.
    - rewrite (Sy j i a b), (Sy j i b a) by (assumption || lia). ring.
    - ring.
  Qed.
  Lemma r_lams_u : u_lams_ok no nv no nv L1 L1 LA L2 LA.
  Proof.
    pose proof LA_ok as A. destruct OK as (S1 & S2 & Sy).
    split; [exact S1|]. split; [exact S1|]. split; [exact A|]. split; [exact S2|exact A].
  Qed.
  Lemma L_sym : pair_sym L2.
  Proof.
    destruct OK as (S1 & S2 & Sy). split.
    - cbn [swap_both swap shp]. rewrite S2. reflexivity.
    - intros idx Hi. rewrite S2 in Hi. unfold inrange in Hi.
      repeat match goal with X : Forall2 _ _ _ |- _ => inversion X; clear X; subst end.
      cbn [swap_both swap dat map nth]. apply Sy; assumption.
  Qed.

  Lemma same_Lspin psi t (o v : nat -> nat) :
    (forall p, (p < no)%nat -> (o p < List.length t)%nat) -> (forall p, (p < nv)%nat -> (v p < List.length t)%nat) ->
    S4 no no nv nv (fun i j a b => chalf * dat L2 [i; j; a; b] * W2 K psi t (o i) (o j) (v a) (v b))
    = S4 no no nv nv (fun i j a b => quarter * dat LA [i; j; a; b] * W2 K psi t (o i) (o j) (v a) (v b)).
  Proof.
    intros Lo Lv.
    transitivity (S4 no no nv nv (fun i j a b => quarter * dat L2 [i; j; a; b] * W2 K psi t (o i) (o j) (v a) (v b))
        + S4 no no nv nv (fun i j a b => quarter * dat L2 [i; j; a; b] * W2 K psi t (o i) (o j) (v a) (v b))).
    - rewrite <- S4_add. apply S4_ext. intros. rewrite <- quarter2. ring.
    - rewrite (S4_34 K no no nv nv (fun i j a b => quarter * dat L2 [i; j; a; b] * W2 K psi t (o i) (o j) (v a) (v b))) at 2.
      rewrite <- S4_add. apply S4_ext. intros i j a b Li Lj La Lb. rewrite LA_at, (W2_ket K psi t (o i) (o j) (v b) (v a)) by auto. ring.
  Qed.

  Lemma same_L c : acts_same (n + n) (r_lambda n no nv c L1 L2) (u_lambda n no nv no nv c L1 L1 LA L2 LA).
  Proof.
    intros psi t Lt. unfold r_lambda, u_lambda. cbv zeta.
    assert (SPLIT : forall (y : K * list op) (A : list (K * list op)), eos (y :: A) psi t = fst y * eow (snd y) psi t + eos A psi t) by reflexivity.
    rewrite !SPLIT. f_equal. rewrite !eos_app, !eos_down1, !eos_down2.
    unfold eos at 1 2. rewrite SL_fm2, SL_fm4.
    rewrite (S2_ext K _ _ _ (fun i a => dat L1 [i; a] * W1 K psi t i (no + a) + dat L1 [i; a] * W1 K psi t (n + i) (n + (no + a)))).
    2:{ intros i a _ _. match goal with |- SL ?A _ = ?r => change (eos A psi t = r) end. rewrite eos_opscale, eos_gen. ring. }
    rewrite (S4_ext K _ _ _ _ _ (fun i j a b => chalf * dat L2 [i; j; a; b] * W2 K psi t i j (no + a) (no + b)
      + chalf * dat L2 [i; j; a; b] * W2 K psi t (n + i) (n + j) (n + (no + a)) (n + (no + b))
      + chalf * dat L2 [i; j; a; b] * (W2 K psi t i (n + j) (no + a) (n + (no + b)) + W2 K psi t (n + i) j (n + (no + a)) (no + b)))).
    2:{ intros i j a b Li Lj La Lb. match goal with |- SL ?A _ = ?r => change (eos A psi t = r) end.
        rewrite eos_opscale, eos_gen2 by lia. destruct (Nat.eqb_spec j (no + a)); [lia|]. ring. }
    rewrite S2_add, !S4_add.
    pose proof (same_Lspin psi t (fun i => i) (fun a => no + a)%nat ltac:(intros; cbv beta; lia) ltac:(intros; cbv beta; lia)) as X1. cbv beta in X1. rewrite X1.
    pose proof (same_Lspin psi t (fun i => n + i)%nat (fun a => n + (no + a))%nat ltac:(intros; cbv beta; lia) ltac:(intros; cbv beta; lia)) as X2. cbv beta in X2. rewrite X2.
    pose proof (mixed_sum K n no nv (fun i => i) (fun a => no + a)%nat (fun i j a b => dat L2 [i; j; a; b]) psi t Lt
      ltac:(intros; cbv beta; lia) ltac:(intros; cbv beta; lia) (proj2 (proj2 OK))) as X3. cbv beta in X3. rewrite X3.
    rewrite (S4_ext K no no nv nv (fun i j a b => 1 * _ * _) (fun i j a b => dat L2 [i; j; a; b] * W2 K psi t i (n + j) (no + a) (n + (no + b)))) by (intros; ring).
    ring.
  Qed.

  Variables T1 T2 : tensor K.
  Hypothesis HT : r_amps_ok no nv T1 T2.
  Notation TA := (tminus T2 (swap_ket T2)).
  Variable inv : nat -> K.
  Variable M : nat.
  Notation refS := (aufbau n no ++ aufbau n no).
  Lemma lenR : List.length refS = (n + n)%nat.
  Proof. rewrite app_length, !aufbau_length. reflexivity. Qed.
  Lemma r_expect_u c A B : acts_same (n + n) A B ->
    r_expect inv M n no nv c T1 T2 L1 L2 A = u_expect inv M n no nv no nv c T1 T1 TA T2 TA L1 L1 LA L2 LA B.
  Proof.
    intros S. apply (same_amp K (n + n)); [|exact lenR]. apply same_mul; [apply same_L|].
    apply same_transformed; [apply same_T; assumption|exact S].
  Qed.
  Lemma r_commutator_u c A B A' B' : acts_same (n + n) A A' -> acts_same (n + n) B B' ->
    r_commutator inv M n no nv c T1 T2 L1 L2 A B = u_commutator inv M n no nv no nv c T1 T1 TA T2 TA L1 L1 LA L2 LA A' B'.
  Proof.
    intros S S'. apply (same_amp K (n + n)); [|exact lenR]. apply same_mul; [apply same_L|].
    apply same_comm; [|exact S']. apply same_transformed; [apply same_T; assumption|exact S].
  Qed.
  Lemma r_normal_u c w : r_normal_expect inv M n no nv c T1 T2 L1 L2 w
    = u_normal_expect inv M n no nv no nv c T1 T1 TA T2 TA L1 L1 LA L2 LA w.
  Proof. unfold r_normal_expect, u_normal_expect. f_equal. apply r_expect_u, same_refl. Qed.

  (** *** Density matrices *)
  Hypothesis HI : inverts inv M.
  Hypothesis HM : (nv + nv < M)%nat.
  Notation rargs := [arr T1; arr T2; arr L1; arr L2].
  Notation uargs := [arr T1; arr T1; arr TA; arr T2; arr TA; arr L1; arr L1; arr LA; arr L2; arr LA].
  Notation exts := (u_extents no nv no nv).
  Notation NE c := (r_normal_expect inv M n no nv c T1 T2 L1 L2).
  Definition spin_blocks (vs : list bool) (c : K) (spins : list (list bool)) (Ps : list (tensor K)) : Prop :=
    Forall2 (fun ss P => shp P = exts vs ss /\
      forall xs, inrange (exts vs ss) xs -> dat P xs = NE c (rdm_word (u_orbitals n no no vs ss xs))) spins Ps.
  Lemma map_arr_inj (l m : list (tensor K)) : map arr l = map arr m -> l = m.
  Proof.
    revert m. induction l as [|x l IH]; intros [|y m] H; try discriminate; [reflexivity|]. injection H as H1 H2. rewrite H1, (IH m H2). reflexivity.
  Qed.
  Lemma r_blocks g vs spins c more ts us :
    block_is_u K n no nv no nv T1 T1 TA T2 TA L1 L1 LA L2 LA inv M g (uargs ++ more) vs spins c ->
    returns g (uargs ++ more) (tup (map arr ts)) -> Forall2 teq ts us -> spin_blocks vs c spins us.
  Proof.
    intros (Ps & R & B) R' E. pose proof (returns_fun K _ _ _ _ R R') as X. injection X as X. apply map_arr_inj in X. subst Ps. clear R R'.
    revert us E. induction B as [|ss P spins ts (S & D) B IH]; intros us E; inversion E as [|x y l m E1 E2]; subst; constructor.
    - destruct E1 as (E1 & E1'). split; [congruence|]. intros xs Hx. rewrite <- E1' by (rewrite S; exact Hx). rewrite r_normal_u. apply D, Hx.
    - apply IH, E2.
  Qed.

  (** the restricted function, the form of the blocks of the unrestricted one *)
  Definition r_table : list (string * string * how * list bool * list (list bool)) :=
    [("rccsd_1rdm_ba", "uccsd_1rdm_ba", HOne, [true; true], two_spins);
     ("rccsd_1rdm_ji", "uccsd_1rdm_ji", HOne, [false; false], two_spins);
     ("rccsd_2rdm_cdab", "uccsd_2rdm_cdab", HKet3, [true; true; true; true], three_spins);
     ("rccsd_2rdm_ciab", "uccsd_2rdm_ciab", HKet4, [true; false; true; true], four_spins);
     ("rccsd_2rdm_bcai", "uccsd_2rdm_bcai", HBra4, [true; true; true; false], four_spins);
     ("rccsd_2rdm_jkai", "uccsd_2rdm_jkai", HBra4, [false; false; true; false], four_spins);
     ("rccsd_2rdm_kaij", "uccsd_2rdm_kaij", HKet4, [false; true; false; false], four_spins);
     ("rccsd_2rdm_klij", "uccsd_2rdm_klij", HKet3, [false; false; false; false], three_spins)]%string.
  Lemma HTu : u_amps_ok no nv no nv T1 T1 TA T2 TA.
  Proof. apply r_amps_u, HT. Qed.
  Lemma r_use c f g fac h : In (f, g, fac, h) rrdm_list ->
    exists r us, returns f (CCRest.rargs K T1 T2 L1 L2 c fac) (arr r) /\ returns g (ruargs K T1 T2 L1 L2 c fac) (tup (map arr us)) /\
      Forall2 teq us (t_how h r).
  Proof.
    destruct OK as (S1 & S2 & _). pose proof HT as (S3 & S4 & Sy).
    assert (ST : pair_sym T2).
    { split.
      - cbn [swap_both swap shp]. rewrite S4. reflexivity.
      - intros idx Hi. rewrite S4 in Hi. unfold inrange in Hi.
        repeat match goal with X : Forall2 _ _ _ |- _ => inversion X; clear X; subst end.
        cbn [swap_both swap dat map nth]. apply Sy; assumption. }
    exact (rrdm_use K no nv T1 T2 L1 L2 c S3 S4 ST S1 S2 L_sym f g fac h).
  Qed.
  Lemma r_plain c f g h vs spins : In (f, g, h, vs, spins) r_table ->
    exists r, returns f rargs (arr r) /\ spin_blocks vs c spins (t_how h r).
  Proof.
    intros Hin.
    assert (A : In (f, g, false, h) rrdm_list /\ In (g, vs, spins) u_plain).
    { repeat (destruct Hin as [E|Hin]; [injection E as <- <- <- <- <-; split; cbn; tauto|]). destruct Hin. }
    destruct A as (A & B). destruct (r_use c f g false h A) as (r & us & R & RU & E). exists r. split; [exact R|].
    refine (r_blocks g vs spins c [] us (t_how h r) _ RU E).
    exact (u_densities K n no nv no nv Nn Nn T1 T1 TA T2 TA HTu L1 L1 LA L2 LA r_lams_u inv M HI HM g vs spins c B).
  Qed.
  Lemma r_fac c :
    (exists r, returns "rccsd_1rdm_ai" (rargs ++ [numv c]) (arr r) /\ spin_blocks [true; false] c two_spins (t_how HOne r)) /\
    (exists r, returns "rccsd_1rdm_ai" rargs (arr r) /\ spin_blocks [true; false] 1 two_spins (t_how HOne r)) /\
    (exists r, returns "rccsd_2rdm_abij" rargs (arr r) /\ spin_blocks [true; true; false; false] 1 three_spins (t_how HKet3 r)).
  Proof.
    pose proof (fun f vs spins => u_densities_fac K n no nv no nv Nn Nn T1 T1 TA T2 TA HTu L1 L1 LA L2 LA r_lams_u inv M HI HM f vs spins c) as U.
    split; [|split].
    - destruct (r_use c "rccsd_1rdm_ai" "uccsd_1rdm_ai" true HOne ltac:(cbn; tauto)) as (r & us & R & RU & E). exists r. split; [exact R|].
      refine (r_blocks "uccsd_1rdm_ai" [true; false] two_spins c [numv c] us _ _ RU E). apply (proj1 (U "uccsd_1rdm_ai"%string [true; false] two_spins ltac:(left; reflexivity))).
    - destruct (r_use c "rccsd_1rdm_ai" "uccsd_1rdm_ai" false HOne ltac:(cbn; tauto)) as (r & us & R & RU & E). exists r. split; [exact R|].
      refine (r_blocks "uccsd_1rdm_ai" [true; false] two_spins 1 [] us _ _ RU E). apply (proj2 (U "uccsd_1rdm_ai"%string [true; false] two_spins ltac:(left; reflexivity))).
    - destruct (r_use c "rccsd_2rdm_abij" "uccsd_2rdm_abij" false HKet3 ltac:(cbn; tauto)) as (r & us & R & RU & E). exists r. split; [exact R|].
      refine (r_blocks "uccsd_2rdm_abij" [true; true; false; false] three_spins 1 [] us _ _ RU E). apply (proj2 (U "uccsd_2rdm_abij"%string [true; true; false; false] three_spins ltac:(right; left; reflexivity))).
  Qed.
  Lemma r_vovo c : exists r r',
    returns "rccsd_2rdm_bjai" rargs (arr r) /\ returns "rccsd_2rdm_bjia" rargs (arr r') /\
    spin_blocks [true; false; true; false] c six_spins
      [tminus r (swap_ket r'); tminus r (swap_ket r'); r; tneg (swap_ket r'); tneg (swap_ket r'); r].
  Proof.
    destruct OK as (S1 & S2 & _). pose proof HT as (S3 & S4 & Sy).
    assert (ST : pair_sym T2).
    { split.
      - cbn [swap_both swap shp]. rewrite S4. reflexivity.
      - intros idx Hi. rewrite S4 in Hi. unfold inrange in Hi.
        repeat match goal with X : Forall2 _ _ _ |- _ => inversion X; clear X; subst end.
        cbn [swap_both swap dat map nth]. apply Sy; assumption. }
    destruct (bj_sound K no nv T1 T2 L1 L2 S3 S4 ST S1 S2 L_sym) as (r & r' & us & R & R' & RU & E).
    exists r, r'. split; [exact R|]. split; [exact R'|].
    refine (r_blocks "uccsd_2rdm_bjai" [true; false; true; false] six_spins c [] us _ _ RU E).
    refine (u_densities K n no nv no nv Nn Nn T1 T1 TA T2 TA HTu L1 L1 LA L2 LA r_lams_u inv M HI HM _ _ _ c _). cbn; tauto.
  Qed.
End RL.
