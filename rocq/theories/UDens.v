(** Lambda, densities and Lambda equations of unrestricted CCSD over spatial
    orbitals: the spin-orbital statements carried over by exchanging the beta
    occupied and alpha virtual orbitals. *)
From Coq Require Import List Bool Arith ZArith Lia Ring String Factorial.
From Verif Require Import Scalar Tensor PySyntax PySem CCProg CISpec CIFacts CIStrings CIFock CIMatrix CILemmas CIVec CIExpSpec CIExp
  CCSpec CCFockSpec CCDensSpec FockStates FockExp FockT FockH FockSchr FockPerm NpModel SpinModel SpinSpec SpinFacts SpinRound CCEquiv CCSym CCFock CCSchr
  CCSpin UFockSpec UFock UFockOps UCCSchr UDensSpec.
Import ListNotations.
Local Open Scope list_scope.

Section Acts.
  Variable K : cring.
  Local Open Scope K_scope.
  Add Ring KrAc : (c_th K).
  Variables a b c d : nat.
  Notation N := (a + b + c + d)%nat.
  Notation opsum := (list (K * list op)).
  Notation acts := (acts_as K a b c d).
  Notation Up := (U K a b c).

  Lemma relabel_scale x (A : opsum) : relabel K a b c (opscale x A) = opscale x (relabel K a b c A).
  Proof. unfold relabel, opscale. rewrite !map_map. reflexivity. Qed.
  Lemma eos_scale x (A : opsum) psi t : eos (opscale x A) psi t = x * eos A psi t.
  Proof. unfold eos, opscale. rewrite SL_map, <- SL_mul. apply SL_ext. intros y _. cbn [fst snd]. ring. Qed.
  Lemma acts_scale x A B : acts A B -> acts (opscale x A) (opscale x B).
  Proof.
    intros [I E]. split.
    - unfold in_N, opscale. apply Forall_map. exact I.
    - intros psi t L. rewrite relabel_scale, !eos_scale, E by exact L. reflexivity.
  Qed.
  Lemma acts_app A B A' B' : acts A A' -> acts B B' -> acts (A ++ B) (A' ++ B').
  Proof.
    intros [I E] [I' E']. split; [apply Forall_app; split; assumption|].
    intros psi t L. rewrite relabel_app, !eos_app, E, E' by exact L. reflexivity.
  Qed.
  Lemma eos_U_in A psi t : in_N K a b c d A -> List.length t = N -> eos (relabel K a b c A) (Up psi) t = Up (eos A psi) t.
  Proof. exact (eos_U K a b c d A psi t). Qed.
  Lemma acts_words A : in_N K a b c d A -> acts A (relabel K a b c A).
  Proof. intros I. split; [exact I|reflexivity]. Qed.

  (** U commutes with products *)
  Definition carried (A B : opsum) : Prop := forall psi t, List.length t = N -> Up (eos A psi) t = eos B (Up psi) t.
  Lemma carried_acts A B : acts A B -> carried A B.
  Proof. intros H psi t L. apply (U_eos K a b c d A B psi t H L). Qed.
  Lemma carried_exp inv M A B : acts A B -> carried (opexp inv M A) (opexp inv M B).
  Proof. intros H psi t L. apply (U_exp K a b c d inv M A B psi t H L). Qed.
  Lemma carried_mul A B A' B' : carried A A' -> carried B B' -> carried (opmul A B) (opmul A' B').
  Proof.
    intros H H' psi t L. rewrite (U_ext K a b c d _ (eos A (eos B psi))) by (auto; intros u _; apply eos_opmul).
    rewrite eos_opmul, (H _ t L). apply eos_ext. intros u Lu. apply H'. lia.
  Qed.
  Lemma carried_app A B A' B' : carried A A' -> carried B B' -> carried (A ++ B) (A' ++ B').
  Proof.
    intros H H' psi t L. rewrite eos_app, <- (H psi t L), <- (H' psi t L). unfold U. rewrite eos_app. ring.
  Qed.
  Lemma carried_scale x A A' : carried A A' -> carried (opscale x A) (opscale x A').
  Proof. intros H psi t L. rewrite eos_scale, <- (H psi t L). unfold U. rewrite eos_scale. ring. Qed.
  Lemma carried_transformed inv M T T' A A' : acts T T' -> carried A A' -> carried (transformed inv M T A) (transformed inv M T' A').
  Proof.
    intros HT H. unfold transformed. apply carried_mul; [apply carried_exp, acts_scale, HT|]. apply carried_mul; [exact H|].
    apply carried_exp, HT.
  Qed.
  Lemma carried_commutator A B A' B' : carried A A' -> carried B B' -> carried (commutator A B) (commutator A' B').
  Proof.
    intros H H'. unfold commutator. apply carried_app; [apply carried_mul; assumption|]. apply carried_scale, carried_mul; assumption.
  Qed.
End Acts.

Section ULam.
  Variable K : cring.
  Local Open Scope K_scope.
  Add Ring KrUL : (c_th K).
  Variables n noa nva nob nvb : nat.
  Hypothesis Na : (noa + nva)%nat = n.
  Hypothesis Nb : (nob + nvb)%nat = n.
  Notation no := (noa + nob)%nat.
  Notation nv := (nva + nvb)%nat.
  Notation pi := (pix noa nob nva).
  Notation rel := (relabel K noa nob nva).

  Lemma N2 : (noa + nob + nva + nvb = n + n)%nat.
  Proof. lia. Qed.

  Section T.
    Variables T1a T1b T2aa T2ab T2bb T1 T2 : tensor K.
    Hypothesis OK : u_amps_ok noa nva nob nvb T1a T1b T2aa T2ab T2bb.
    Hypothesis E1 : T1_to_spin T1a T1b noa nva nob nvb = Some T1.
    Hypothesis E2 : T2_to_spin T2aa T2ab T2bb noa nva nob nvb = Some T2.
    Lemma acts_TU : acts_as K noa nob nva nvb (cluster no nv T1 T2) (u_cluster n noa nva nob nvb T1a T1b T2aa T2ab T2bb).
    Proof.
      split.
      - apply Forall_forall. intros x Hx. unfold cluster, T_op in Hx. apply in_app_or in Hx as [Hx|Hx].
        + apply in_flat_map in Hx as (a & Ha & Hx). apply in_map_iff in Hx as (i & <- & Hi). apply in_seq in Ha, Hi.
          repeat first [apply Forall_cons | apply Forall_nil]; cbn [opi]; lia.
        + apply in_flat_map in Hx as (a & Ha & Hx). apply in_flat_map in Hx as (b & Hb & Hx). apply in_flat_map in Hx as (i & Hi & Hx).
          apply in_map_iff in Hx as (j & <- & Hj). apply in_seq in Ha, Hb, Hi, Hj.
          repeat first [apply Forall_cons | apply Forall_nil]; cbn [opi]; lia.
      - intros psi t L. apply (eos_Tu K n noa nva nob nvb Na Nb T1a T1b T2aa T2ab T2bb T1 T2 OK E1 E2). rewrite L. exact N2.
    Qed.
  End T.

  Section L.
    Variables L1a L1b L2aa L2ab L2bb L1 L2 : tensor K.
    Hypothesis OK : u_lams_ok noa nva nob nvb L1a L1b L2aa L2ab L2bb.
    Hypothesis E1 : T1_to_spin L1a L1b nva noa nvb nob = Some L1.
    Hypothesis E2 : T2_to_spin L2aa L2ab L2bb nva noa nvb nob = Some L2.
    Notation LS c := (u_lambda n noa nva nob nvb c L1a L1b L2aa L2ab L2bb).
    Notation LC c := (lambda_op no nv c (fun i a => dat L1 [i; a]) (fun i j a b => dat L2 [i; j; a; b])).

    Lemma eos_down1 m k o v (l : nat -> nat -> K) psi t :
      eos (down1 m k o v l) psi t = S2 m k (fun i a => l i a * W1 K psi t (o i) (v a)).
    Proof. unfold down1, eos. rewrite SL_fm_seq. apply sumN_ext. intros i _. apply SL_map_seq. Qed.
    Lemma eos_down2 m m' k k' o o' v v' x (l : nat -> nat -> nat -> nat -> K) psi t :
      eos (down2 m m' k k' o o' v v' x l) psi t = S4 m m' k k' (fun i j a b => x * l i j a b * W2 K psi t (o i) (o' j) (v a) (v' b)).
    Proof.
      unfold down2, eos. rewrite SL_fm_seq. apply sumN_ext. intros i _. rewrite SL_fm_seq. apply sumN_ext. intros j _.
      rewrite SL_fm_seq. apply sumN_ext. intros a _. apply SL_map_seq.
    Qed.

    Lemma eos_Lu c psi t : List.length t = (n + n)%nat -> eos (rel (LC c)) psi t = eos (LS c) psi t.
    Proof.
      intros Lt. destruct OK as (O1 & O2 & O3 & O4 & O5).
      destruct (T1_to_spin_holds K L1a L1b nva noa nvb nob O1 O2) as (T1' & E1' & H1). rewrite E1 in E1'. injection E1' as <-.
      destruct (T2_to_spin_holds K L2aa L2ab L2bb nva noa nvb nob (proj1 O3) O4 (proj1 O5)) as (T2' & E2' & H2).
      rewrite E2 in E2'. injection E2' as <-.
      assert (SPLIT : forall (y : K * list op) (A : list (K * list op)), eos (y :: A) psi t = fst y * eow (snd y) psi t + eos A psi t).
      { intros y A. reflexivity. }
      unfold lambda_op, u_lambda. cbv zeta.
      match goal with |- eos (rel (?x :: ?A ++ ?B)) psi t = _ => change (rel (x :: A ++ B)) with ((fst x, map (pio noa nob nva) (snd x)) :: rel (A ++ B)) end.
      rewrite !SPLIT, relabel_app. cbn [fst snd map]. f_equal. rewrite !eos_app, !eos_down1, !eos_down2.
      unfold relabel, eos at 1 2. rewrite !SL_map, !SL_fm_seq.
      rewrite (sumN_ext K no (fun i => SL (map _ _) _) (fun i => sumN nv (fun a => dat L1 [i; a] * W1 K psi t (pi i) (pi (no + a)))))
        by (intros i _; apply SL_map_seq).
      rewrite (sumN_ext K no (fun i => SL (flat_map _ _) _) (fun i => sumN no (fun j => sumN nv (fun a => sumN nv (fun b =>
        quarter * dat L2 [i; j; a; b] * W2 K psi t (pi i) (pi j) (pi (no + a)) (pi (no + b)))))))
        by (intros a _; rewrite SL_fm_seq; apply sumN_ext; intros b _; rewrite SL_fm_seq; apply sumN_ext; intros i _; apply SL_map_seq).
      change (S2 no nv (fun i a => dat L1 [i; a] * W1 K psi t (pi i) (pi (no + a))) +
        S4 no no nv nv (fun i j a b => quarter * dat L2 [i; j; a; b] * W2 K psi t (pi i) (pi j) (pi (no + a)) (pi (no + b)))
        = S2 noa nva (fun i a => dat L1a [i; a] * W1 K psi t i (noa + a)) +
          (S2 nob nvb (fun i a => dat L1b [i; a] * W1 K psi t (n + i) (n + (nob + a))) +
           (S4 noa noa nva nva (fun i j a b => quarter * dat L2aa [i; j; a; b] * W2 K psi t i j (noa + a) (noa + b)) +
            (S4 nob nob nvb nvb (fun i j a b => quarter * dat L2bb [i; j; a; b] * W2 K psi t (n + i) (n + j) (n + (nob + a)) (n + (nob + b))) +
             S4 noa nob nva nvb (fun i j a b => 1 * dat L2ab [i; j; a; b] * W2 K psi t i (n + j) (noa + a) (n + (nob + b))))))).
      rewrite S2_spin, S4_spin.
      assert (PV : forall s a, (a < side_len s nva nvb)%nat -> pi (no + at_spin nva s a) = at_spin n s (side_len s noa nob + a)).
      { intros s a L. exact (pi_at n noa nva nob nvb Na Nb true s a L). }
      assert (PO : forall s i, (i < side_len s noa nob)%nat -> pi (at_spin noa s i) = at_spin n s i).
      { intros s i L. exact (pi_at n noa nva nob nvb Na Nb false s i L). }
      assert (X1 : forall s1 s2, S2 (side_len s1 noa nob) (side_len s2 nva nvb) (fun i a =>
          dat L1 [at_spin noa s1 i; at_spin nva s2 a] * W1 K psi t (pi (at_spin noa s1 i)) (pi (no + at_spin nva s2 a)))
        = S2 (side_len s1 noa nob) (side_len s2 nva nvb) (fun i a => match spin2 L1a L1b [s1; s2] with Some u => dat u [i; a] | None => 0 end
            * W1 K psi t (at_spin n s1 i) (at_spin n s2 (side_len s2 noa nob + a)))).
      { intros s1 s2. apply S2_ext. intros i a Li La. rewrite PV, PO by assumption.
        rewrite (entry2 K _ _ _ _ _ _ s1 s2 i a H1 Li La). reflexivity. }
      assert (X2 : forall s1 s2 s3 s4, S4 (side_len s1 noa nob) (side_len s2 noa nob) (side_len s3 nva nvb) (side_len s4 nva nvb) (fun i j a b =>
          quarter * dat L2 [at_spin noa s1 i; at_spin noa s2 j; at_spin nva s3 a; at_spin nva s4 b]
          * W2 K psi t (pi (at_spin noa s1 i)) (pi (at_spin noa s2 j)) (pi (no + at_spin nva s3 a)) (pi (no + at_spin nva s4 b)))
        = S4 (side_len s1 noa nob) (side_len s2 noa nob) (side_len s3 nva nvb) (side_len s4 nva nvb) (fun i j a b =>
          quarter * match spin4_anti L2aa L2ab L2bb [s1; s2; s3; s4] with Some u => dat u [i; j; a; b] | None => 0 end
          * W2 K psi t (at_spin n s1 i) (at_spin n s2 j) (at_spin n s3 (side_len s3 noa nob + a)) (at_spin n s4 (side_len s4 noa nob + b)))).
      { intros s1 s2 s3 s4. apply S4_ext. intros i j a b Li Lj La Lb. rewrite !PV, !PO by assumption.
        rewrite (entry4 K _ _ _ _ _ _ _ _ _ _ s1 s2 s3 s4 i j a b H2 Li Lj La Lb). reflexivity. }
      unfold SB. rewrite !X1, !X2. clear X1 X2.
      cbn [at_spin side_len spin2 spin4_anti spin4 tneg swap_both swap_ket swap_bra swap map nth dat shp].
      rewrite (S2_zero K noa nvb (fun i a => 0 * W1 K psi t i (n + (nob + a)))), (S2_zero K nob nva (fun i a => 0 * W1 K psi t (n + i) (noa + a))) by (intros; ring).
      repeat match goal with |- context[S4 ?a ?b ?c ?d (fun p q r s => quarter * 0 * @?W p q r s)] =>
        rewrite (S4_zero K a b c d (fun p q r s => quarter * 0 * W p q r s)) by (intros; ring) end.
      set (X := S4 noa nob nva nvb (fun i j a b => 1 * dat L2ab [i; j; a; b] * W2 K psi t i (n + j) (noa + a) (n + (nob + b)))).
      assert (M1 : S4 noa nob nva nvb (fun i j a b => quarter * dat L2ab [i; j; a; b] * W2 K psi t i (n + j) (noa + a) (n + (nob + b))) = quarter * X).
      { unfold X. rewrite <- S4_mul. apply S4_ext. intros. ring. }
      assert (M2 : S4 nob noa nvb nva (fun i j a b => quarter * dat L2ab [j; i; b; a] * W2 K psi t (n + i) j (n + (nob + a)) (noa + b)) = quarter * X).
      { rewrite <- M1, S4_12, S4_34. apply S4_ext. intros p q r s Lp Lq Lr Ls.
        rewrite (W2_bra K psi t (n + q) p), (W2_ket K psi t p (n + q) (n + (nob + s)) (noa + r)) by lia. ring. }
      assert (M3 : S4 noa nob nvb nva (fun i j a b => quarter * - dat L2ab [i; j; b; a] * W2 K psi t i (n + j) (n + (nob + a)) (noa + b)) = quarter * X).
      { rewrite <- M1, S4_34. apply S4_ext. intros p q r s Lp Lq Lr Ls.
        rewrite (W2_ket K psi t p (n + q) (n + (nob + s)) (noa + r)) by lia. ring. }
      assert (M4 : S4 nob noa nva nvb (fun i j a b => quarter * - dat L2ab [j; i; a; b] * W2 K psi t (n + i) j (noa + a) (n + (nob + b))) = quarter * X).
      { rewrite <- M1, S4_12. apply S4_ext. intros p q r s Lp Lq Lr Ls.
        rewrite (W2_bra K psi t (n + q) p) by lia. ring. }
      rewrite M1, M2, M3, M4.
      assert (Q : X = quarter * X + quarter * X + (quarter * X + quarter * X)).
      { transitivity (((1 + 1) * chalf) * ((1 + 1) * chalf) * X); [rewrite half_two; ring|unfold quarter; ring]. }
      rewrite Q at 5. ring.
    Qed.
    Lemma acts_LU c : acts_as K noa nob nva nvb (LC c) (LS c).
    Proof.
      split.
      - apply Forall_cons; [apply Forall_nil|]. apply Forall_forall. intros x Hx. apply in_app_or in Hx as [Hx|Hx].
        + apply in_flat_map in Hx as (a & Ha & Hx). apply in_map_iff in Hx as (i & <- & Hi). apply in_seq in Ha, Hi.
          repeat first [apply Forall_cons | apply Forall_nil]; cbn [opi]; lia.
        + apply in_flat_map in Hx as (a & Ha & Hx). apply in_flat_map in Hx as (b & Hb & Hx). apply in_flat_map in Hx as (i & Hi & Hx).
          apply in_map_iff in Hx as (j & <- & Hj). apply in_seq in Ha, Hb, Hi, Hj.
          repeat first [apply Forall_cons | apply Forall_nil]; cbn [opi]; lia.
      - intros psi t L. apply eos_Lu. rewrite L. exact N2.
    Qed.
  End L.

  (** *** Amplitudes between determinants *)
  Notation refS := (aufbau n noa ++ aufbau n nob).
  Notation ref := (aufbau (no + nv) no).
  Notation Up := (U K noa nob nva).
  Notation mixs := (mix noa nva nob).
  Notation sg t := (CISpec.sgn (K := K) (eps noa nva nob t)).
  Notation carries := (carried K noa nob nva nvb).

  Lemma refC_blocks : ref = repeat true noa ++ repeat true nob ++ repeat false nva ++ repeat false nvb.
  Proof. rewrite aufbau_split, !repeat_app, <- app_assoc. reflexivity. Qed.
  Lemma refU_blocks : refS = repeat true noa ++ repeat false nva ++ repeat true nob ++ repeat false nvb.
  Proof. rewrite <- Na at 1. rewrite <- Nb. rewrite !aufbau_split, <- app_assoc. reflexivity. Qed.
  Lemma mix_refU : mixs refS = ref /\ sg refS = 1.
  Proof.
    rewrite refU_blocks. rewrite mix_app, eps_app by (rewrite repeat_length; reflexivity).
    unfold par at 1. rewrite nel_repeat_false, refC_blocks. split; reflexivity.
  Qed.
  Lemma lenU : List.length refS = (n + n)%nat.
  Proof. rewrite app_length, !aufbau_length. reflexivity. Qed.

  Lemma sg_sq t : sg t * sg t = 1.
  Proof. destruct (eps noa nva nob t); cbn [CISpec.sgn]; ring. Qed.
  Lemma U_mix s t : List.length s = (n + n)%nat -> List.length t = (n + n)%nat ->
    Up (kd (mixs s)) t = sg s * kd s t.
  Proof.
    intros Ls Lt. pose proof N2 as HN. rewrite (U_kd K noa nob nva nvb); [|rewrite (mix_length noa nva nob nvb) by lia; lia|lia].
    rewrite (eps_mix noa nva nob nvb) by lia. rewrite (mix_mix noa nva nob nvb) by lia. reflexivity.
  Qed.
  (** <s|B|t> over spatial orbitals is, up to signs, <mix s|A|mix t> *)
  Lemma amp_carried A B s t : carries A B -> List.length s = (n + n)%nat -> List.length t = (n + n)%nat ->
    amp s B t = sg s * sg t * amp (mixs s) A (mixs t).
  Proof.
    intros H Ls Lt. pose proof N2 as HN. rewrite !amp_eos.
    transitivity (sg t * eos B (Up (kd (mixs t))) s).
    - transitivity (sg t * (sg t * eos B (kd t) s)).
      + transitivity ((sg t * sg t) * eos B (kd t) s); [rewrite sg_sq; ring|ring].
      + f_equal. rewrite (eos_ext K B (Up (kd (mixs t))) (fun u => sg t * kd t u)) by (intros u Lu; apply U_mix; lia).
        symmetry. unfold eos. rewrite <- SL_mul. apply SL_ext. intros y _. rewrite eow_mul. ring.
    - rewrite <- (H _ s) by lia. unfold U. ring.
  Qed.
  Lemma amp_carried_ref A B : carries A B -> amp refS B refS = amp ref A ref.
  Proof.
    intros H. rewrite (amp_carried A B refS refS H lenU lenU). destruct mix_refU as [-> ->]. ring.
  Qed.

  (** *** Normal ordering *)
  Lemma ann_pi o : (opi o < no + nv)%nat -> u_annihilates n noa nob (pio noa nob nva o) = annihilates no o.
  Proof.
    intros L.
    assert (E : forall p, (p < no + nv)%nat -> u_occupied n noa nob (pix noa nob nva p) = Nat.ltb p no).
    { intros p Lp. unfold u_occupied, pix.
      destruct (Nat.ltb_spec p noa); [|destruct (Nat.ltb_spec p (noa + nob)); [|destruct (Nat.ltb_spec p (noa + nob + nva))]];
        repeat match goal with |- context[Nat.ltb ?x ?y] => destruct (Nat.ltb_spec x y) end; try reflexivity; lia. }
    destruct o as [p|p]; cbn [pio u_annihilates annihilates opi] in *; rewrite E by exact L; [reflexivity|].
    rewrite Nat.leb_antisym. reflexivity.
  Qed.
  Lemma filter_pi (f g : op -> bool) w : Forall (fun o => (opi o < no + nv)%nat) w ->
    (forall o, (opi o < no + nv)%nat -> g (pio noa nob nva o) = f o) ->
    filter g (map (pio noa nob nva) w) = map (pio noa nob nva) (filter f w).
  Proof.
    intros F E. induction w as [|o w IH]; [reflexivity|]. pose proof (Forall_inv F) as F1. pose proof (Forall_inv_tail F) as F2. cbn [map filter]. rewrite E by assumption.
    destruct (f o); cbn [map]; rewrite IH by assumption; reflexivity.
  Qed.
  Lemma nprod_pi w : Forall (fun o => (opi o < no + nv)%nat) w ->
    u_nprod n noa nob (map (pio noa nob nva) w) = map (pio noa nob nva) (nprod no w).
  Proof.
    intros F. unfold u_nprod, nprod. rewrite map_app. f_equal; apply filter_pi; auto.
    - intros o L. rewrite ann_pi by exact L. reflexivity.
    - intros o L. apply ann_pi, L.
  Qed.
  Lemma nsign_pi w : Forall (fun o => (opi o < no + nv)%nat) w ->
    u_nsign n noa nob (map (pio noa nob nva) w) = nsign no w.
  Proof.
    intros F. induction w as [|o w IH]; [reflexivity|]. pose proof (Forall_inv F) as F1. pose proof (Forall_inv_tail F) as F2. cbn [map u_nsign nsign].
    rewrite ann_pi, IH by assumption. f_equal. f_equal. f_equal.
    rewrite (filter_pi (fun x => negb (annihilates no x))), map_length; auto.
    intros x L. rewrite ann_pi by exact L. reflexivity.
  Qed.
  Lemma nprod_in w : Forall (fun o => (opi o < no + nv)%nat) w -> Forall (fun o => (opi o < no + nv)%nat) (nprod no w).
  Proof.
    intros F. rewrite Forall_forall in *. intros x Hx. apply F. unfold nprod in Hx. apply in_app_or in Hx as [Hx|Hx];
      apply filter_In in Hx; apply Hx.
  Qed.

  Section Both.
    Variables T1a T1b T2aa T2ab T2bb T1 T2 : tensor K.
    Hypothesis OT : u_amps_ok noa nva nob nvb T1a T1b T2aa T2ab T2bb.
    Hypothesis E1 : T1_to_spin T1a T1b noa nva nob nvb = Some T1.
    Hypothesis E2 : T2_to_spin T2aa T2ab T2bb noa nva nob nvb = Some T2.
    Variables L1a L1b L2aa L2ab L2bb L1 L2 : tensor K.
    Hypothesis OL : u_lams_ok noa nva nob nvb L1a L1b L2aa L2ab L2bb.
    Hypothesis E3 : T1_to_spin L1a L1b nva noa nvb nob = Some L1.
    Hypothesis E4 : T2_to_spin L2aa L2ab L2bb nva noa nvb nob = Some L2.
    Variable inv : nat -> K.
    Variable M : nat.

    Lemma expect_u c A B : carries A B ->
      u_expect inv M n noa nva nob nvb c T1a T1b T2aa T2ab T2bb L1a L1b L2aa L2ab L2bb B
      = cc_expect inv M no nv c T1 T2 L1 L2 A.
    Proof.
      intros H. unfold u_expect, cc_expect. cbv zeta. apply amp_carried_ref. apply carried_mul.
      - apply carried_acts, (acts_LU _ _ _ _ _ _ _ OL E3 E4).
      - apply carried_transformed; [apply (acts_TU _ _ _ _ _ _ _ OT E1 E2)|exact H].
    Qed.
    Lemma commutator_u c A B A' B' : carries A A' -> carries B B' ->
      u_commutator inv M n noa nva nob nvb c T1a T1b T2aa T2ab T2bb L1a L1b L2aa L2ab L2bb A' B'
      = cc_commutator inv M no nv c T1 T2 L1 L2 A B.
    Proof.
      intros H H'. unfold u_commutator, cc_commutator. cbv zeta. apply amp_carried_ref. apply carried_mul.
      - apply carried_acts, (acts_LU _ _ _ _ _ _ _ OL E3 E4).
      - apply carried_commutator; [|exact H']. apply carried_transformed; [apply (acts_TU _ _ _ _ _ _ _ OT E1 E2)|exact H].
    Qed.
    Lemma word_carried w : Forall (fun o => (opi o < no + nv)%nat) w -> carries [(1, w)] [(1, map (pio noa nob nva) w)].
    Proof.
      intros F. apply carried_acts. apply (acts_words K noa nob nva nvb [(1, w)]). apply Forall_cons; [|apply Forall_nil]. cbn [snd].
      revert F. apply Forall_impl. intros o L. lia.
    Qed.
    Lemma normal_u c w : Forall (fun o => (opi o < no + nv)%nat) w ->
      u_normal_expect inv M n noa nva nob nvb c T1a T1b T2aa T2ab T2bb L1a L1b L2aa L2ab L2bb (map (pio noa nob nva) w)
      = normal_expect inv M no nv c T1 T2 L1 L2 w.
    Proof.
      intros F. unfold u_normal_expect, normal_expect, word_expect. rewrite nsign_pi, nprod_pi by exact F. f_equal.
      apply expect_u, word_carried, nprod_in, F.
    Qed.
  End Both.
End ULam.
