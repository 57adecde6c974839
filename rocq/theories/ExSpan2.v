(** (1 + T)|0> for all T spans the normalised vectors of the CISD basis. *)
From Coq Require Import List Bool Arith ZArith Lia Ring.
From Verif Require Import Scalar Tensor CIRep CISpec CIFacts CIStrings CIBases CIFock CIMatrix CILemmas CIVec CIExpSpec CIExp
  CCSpec CCFockSpec FockStates FockExp FockT FockH FockSchr FockPerm NpModel SpinModel SpinSpec SpinFacts SpinRound CCFock CCSchr
  UFockSpec UFock UFockOps UCCSchr CIExpU CCCI PTSpec FockPT FockPT2 FockCISD UExamples ExSpec ExRow ExTransfer ExMain ExSpan ExCI ExCISD.
Import ListNotations.
Local Open Scope list_scope.

(** *** Operators that change the number of alpha electrons *)
Section Balance.
  Variables n noa nva nob nvb : nat.
  Hypothesis Na : noa + nva = n.
  Hypothesis Nb : nob + nvb = n.
  Notation no := (noa + nob).
  Notation nv := (nva + nvb).
  Notation K := QcK.
  Local Open Scope K_scope.
  Lemma balance w s t : Forall (fun o => opi o < no + nv)%nat w -> length t = (n + n)%nat -> nel (firstn n t) = noa ->
    act w (aufbau (no + nv) no) = Some (s, mix noa nva nob t) -> acharge n (map (pio noa nob nva) w) = 0%Z.
  Proof.
    intros FW Lt Ea E. destruct (Z.eq_dec (acharge n (map (pio noa nob nva) w)) 0) as [Z|NZ]; [exact Z|exfalso].
    assert (SZ : pair_symmetric (K := K) n (fun _ _ _ _ => 0)) by (intros p q r q' _ _ _ _; reflexivity).
    destruct (spin_ham K n noa nva nob nvb (fun _ _ => 0) (fun _ _ => 0) (fun _ _ _ _ => 0) (fun _ _ _ _ => 0) (fun _ _ _ _ => 0) Na Nb SZ SZ)
      as (Fa & Fb & Iaa & Ibb & J & _ & _ & HU & _).
    set (A := [((1 : K), w)]).
    assert (AA : acts_as K noa nob nva nvb A (relabel K noa nob nva A)).
    { split; [|reflexivity]. constructor; [|constructor]. revert FW. apply Forall_impl. intros o Ho. lia. }
    pose proof (amp_B K n noa nva nob nvb _ _ _ _ _ Fa Fb Iaa Ibb J HU A _ AA t Lt) as Q.
    assert (Z : amp t (relabel K noa nob nva A) (aufbau n noa ++ aufbau n nob) = 0).
    { rewrite amp_eos. unfold A, relabel, eos, SL. cbn [map lsum fst snd].
      rewrite (afix_eow K n _ (Z.of_nat noa) _ (afix_ref K n noa nva nob nvb _ _ _ _ _ Fa Fb Iaa Ibb J HU _ (Nat.lt_succ_diag_r _)) t Lt) by lia.
      reflexivity. }
    rewrite Z in Q. unfold A, amp in Q. cbn [map lsum fst snd] in Q. unfold braket in Q. rewrite E, det_eqb_refl in Q.
    unfold UCCSchr.sg in Q. destruct (FockPerm.eps noa nva nob t), s; discriminate Q.
  Qed.
End Balance.

Lemma inr4 d1 d2 d3 d4 a b i j : inrange [d1; d2; d3; d4] [a; b; i; j] -> a < d1 /\ b < d2 /\ i < d3 /\ j < d4.
Proof.
  intros R. inversion R as [|? ? ? ? La R1]; subst; inversion R1 as [|? ? ? ? Lb R2]; subst; inversion R2 as [|? ? ? ? Li R3]; subst; inversion R3 as [|? ? ? ? Lj R4]; subst. auto.
Qed.

Section Span2.
  Variable K : cring.
  Local Open Scope K_scope.
  Add Ring KrS2 : (c_th K).
  Notation opsum := (list (K * list op)).
  Variables n noa nva nob nvb : nat.
  Hypothesis Na : (noa + nva)%nat = n.
  Hypothesis Nb : (nob + nvb)%nat = n.
  Notation no := (noa + nob)%nat.
  Notation nv := (nva + nvb)%nat.
  Notation A0 := (aufbau n noa).
  Notation B0 := (aufbau n nob).
  Notation refS := (A0 ++ B0).
  Notation ref := (aufbau (no + nv) no).
  Notation mixs := (mix noa nva nob).
  Notation sg := (UCCSchr.sg K noa nva nob).
  Variable L : list (det * det).
  Hypothesis ND : NoDup L.
  Hypothesis Hd : hd_error L = Some (A0, B0).
  Hypothesis InL : forall x, In x L <-> u_space 2 A0 B0 x.
  Hypothesis InS : forall x, In x L -> List.length (fst x) = n /\ List.length (snd x) = n /\ nel (fst x) = noa /\ nel (snd x) = nob.
  Variable v : list K.
  Hypothesis Lv : List.length v = List.length L.
  Hypothesis Hv : hd_error v = Some 1.

  Definition coef (x : det * det) : K := sg (lst x) * ExSpan.pick K L v x.
  Definition t1so (a i : nat) : K := SL L (fun x => braket (mixs (lst x)) [Cre (no + a); Ann i] ref * coef x).
  Definition t2so (a b i j : nat) : K := SL L (fun x => E2 (mixs (lst x)) ref (no + a) (no + b) i j * coef x).

  Lemma SL_opp {A} (l : list A) (f : A -> K) : SL l (fun x => - f x) = - SL l f.
  Proof. transitivity (SL l (fun x => f x * - (1))); [apply SL_ext; intros; ring|]. rewrite SL_mul_r. ring. Qed.
  Lemma t2_cre a b i j : (a < nv)%nat -> (b < nv)%nat -> (i < no)%nat -> (j < no)%nat -> t2so b a i j = - t2so a b i j.
  Proof.
    intros La Lb Li Lj. unfold t2so. rewrite <- SL_opp. apply SL_ext. intros x _.
    rewrite (E2_swap_cre K (mixs (lst x)) ref (no + a) (no + b) i j) by (rewrite aufbau_length; lia). ring.
  Qed.
  Lemma t2_ann a b i j : (a < nv)%nat -> (b < nv)%nat -> (i < no)%nat -> (j < no)%nat -> t2so a b j i = - t2so a b i j.
  Proof.
    intros La Lb Li Lj. unfold t2so. rewrite <- SL_opp. apply SL_ext. intros x _.
    rewrite (E2_swap_ann K (mixs (lst x)) ref (no + a) (no + b) i j) by (rewrite aufbau_length; lia). ring.
  Qed.

  Lemma len_lst x : In x L -> List.length (lst x) = (n + n)%nat.
  Proof. intros Ix. destruct (InS x Ix) as (L1 & L2 & _). unfold lst. rewrite app_length. lia. Qed.
  Lemma alpha_lst x : In x L -> nel (firstn n (lst x)) = noa.
  Proof.
    intros Ix. destruct (InS x Ix) as (L1 & _ & N1 & _). unfold lst. rewrite firstn_app, L1, Nat.sub_diag. cbn [firstn].
    rewrite app_nil_r, <- L1, firstn_all. exact N1.
  Qed.
  Lemma mix_inj x y : In x L -> In y L -> mixs (lst x) = mixs (lst y) -> x = y.
  Proof.
    intros Ix Iy E. pose proof (len_lst x Ix) as Lx. pose proof (len_lst y Iy) as Ly.
    apply (f_equal (mix noa nob nva)) in E. rewrite !(mix_mix noa nva nob nvb) in E by lia.
    destruct (InS x Ix) as (L1 & _). destruct (InS y Iy) as (L2 & _).
    unfold lst in E. apply (app_inv (fst x) (snd x) (fst y) (snd y) ltac:(lia)) in E as [E1 E3]. destruct x, y; cbn in *; congruence.
  Qed.
  Lemma pick_one (w : list op) s x : In x L -> act w ref = Some (s, mixs (lst x)) ->
    SL L (fun y => braket (mixs (lst y)) w ref * coef y) = CISpec.sgn s * coef x.
  Proof.
    intros Ix E. pose proof mix_inj as MI. clear - ND Ix E MI.
    assert (G : forall l, NoDup l -> incl l L -> SL l (fun y => braket (mixs (lst y)) w ref * coef y) = if existsb (fun y => det_eqb (mixs (lst x)) (mixs (lst y))) l then CISpec.sgn s * coef x else 0).
    { induction l as [|y l IH]; intros N IC; [reflexivity|]. inversion N as [|? ? NI N']; subst.
      unfold SL in *. cbn [map lsum existsb]. rewrite IH by (auto; intros z Iz; apply IC; right; exact Iz).
      unfold braket at 1. rewrite E. destruct (det_eqb (mixs (lst x)) (mixs (lst y))) eqn:Q; cbn [orb].
      - apply det_eqb_eq in Q. apply MI in Q; [|exact Ix|apply IC; left; reflexivity]. subst y.
        replace (existsb _ l) with false; [ring|]. symmetry. apply not_true_iff_false. intros X. apply existsb_exists in X as (z & Iz & Q).
        apply det_eqb_eq in Q. apply MI in Q; [|exact Ix|apply IC; right; exact Iz]. subst z. contradiction.
      - ring. }
    rewrite (G L ND (incl_refl _)). replace (existsb _ L) with true; [reflexivity|]. symmetry. apply existsb_exists. exists x. split; [exact Ix|apply det_eqb_refl].
  Qed.

  Notation spa := (at_spin nva).
  Notation spo := (at_spin noa).
  Definition U1a : tensor K := mkT [nva; noa] (fun ix => t1so (spa false (nth 0 ix 0%nat)) (spo false (nth 1 ix 0%nat))).
  Definition U1b : tensor K := mkT [nvb; nob] (fun ix => t1so (spa true (nth 0 ix 0%nat)) (spo true (nth 1 ix 0%nat))).
  Definition U2 (s1 s2 : bool) sh : tensor K := mkT sh (fun ix =>
    t2so (spa s1 (nth 0 ix 0%nat)) (spa s2 (nth 1 ix 0%nat)) (spo s1 (nth 2 ix 0%nat)) (spo s2 (nth 3 ix 0%nat))).
  Definition U2aa := U2 false false [nva; nva; noa; noa].
  Definition U2ab := U2 false true [nva; nvb; noa; nob].
  Definition U2bb := U2 true true [nvb; nvb; nob; nob].

  Lemma amps2_ok : u_amps_ok noa nva nob nvb U1a U1b U2aa U2ab U2bb.
  Proof.
    split; [reflexivity|]. split; [reflexivity|]. split.
    - split; [reflexivity|]. split; intros a b i j R; cbn [shp U2aa U2] in R; apply inr4 in R as (La & Lb & Li & Lj);
        cbn [dat U2aa U2 nth at_spin].
      + rewrite (t2_cre a b i j) by lia. ring.
      + rewrite (t2_ann a b i j) by lia. ring.
    - split; [reflexivity|]. split; [reflexivity|]. split; intros a b i j R; cbn [shp U2bb U2] in R; apply inr4 in R as (La & Lb & Li & Lj);
        cbn [dat U2bb U2 nth at_spin].
      + rewrite (t2_cre (nva + a) (nva + b) (noa + i) (noa + j)) by lia. ring.
      + rewrite (t2_ann (nva + a) (nva + b) (noa + i) (noa + j)) by lia. ring.
  Qed.

  Variables T1 T2 : tensor K.
  Hypothesis E1 : T1_to_spin U1a U1b noa nva nob nvb = Some T1.
  Hypothesis E2' : T2_to_spin U2aa U2ab U2bb noa nva nob nvb = Some T2.

  Lemma T1_val s1 s2 a i : (a < side_len s1 nva nvb)%nat -> (i < side_len s2 noa nob)%nat ->
    dat T1 [spa s1 a; spo s2 i] = if Bool.eqb s1 s2 then t1so (spa s1 a) (spo s2 i) else 0.
  Proof.
    intros La Li. destruct (T1_to_spin_holds K U1a U1b noa nva nob nvb eq_refl eq_refl) as (x & Ex & H1). rewrite E1 in Ex. injection Ex as <-.
    rewrite (entry2 K _ _ _ _ _ _ s1 s2 a i H1 La Li). destruct s1, s2; reflexivity.
  Qed.
  Definition matched (s1 s2 s3 s4 : bool) : bool := (Bool.eqb s1 s3 && Bool.eqb s2 s4) || (Bool.eqb s1 s4 && Bool.eqb s2 s3).
  Lemma T2_val s1 s2 s3 s4 a b i j : (a < side_len s1 nva nvb)%nat -> (b < side_len s2 nva nvb)%nat ->
    (i < side_len s3 noa nob)%nat -> (j < side_len s4 noa nob)%nat -> matched s1 s2 s3 s4 = true ->
    dat T2 [spa s1 a; spa s2 b; spo s3 i; spo s4 j] = t2so (spa s1 a) (spa s2 b) (spo s3 i) (spo s4 j).
  Proof.
    intros La Lb Li Lj M. destruct (T2_to_spin_holds K U2aa U2ab U2bb noa nva nob nvb eq_refl eq_refl eq_refl) as (x & Ex & H2). rewrite E2' in Ex. injection Ex as <-.
    rewrite (entry4 K _ _ _ _ _ _ _ _ _ _ s1 s2 s3 s4 a b i j H2) by assumption.
    destruct s1, s2, s3, s4; try discriminate M; cbn [side_len] in *; cbn [spin4_anti spin4 tneg swap_both swap_ket swap_bra swap map nth dat shp U2aa U2ab U2bb U2 at_spin];
      try reflexivity.
    - rewrite (t2_cre (nva + a) b j (noa + i)) by lia. rewrite (t2_ann (nva + a) b (noa + i) j) by lia. ring.
    - rewrite (t2_cre (nva + a) b i (noa + j)) by lia. ring.
    - rewrite (t2_ann a (nva + b) (noa + i) j) by lia. ring.
  Qed.

  (** the wrong spins *)
  Lemma pix_v s a : (a < side_len s nva nvb)%nat -> Nat.ltb (pix noa nob nva (no + spa s a)) n = negb s.
  Proof.
    intros La. unfold pix. destruct s; cbn [at_spin side_len negb] in *;
      repeat match goal with |- context[if Nat.ltb ?x ?y then _ else _] => destruct (Nat.ltb_spec x y); try lia end;
      match goal with |- Nat.ltb ?x ?y = _ => destruct (Nat.ltb_spec x y); try lia; reflexivity end.
  Qed.
  Lemma pix_o s i : (i < side_len s noa nob)%nat -> Nat.ltb (pix noa nob nva (spo s i)) n = negb s.
  Proof.
    intros Li. unfold pix. destruct s; cbn [at_spin side_len negb] in *;
      repeat match goal with |- context[if Nat.ltb ?x ?y then _ else _] => destruct (Nat.ltb_spec x y); try lia end;
      match goal with |- Nat.ltb ?x ?y = _ => destruct (Nat.ltb_spec x y); try lia; reflexivity end.
  Qed.
  Lemma spin_lt m1 m2 s a : (a < side_len s m1 m2)%nat -> (at_spin m1 s a < m1 + m2)%nat.
  Proof. destruct s; cbn [side_len at_spin]; lia. Qed.
  Lemma single_spin s1 s2 a i s x : (a < side_len s1 nva nvb)%nat -> (i < side_len s2 noa nob)%nat -> In x L ->
    act [Cre (no + spa s1 a); Ann (spo s2 i)] ref = Some (s, mixs (lst x)) -> s1 = s2.
  Proof.
    intros La Li Ix E. pose proof (spin_lt _ _ _ _ La). pose proof (spin_lt _ _ _ _ Li).
    apply (balance n noa nva nob nvb Na Nb _ s (lst x)) in E; [|repeat constructor; cbn [opi]; lia|apply len_lst; exact Ix|apply alpha_lst; exact Ix].
    cbn [map pio acharge] in E. rewrite (pix_v s1 a La), (pix_o s2 i Li) in E. destruct s1, s2; cbn in E; congruence.
  Qed.
  Lemma double_spin s1 s2 s3 s4 a b i j s x : (a < side_len s1 nva nvb)%nat -> (b < side_len s2 nva nvb)%nat ->
    (i < side_len s3 noa nob)%nat -> (j < side_len s4 noa nob)%nat -> In x L ->
    act [Cre (no + spa s1 a); Cre (no + spa s2 b); Ann (spo s4 j); Ann (spo s3 i)] ref = Some (s, mixs (lst x)) -> matched s1 s2 s3 s4 = true.
  Proof.
    intros La Lb Li Lj Ix E. pose proof (spin_lt _ _ _ _ La). pose proof (spin_lt _ _ _ _ Li). pose proof (spin_lt _ _ _ _ Lb). pose proof (spin_lt _ _ _ _ Lj).
    apply (balance n noa nva nob nvb Na Nb _ s (lst x)) in E; [|repeat constructor; cbn [opi]; lia|apply len_lst; exact Ix|apply alpha_lst; exact Ix].
    cbn [map pio acharge] in E. rewrite (pix_v s1 a La), (pix_v s2 b Lb), (pix_o s3 i Li), (pix_o s4 j Lj) in E.
    destruct s1, s2, s3, s4; cbn in E; try discriminate E; reflexivity.
  Qed.

  Lemma sg_sq t (y : K) : sg t * (sg t * y) = y.
  Proof. unfold UCCSchr.sg. destruct (FockPerm.eps noa nva nob t); cbn [CISpec.sgn]; ring. Qed.
  Lemma s_sq s (y : K) : CISpec.sgn s * (CISpec.sgn s * y) = y.
  Proof. destruct s; cbn [CISpec.sgn]; ring. Qed.
  Lemma pick_ref : ExSpan.pick K L v (A0, B0) = 1.
  Proof.
    clear - Hd Hv. destruct L as [|y l]; [discriminate|]. destruct v as [|k w]; [discriminate|]. cbn in Hd, Hv. injection Hd as ->. injection Hv as ->.
    cbn [ExSpan.pick fst snd]. rewrite !det_eqb_refl. reflexivity.
  Qed.

  Notation TS := (u_cluster n noa nva nob nvb U1a U1b U2aa U2ab U2bb).
  Notation T := (cluster no nv T1 T2).
  Lemma span_amp x : In x L -> amp (lst x) (one ++ TS) refS = ExSpan.pick K L v x.
  Proof.
    intros Ix. pose proof (len_lst x Ix) as Lx.
    assert (SZ : pair_symmetric (K := K) n (fun _ _ _ _ => 0)) by (intros p q r q' _ _ _ _; reflexivity).
    destruct (spin_ham K n noa nva nob nvb (fun _ _ => 0) (fun _ _ => 0) (fun _ _ _ _ => 0) (fun _ _ _ _ => 0) (fun _ _ _ _ => 0) Na Nb SZ SZ)
      as (Fa & Fb & Iaa & Ibb & J & F & I & HU & EF & EI & AG & BF & BI).
    pose proof amps2_ok as HT. pose proof HT as (O1 & O2 & O3 & O4 & O5).
    pose proof (T2_to_spin_ok K U2aa U2ab U2bb noa nva nob nvb O3 O4 O5) as (T2'' & X2 & OT2 & _). rewrite E2' in X2. injection X2 as <-.
    assert (AT : acts_as K noa nob nva nvb (one ++ T) (one ++ TS)).
    { apply acts_one. exact (acts_T K n noa nva nob nvb _ _ _ _ _ Fa Fb Iaa Ibb J HU _ _ _ _ _ HT _ (Nat.lt_succ_diag_r _) T1 T2 E1 E2'). }
    rewrite (amp_B K n noa nva nob nvb _ _ _ _ _ Fa Fb Iaa Ibb J HU _ _ AT (lst x) Lx), amp_eos, (oneT_eos K no nv T1 T2).
    destruct (InS x Ix) as (L1 & L2 & N1 & N2).
    assert (X : exists k, (k <= 2)%nat /\ excited k ref (mixs (lst x))).
    { destruct (proj1 (InL x) Ix) as (ka & kb & (P1 & P2 & P3) & (P4 & P5 & P6) & Q). exists (ka + kb)%nat. split; [exact Q|].
      apply (excited_mix K n noa nva nob nvb _ _ _ _ _ Fa Fb Iaa Ibb J HU _ (Nat.lt_succ_diag_r _)); [exact Lx|].
      split; [rewrite Lx, refS_len; reflexivity|]. unfold lst. split; [rewrite !nel_app; lia|]. rewrite ndiff_app by (rewrite aufbau_length; auto). lia. }
    destruct X as (k & Lk & X). destruct (excited_vlev no nv k _ X) as (Lm & Nm & V).
    destruct (low_dets no nv (mixs (lst x)) Lm Nm ltac:(lia)) as [Q|[(a & i & s & La & Li & EA)|(a & b & i & j & s & La & Lb & Li & Lj & EA)]].
    - destruct (mix_refS K n noa nva nob nvb _ _ _ _ _ Fa Fb Iaa Ibb J HU) as [MR SR].
      assert (x = (A0, B0)) as ->.
      { apply mix_inj; [exact Ix| |unfold lst at 2; cbn [fst snd]; rewrite MR; exact Q]. clear - Hd. destruct L; [discriminate|]. injection Hd as ->. left. reflexivity. }
      rewrite Q, T_ref, kd_ref_ref, pick_ref. unfold lst. cbn [fst snd]. rewrite SR. ring.
    - rewrite (kd_ref_not K no nv) by (eapply single_not; [| |exact EA]; auto).
      rewrite (T_single K no nv _ F I AG BI T1 T2 OT2 a i s _ La Li EA).
      destruct (at_split _ _ _ La) as (s1 & a' & -> & La'). destruct (at_split _ _ _ Li) as (s2 & i' & -> & Li').
      rewrite (T1_val s1 s2 a' i' La' Li'), (single_spin s1 s2 a' i' s x La' Li' Ix EA), Bool.eqb_reflx.
      rewrite (single_spin s1 s2 a' i' s x La' Li' Ix EA) in EA.
      unfold t1so. rewrite (pick_one _ s x Ix EA), s_sq. unfold coef. transitivity (sg (lst x) * (sg (lst x) * ExSpan.pick K L v x)); [ring|]. apply sg_sq.
    - rewrite (kd_ref_not K no nv) by (eapply double_not; [| | | |exact EA]; auto).
      rewrite (T_double K no nv _ F I AG BI T1 T2 OT2 a b i j s _ La Lb Li Lj EA).
      destruct (at_split _ _ _ La) as (s1 & a' & -> & La'). destruct (at_split _ _ _ Lb) as (s2 & b' & -> & Lb').
      destruct (at_split _ _ _ Li) as (s3 & i' & -> & Li'). destruct (at_split _ _ _ Lj) as (s4 & j' & -> & Lj').
      pose proof (double_spin s1 s2 s3 s4 a' b' i' j' s x La' Lb' Li' Lj' Ix EA) as MT.
      rewrite (T2_val s1 s2 s3 s4 a' b' i' j' La' Lb' Li' Lj' MT).
      unfold t2so, E2. rewrite (pick_one _ s x Ix EA), s_sq. unfold coef. transitivity (sg (lst x) * (sg (lst x) * ExSpan.pick K L v x)); [ring|]. apply sg_sq.
  Qed.
End Span2.

Lemma span2 (K : cring) n noa nva nob nvb (L : list (det * det)) (v : list K) : (noa + nva)%nat = n -> (nob + nvb)%nat = n -> NoDup L ->
  hd_error L = Some (aufbau n noa, aufbau n nob) -> (forall x, In x L <-> u_space 2 (aufbau n noa) (aufbau n nob) x) ->
  List.length v = List.length L -> hd_error v = Some c1 ->
  exists T1a T1b T2aa T2ab T2bb, u_amps_ok noa nva nob nvb T1a T1b T2aa T2ab T2bb /\
    v = coefficients L (one ++ u_cluster n noa nva nob nvb T1a T1b T2aa T2ab T2bb) (aufbau n noa ++ aufbau n nob).
Proof.
  intros Na Nb ND Hd InL Lv Hv.
  assert (InS : forall x, In x L -> List.length (fst x) = n /\ List.length (snd x) = n /\ nel (fst x) = noa /\ nel (snd x) = nob).
  { intros x Ix. apply InL in Ix as (ka & kb & (P1 & P2 & P3) & (P4 & P5 & P6) & Q). rewrite aufbau_length in P1, P4. rewrite nel_aufbau in P2, P5 by lia. auto. }
  pose proof (amps2_ok K n noa nva nob nvb Na Nb L v Lv) as HT.
  eexists _, _, _, _, _. split; [exact HT|].
  pose proof HT as (O1 & O2 & O3 & O4 & O5).
  destruct (T1_to_spin_ok K _ _ noa nva nob nvb O1 O2) as (T1 & E1 & _).
  destruct (T2_to_spin_ok K _ _ _ noa nva nob nvb O3 O4 O5) as (T2 & E2 & _).
  rewrite <- (pick_map K L ND v Lv) at 1. unfold coefficients. apply map_ext_in. intros x Ix. symmetry.
  exact (span_amp K n noa nva nob nvb Na Nb L ND Hd InL InS v Lv Hv T1 T2 E1 E2 x Ix).
Qed.

