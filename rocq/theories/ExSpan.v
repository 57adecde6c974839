(** Single excitations span the basis of CIS. *)
From Coq Require Import List Bool Arith ZArith Lia Ring.
From Verif Require Import Scalar Tensor CIRep CISpec CIFacts CIStrings CIBases CIFock CIMatrix CILemmas CIVec CIExpSpec CIExp
  FockStates FockExp FockT FockSchr SpinSpec UFockSpec CIExpU CCCI ExSpec.
Import ListNotations.
Local Open Scope list_scope.
Notation csgn := CISpec.sgn.

Lemma one_excited no nv a i s t : a < nv -> i < no -> act [Cre (no + a); Ann i] (aufbau (no + nv) no) = Some (s, t) ->
  excited 1 (aufbau (no + nv) no) t.
Proof.
  intros La Li E. pose proof (act_length _ _ _ _ E) as Lt. rewrite act_exc in E by (rewrite ?aufbau_length; lia).
  split; [exact Lt|]. split; [eapply exc_nel; [|exact E]; rewrite aufbau_length; lia|].
  apply exc_ndiff in E; [|rewrite aufbau_length; lia]. exact E.
Qed.

Section Span.
  Variable K : cring.
  Local Open Scope K_scope.
  Add Ring KrSp : (c_th K).
  Notation opsum := (list (K * list op)).

  (** the value of v at x *)
  Fixpoint pick (l : list (det * det)) (v : list K) (x : det * det) : K :=
    match l, v with
    | y :: l', k :: v' => if det_eqb (fst y) (fst x) && det_eqb (snd y) (snd x) then k else pick l' v' x
    | _, _ => 0
    end.
  Lemma pick_map l : NoDup l -> forall v, length v = length l -> map (pick l v) l = v.
  Proof.
    induction l as [|y l IH]; intros N v Lv; destruct v as [|k v]; try discriminate; [reflexivity|].
    inversion N as [|? ? NI N']; subst. cbn [map pick]. rewrite !det_eqb_refl. cbn [andb]. f_equal.
    transitivity (map (pick l v) l); [|apply (IH N'); injection Lv; auto]. apply map_ext_in. intros x Ix.
    destruct (det_eqb (fst y) (fst x) && det_eqb (snd y) (snd x)) eqn:Q; [|reflexivity].
    apply andb_prop in Q as [Q1 Q2]. apply det_eqb_eq in Q1, Q2. exfalso. apply NI.
    replace y with x; [exact Ix|]. destruct x, y; cbn in *; congruence.
  Qed.
  Lemma amp_braket bra (A : opsum) ket : amp bra A ket = SL A (fun x => fst x * braket bra (snd x) ket).
  Proof. reflexivity. Qed.
  Lemma SL_sumN {A} (x : nat -> A) m (g : A -> K) : SL (map x (seq 0 m)) g = sumN m (fun i => g (x i)).
  Proof. apply SL_map_seq. Qed.
  Lemma amp_singles_sum bra no nv o v (t1 : nat -> nat -> K) ket :
    amp bra (singles no nv o v t1) ket = sumN no (fun i => sumN nv (fun a => t1 a i * braket bra [Cre (v a); Ann (o i)] ket)).
  Proof.
    rewrite amp_braket. unfold singles. rewrite SL_flat_map.
    rewrite <- (map_id (seq 0 no)), SL_sumN. apply sumN_ext. intros i _. apply SL_sumN.
  Qed.

  Lemma single_unique no nv a i s t b j : (a < nv)%nat -> (i < no)%nat -> (b < nv)%nat -> (j < no)%nat ->
    act [Cre (no + a); Ann i] (aufbau (no + nv) no) = Some (s, t) ->
    braket (K := K) t [Cre (b + no); Ann j] (aufbau (no + nv) no) = delta b a * (delta j i * csgn s).
  Proof.
    intros La Li Lb Lj E. unfold braket. set (R := aufbau (no + nv) no) in *.
    assert (LR : length R = (no + nv)%nat) by apply aufbau_length.
    assert (OC : forall p, occd R p = Nat.ltb p no && Nat.ltb p (no + nv)) by (intros; apply aufbau_occ).
    rewrite (Nat.add_comm b no). destruct (act [Cre (no + b); Ann j] R) as [[s' t']|] eqn:E'.
    2: { exfalso. destruct (word_single no nv b j Lb Lj) as (s' & t' & Q & _). fold R in Q. congruence. }
    unfold delta. destruct (Nat.eqb_spec b a) as [->|Nab]; destruct (Nat.eqb_spec j i) as [->|Nij].
    - rewrite E in E'. injection E' as -> ->. rewrite det_eqb_refl. unfold CISpec.sgn. destruct s'; ring.
    - destruct (det_eqb t' t) eqn:Q; [|ring]. apply det_eqb_eq in Q. subst t'. exfalso.
      rewrite act_exc in E, E' by lia. unfold exc in *. destruct (_ && _) in E; [|discriminate]. destruct (_ && _) in E'; [|discriminate].
      injection E as _ E. injection E' as _ E'. rewrite <- E in E'. apply (f_equal (fun d => occd d j)) in E'.
      rewrite !occd_put, !put_length, LR, OC in E'.
      replace (Nat.eqb j (no + a)) with false in E' by (symmetry; apply Nat.eqb_neq; lia). rewrite Nat.eqb_refl in E'.
      replace (Nat.eqb j i) with false in E' by (symmetry; apply Nat.eqb_neq; lia).
      replace (Nat.ltb j (no + nv)) with true in E' by (symmetry; apply Nat.ltb_lt; lia).
      replace (Nat.ltb j no) with true in E' by (symmetry; apply Nat.ltb_lt; lia). discriminate.
    - destruct (det_eqb t' t) eqn:Q; [|ring]. apply det_eqb_eq in Q. subst t'. exfalso.
      rewrite act_exc in E, E' by lia. unfold exc in *. destruct (_ && _) in E; [|discriminate]. destruct (_ && _) in E'; [|discriminate].
      injection E as _ E. injection E' as _ E'. rewrite <- E in E'. apply (f_equal (fun d => occd d (no + b)%nat)) in E'.
      rewrite !occd_put, !put_length, LR, OC in E'.
      rewrite Nat.eqb_refl in E'. replace (Nat.eqb (no + b) (no + a)) with false in E' by (symmetry; apply Nat.eqb_neq; lia).
      replace (Nat.eqb (no + b) i) with false in E' by (symmetry; apply Nat.eqb_neq; lia).
      replace (Nat.ltb (no + b) (no + nv)) with true in E' by (symmetry; apply Nat.ltb_lt; lia).
      replace (Nat.ltb (no + b) no) with false in E' by (symmetry; apply Nat.ltb_ge; lia). discriminate.
    - destruct (det_eqb t' t) eqn:Q; [|ring]. apply det_eqb_eq in Q. subst t'. exfalso.
      rewrite act_exc in E, E' by lia. unfold exc in *. destruct (_ && _) in E; [|discriminate]. destruct (_ && _) in E'; [|discriminate].
      injection E as _ E. injection E' as _ E'. rewrite <- E in E'. apply (f_equal (fun d => occd d (no + b)%nat)) in E'.
      rewrite !occd_put, !put_length, LR, OC in E'.
      rewrite Nat.eqb_refl in E'. replace (Nat.eqb (no + b) (no + a)) with false in E' by (symmetry; apply Nat.eqb_neq; lia).
      replace (Nat.eqb (no + b) i) with false in E' by (symmetry; apply Nat.eqb_neq; lia).
      replace (Nat.ltb (no + b) (no + nv)) with true in E' by (symmetry; apply Nat.ltb_lt; lia).
      replace (Nat.ltb (no + b) no) with false in E' by (symmetry; apply Nat.ltb_ge; lia). discriminate.
  Qed.
  Lemma amp_single no nv (t1 : nat -> nat -> K) a i s t : (a < nv)%nat -> (i < no)%nat ->
    act [Cre (no + a); Ann i] (aufbau (no + nv) no) = Some (s, t) ->
    amp t (singles no nv (fun i => i) (fun a => a + no)%nat t1) (aufbau (no + nv) no) = csgn s * t1 a i.
  Proof.
    intros La Li E. rewrite amp_singles_sum.
    rewrite (sumN_ext K no _ (fun j => delta j i * (csgn s * t1 a j))).
    - apply (sumN_delta K no i (fun j => csgn s * t1 a j) Li).
    - intros j Lj. rewrite (sumN_ext K nv _ (fun b => delta b a * (t1 b j * (delta j i * csgn s)))).
      + rewrite (sumN_delta K nv a (fun b => t1 b j * (delta j i * csgn s)) La). ring.
      + intros b Lb. rewrite (single_unique no nv a i s t b j) by assumption. ring.
  Qed.

  Variables n noa nva nob nvb : nat.
  Hypothesis Na : (noa + nva)%nat = n.
  Hypothesis Nb : (nob + nvb)%nat = n.
  Notation A0 := (aufbau n noa).
  Notation B0 := (aufbau n nob).
  Notation refS := (A0 ++ B0).
  Notation SS ta tb := (u_singles n noa nva nob nvb ta tb).

  Lemma amp_alpha_part x y ta : length x = n -> amp (x ++ y) (T_alpha1 (K := K) noa nva ta) refS
    = amp x (singles noa nva (fun i => i) (fun a => a + noa)%nat ta) A0 * same y B0.
  Proof.
    intros Lx. unfold T_alpha1. rewrite !amp_singles_sum, <- sumN_mul_r. apply sumN_ext. intros i Li.
    rewrite <- sumN_mul_r. apply sumN_ext. intros a La. rewrite braket_alpha; [ring|rewrite aufbau_length; exact Lx|].
    repeat constructor; cbn [op_index]; rewrite aufbau_length; lia.
  Qed.
  Lemma amp_beta_part x y tb : length x = n -> amp (x ++ y) (T_beta1 (K := K) n nob nvb tb) refS
    = same x A0 * amp y (singles nob nvb (fun i => i) (fun a => a + nob)%nat tb) B0.
  Proof.
    intros Lx. unfold T_beta1. rewrite !amp_singles_sum, <- sumN_mul_l. apply sumN_ext. intros i Li.
    rewrite <- sumN_mul_l. apply sumN_ext. intros a La.
    pose proof (braket_beta K x y A0 B0 ltac:(rewrite aufbau_length; exact Lx) [Cre (a + nob); Ann i] (flips_two _ _ _)) as Q.
    rewrite aufbau_length in Q. cbn [map shift] in Q. rewrite Q. ring.
  Qed.

  Lemma alpha_amp (ta tb : nat -> nat -> K) a i s t : (a < nva)%nat -> (i < noa)%nat -> act [Cre (noa + a); Ann i] A0 = Some (s, t) ->
    amp (t ++ B0) (SS ta tb) refS = csgn s * ta a i.
  Proof.
    intros La Li E. pose proof (act_length _ _ _ _ E) as Lt. rewrite aufbau_length in Lt.
    unfold u_singles. rewrite amp_app, amp_alpha_part, amp_beta_part by exact Lt.
    rewrite (same_refl K), (same_neq K) by (intros ->; rewrite <- Na in E; exact (word_single_neq noa nva a i s La Li E)).
    rewrite <- Na in E |- *. rewrite (amp_single noa nva ta a i s t La Li E). ring.
  Qed.
  Lemma beta_amp (ta tb : nat -> nat -> K) a i s t : (a < nvb)%nat -> (i < nob)%nat -> act [Cre (nob + a); Ann i] B0 = Some (s, t) ->
    amp (A0 ++ t) (SS ta tb) refS = csgn s * tb a i.
  Proof.
    intros La Li E.
    unfold u_singles. rewrite amp_app, amp_alpha_part, amp_beta_part by apply aufbau_length.
    rewrite (same_refl K), (same_neq K) by (intros ->; rewrite <- Nb in E; exact (word_single_neq nob nvb a i s La Li E)).
    rewrite <- Nb in E |- *. rewrite (amp_single nob nvb tb a i s t La Li E). ring.
  Qed.

  Variable L : list (det * det).
  Hypothesis ND : NoDup L.
  Hypothesis InL : forall x, In x L <-> exists ka kb, excited ka A0 (fst x) /\ excited kb B0 (snd x) /\ (ka + kb = 1)%nat.

  Lemma in_cases x : In x L ->
    (exists a i s, (a < nva)%nat /\ (i < noa)%nat /\ act [Cre (noa + a); Ann i] A0 = Some (s, fst x) /\ snd x = B0) \/
    (exists a i s, (a < nvb)%nat /\ (i < nob)%nat /\ act [Cre (nob + a); Ann i] B0 = Some (s, snd x) /\ fst x = A0).
  Proof.
    intros Ix. apply InL in Ix as (ka & kb & Xa & Xb & Q).
    assert (C : (ka = 1 /\ kb = 0 \/ ka = 0 /\ kb = 1)%nat) by lia. destruct C as [[-> ->]|[-> ->]].
    - left. apply excited0 in Xb. rewrite <- Na in Xa |- *. destruct (single_word noa nva _ Xa) as (a & i & s & La & Li & E).
      exists a, i, s. rewrite Na in *. auto.
    - right. apply excited0 in Xa. rewrite <- Nb in Xb |- *. destruct (single_word nob nvb _ Xb) as (a & i & s & La & Li & E).
      exists a, i, s. rewrite Nb in *. auto.
  Qed.
  Lemma sgn_sq s (x : K) : csgn s * (csgn s * x) = x.
  Proof. destruct s; unfold CISpec.sgn; ring. Qed.

  Definition amp_of (no : nat) (R : det) (f : det -> K) (a i : nat) : K :=
    match act [Cre (no + a); Ann i] R with Some (s, t) => csgn s * f t | None => 0 end.

  Lemma span (v : list K) : length v = length L -> exists ta tb, v = coefficients L (SS ta tb) refS.
  Proof.
    intros Lv. exists (amp_of noa A0 (fun t => pick L v (t, B0))), (amp_of nob B0 (fun t => pick L v (A0, t))).
    rewrite <- (pick_map L ND v Lv) at 1. unfold coefficients. apply map_ext_in. intros [x y] Ix. cbn [fst snd].
    destruct (in_cases _ Ix) as [(a & i & s & La & Li & E & Q)|(a & i & s & La & Li & E & Q)]; cbn [fst snd] in E, Q.
    - subst y. rewrite (alpha_amp _ _ a i s x La Li E). unfold amp_of. rewrite E. symmetry. apply sgn_sq.
    - subst x. rewrite (beta_amp _ _ a i s y La Li E). unfold amp_of. rewrite E. symmetry. apply sgn_sq.
  Qed.

  Lemma unique (ta tb ta' tb' : nat -> nat -> K) : coefficients L (SS ta tb) refS = coefficients L (SS ta' tb') refS ->
    (forall a i, (a < nva)%nat -> (i < noa)%nat -> ta a i = ta' a i) /\
    (forall a i, (a < nvb)%nat -> (i < nob)%nat -> tb a i = tb' a i).
  Proof.
    intros Q.
    assert (P : forall x, In x L -> amp (fst x ++ snd x) (SS ta tb) refS = amp (fst x ++ snd x) (SS ta' tb') refS).
    { unfold coefficients in Q. clear ND InL. induction L as [|y l IH]; [intros x []|]. cbn [map] in Q. injection Q as Q1 Q2.
      intros x [<-|Ix]; [exact Q1|apply IH; assumption]. }
    split; intros a i La Li.
    - destruct (word_single noa nva a i La Li) as (s & t & E & _). rewrite Na in E.
      assert (I : In (t, B0) L).
      { apply InL. exists 1%nat, 0%nat. cbn [fst snd]. split; [|split; [apply excited0; reflexivity|reflexivity]].
        rewrite <- Na in E |- *. exact (one_excited noa nva a i s t La Li E). }
      apply P in I. cbn [fst snd] in I. rewrite !(alpha_amp _ _ a i s t La Li E) in I.
      rewrite <- (sgn_sq s (ta a i)), I. apply sgn_sq.
    - destruct (word_single nob nvb a i La Li) as (s & t & E & _). rewrite Nb in E.
      assert (I : In (A0, t) L).
      { apply InL. exists 0%nat, 1%nat. cbn [fst snd]. split; [apply excited0; reflexivity|]. split; [|reflexivity].
        rewrite <- Nb in E |- *. exact (one_excited nob nvb a i s t La Li E). }
      apply P in I. cbn [fst snd] in I. rewrite !(beta_amp _ _ a i s t La Li E) in I.
      rewrite <- (sgn_sq s (tb a i)), I. apply sgn_sq.
  Qed.
End Span.
