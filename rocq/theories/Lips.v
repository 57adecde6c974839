(** Every function is bounded and Lipschitz on bounded arguments: it runs over
    the ring of bounded Lipschitz functions of its arguments. *)
From Coq Require Import List Bool Arith ZArith Lia String Reals Lra FunctionalExtensionality Classical_Prop.
From Verif Require Import Scalar Tensor PySyntax PySem CCProg CCSpec SymSound CCShapes CovSpec Public Cov CovThm
  RoundSpec CCEquiv RespReal IterSpec.
Import ListNotations.
Local Open Scope R_scope.

Section Tame.
  Variable Om : Type.
  Variable linked : R -> Om -> Om -> Prop.
  Hypothesis linked_pos : forall d w w', linked d w w' -> 0 <= d.

  Definition lip (C : R) (f : Om -> R) : Prop :=
    0 <= C /\ (forall w, Rabs (f w) <= C) /\ forall d w w', linked d w w' -> Rabs (f w - f w') <= C * d.
  Definition tame (f : Om -> R) : Prop := exists C, lip C f.
  Lemma lip_mono C C' f : C <= C' -> lip C f -> lip C' f.
  Proof.
    intros H (P & B & L). split; [lra|]. split; [intros w; specialize (B w); lra|].
    intros d w w' Hd. specialize (L d w w' Hd). apply linked_pos in Hd.
    apply Rle_trans with (C * d); [exact L|]. apply Rmult_le_compat_r; assumption.
  Qed.
  Lemma tame_const c : tame (fun _ => c).
  Proof.
    exists (Rabs c). split; [apply Rabs_pos|]. split; [intros; lra|]. intros d w w' Hd. apply linked_pos in Hd.
    replace (c - c) with 0 by ring. rewrite Rabs_R0. apply Rmult_le_pos; [apply Rabs_pos|exact Hd].
  Qed.
  Lemma tame_add f g : tame f -> tame g -> tame (fun w => f w + g w).
  Proof.
    intros (C & P & B & L) (C' & P' & B' & L'). exists (C + C'). split; [lra|]. split.
    - intros w. eapply Rle_trans; [apply Rabs_triang|]. specialize (B w). specialize (B' w). lra.
    - intros d w w' Hd. replace (f w + g w - (f w' + g w')) with ((f w - f w') + (g w - g w')) by ring.
      eapply Rle_trans; [apply Rabs_triang|]. specialize (L _ _ _ Hd). specialize (L' _ _ _ Hd). lra.
  Qed.
  Lemma tame_opp f : tame f -> tame (fun w => - f w).
  Proof.
    intros (C & P & B & L). exists C. split; [exact P|]. split.
    - intros w. rewrite Rabs_Ropp. apply B.
    - intros d w w' Hd. replace (- f w - - f w') with (- (f w - f w')) by ring. rewrite Rabs_Ropp. apply L, Hd.
  Qed.
  Lemma tame_sub f g : tame f -> tame g -> tame (fun w => f w - g w).
  Proof. intros Hf Hg. exact (tame_add f (fun w => - g w) Hf (tame_opp g Hg)). Qed.
  Lemma tame_mul f g : tame f -> tame g -> tame (fun w => f w * g w).
  Proof.
    intros (C & P & B & L) (C' & P' & B' & L'). apply Rmult_le_pos with (r2 := C') in P as PP; [|exact P'].
    exists (2 * (C * C')). split; [lra|]. split.
    - intros w. rewrite Rabs_mult. apply Rle_trans with (C * C'); [|lra].
      apply Rmult_le_compat; try apply Rabs_pos; [apply B|apply B'].
    - intros d w w' Hd. replace (f w * g w - f w' * g w') with (f w * (g w - g w') + (f w - f w') * g w') by ring.
      eapply Rle_trans; [apply Rabs_triang|]. rewrite !Rabs_mult.
      assert (Rabs (f w) * Rabs (g w - g w') <= C * (C' * d)) by (apply Rmult_le_compat; try apply Rabs_pos; [apply B|apply L', Hd]).
      assert (Rabs (f w - f w') * Rabs (g w') <= (C * d) * C') by (apply Rmult_le_compat; try apply Rabs_pos; [apply L, Hd|apply B']).
      lra.
  Qed.

  Definition tfun : Type := { f : Om -> R | tame f }.
  Definition tf (x : tfun) : Om -> R := proj1_sig x.
  Lemma tfun_eq (x y : tfun) : (forall w, tf x w = tf y w) -> x = y.
  Proof.
    destruct x as [f H], y as [g G]. unfold tf. cbn. intros E.
    assert (f = g) as <- by (apply functional_extensionality; exact E).
    f_equal. apply proof_irrelevance.
  Qed.
  Definition t_const c : tfun := exist _ _ (tame_const c).
  Definition t_add (x y : tfun) : tfun := exist _ _ (tame_add _ _ (proj2_sig x) (proj2_sig y)).
  Definition t_sub (x y : tfun) : tfun := exist _ _ (tame_sub _ _ (proj2_sig x) (proj2_sig y)).
  Definition t_mul (x y : tfun) : tfun := exist _ _ (tame_mul _ _ (proj2_sig x) (proj2_sig y)).
  Definition t_opp (x : tfun) : tfun := exist _ _ (tame_opp _ (proj2_sig x)).
  Definition TameK : cring.
  Proof.
    refine (CRing tfun (t_const 0) (t_const 1) t_add t_mul t_sub t_opp (t_const (/ 2)) _ _).
    - constructor; intros; apply tfun_eq; intros w; unfold tf, t_const, t_add, t_sub, t_mul, t_opp; cbn; ring.
    - apply tfun_eq; intros w; unfold tf, t_const, t_add; cbn; field.
  Defined.
  Definition at_w (w : Om) (x : TameK) : RK := tf x w.
  Lemma at_w_map w : ring_map (at_w w).
  Proof. split; [reflexivity|split]; intros x y; reflexivity. Qed.

  Variable n : space -> nat.
  Variable B : R.
  Hypothesis B0 : 0 <= B.

  Definition num_of (v : pyval RK) : R := match v with XNum x => x | _ => 0 end.
  Definition arr_of (v : pyval RK) : tensor RK := match v with XArr t => t | _ => tzeros RK [] end.
  Definition tup_of (v : pyval RK) : list (pyval RK) := match v with XTup l => l | _ => [] end.
  Definition obj_of (v : pyval RK) : list (string * pyval RK) := match v with XObj l => l | _ => [] end.

  Lemma coordinate (f : Om -> R) : (forall w, Rabs (f w) <= B) -> (forall d w w', linked d w w' -> Rabs (f w - f w') <= d) -> tame f.
  Proof.
    intros H1 H2. exists (B + 1). split; [lra|]. split; [intros w; specialize (H1 w); lra|].
    intros d w w' Hd. specialize (H2 _ _ _ Hd). apply linked_pos in Hd.
    assert (0 <= B * d) by (apply Rmult_le_pos; assumption). lra.
  Qed.

  Lemma lift_value s : forall X : Om -> pyval RK, (forall w, bounded n B s (X w)) ->
    (forall d w w', linked d w w' -> near n d s (X w) (X w')) ->
    exists u : pyval TameK, forall w, mapped n (at_w w) s u (X w).
  Proof.
    unfold bounded, near, mapped.
    induction s as [|l|l IH|l IH] using shape_ind'; intros X HB HN.
    - assert (E : forall w, X w = @XNum (conc_alg RK) (num_of (X w))).
      { intros w. specialize (HB w). destruct (X w); cbn [related] in HB; try contradiction. reflexivity. }
      assert (T : tame (fun w => num_of (X w))).
      { apply coordinate.
        - intros w. specialize (HB w). rewrite E in HB. exact HB.
        - intros d w w' Hd. specialize (HN _ _ _ Hd). rewrite (E w), (E w') in HN. exact HN. }
      exists (@XNum (conc_alg TameK) (exist _ _ T)). intros w. rewrite (E w). cbn [related]. reflexivity.
    - assert (E : forall w, X w = @XArr (conc_alg RK) (arr_of (X w))).
      { intros w. specialize (HB w). destruct (X w); cbn [related] in HB; try contradiction. reflexivity. }
      assert (T : forall idx, inrange (map n l) idx -> tame (fun w => dat (arr_of (X w)) idx)).
      { intros idx Hi. apply coordinate.
        - intros w. specialize (HB w). rewrite E in HB. exact (proj2 HB idx Hi).
        - intros d w w' Hd. specialize (HN _ _ _ Hd). rewrite (E w), (E w') in HN. exact (proj2 (proj2 HN) idx Hi). }
      exists (@XArr (conc_alg TameK) (@mkT TameK (map n l) (fun idx => match inrange_dec (map n l) idx with
        | left Hi => exist _ _ (T idx Hi) | right _ => t_const 0 end))).
      intros w. rewrite (E w). cbn [related]. split; [reflexivity|]. split.
      + specialize (HB w). rewrite E in HB. exact (proj1 HB).
      + intros idx Hi. cbn [dat]. destruct (inrange_dec (map n l) idx) as [G|G]; [reflexivity|contradiction].
    - assert (E : forall w, X w = @XTup (conc_alg RK) (tup_of (X w))).
      { intros w. specialize (HB w). destruct (X w); cbn [related] in HB; try contradiction. reflexivity. }
      enough (W : forall L : Om -> list (pyval RK),
        (forall w, bounded n B (STup l) (@XTup (conc_alg RK) (L w))) ->
        (forall d w w', linked d w w' -> near n d (STup l) (@XTup (conc_alg RK) (L w)) (@XTup (conc_alg RK) (L w'))) ->
        exists us : list (pyval TameK), forall w, mapped n (at_w w) (STup l) (@XTup (conc_alg TameK) us) (@XTup (conc_alg RK) (L w))).
      { destruct (W (fun w => tup_of (X w))) as (us & Hu).
        - intros w. rewrite <- (E w). apply HB.
        - intros d w w' Hd. rewrite <- (E w), <- (E w'). apply HN, Hd.
        - exists (@XTup (conc_alg TameK) us). intros w. rewrite (E w). apply Hu. }
      clear X HB HN E. unfold bounded, near, mapped.
      induction IH as [|s l Hs Hl IHl]; intros L HB HN.
      + exists []. intros w. specialize (HB w). destruct (L w); [exact I|contradiction].
      + destruct (Hs (fun w => hd (@XNum (conc_alg RK) 0) (L w))) as (u & Hu).
        * intros w. specialize (HB w). destruct (L w); [contradiction|exact (proj1 HB)].
        * intros d w w' Hd. specialize (HN _ _ _ Hd). destruct (L w), (L w'); try contradiction. exact (proj1 HN).
        * destruct (IHl (fun w => tl (L w))) as (us & Hus).
          -- intros w. specialize (HB w). destruct (L w); [contradiction|exact (proj2 HB)].
          -- intros d w w' Hd. specialize (HN _ _ _ Hd). destruct (L w), (L w'); try contradiction. exact (proj2 HN).
          -- exists (u :: us). intros w. specialize (HB w). specialize (Hu w). specialize (Hus w).
             destruct (L w); [contradiction|]. split; assumption.
    - assert (E : forall w, X w = @XObj (conc_alg RK) (obj_of (X w))).
      { intros w. specialize (HB w). destruct (X w); cbn [related] in HB; try contradiction. reflexivity. }
      enough (W : forall L : Om -> list (string * pyval RK),
        (forall w, bounded n B (SObj l) (@XObj (conc_alg RK) (L w))) ->
        (forall d w w', linked d w w' -> near n d (SObj l) (@XObj (conc_alg RK) (L w)) (@XObj (conc_alg RK) (L w'))) ->
        exists us : list (string * pyval TameK), forall w, mapped n (at_w w) (SObj l) (@XObj (conc_alg TameK) us) (@XObj (conc_alg RK) (L w))).
      { destruct (W (fun w => obj_of (X w))) as (us & Hu).
        - intros w. rewrite <- (E w). apply HB.
        - intros d w w' Hd. rewrite <- (E w), <- (E w'). apply HN, Hd.
        - exists (@XObj (conc_alg TameK) us). intros w. rewrite (E w). apply Hu. }
      clear X HB HN E. unfold bounded, near, mapped.
      induction IH as [|[y s] l Hs Hl IHl]; intros L HB HN.
      + exists []. intros w. specialize (HB w). destruct (L w); [exact I|contradiction].
      + cbn [snd] in Hs. destruct (Hs (fun w => snd (hd (y, @XNum (conc_alg RK) 0) (L w)))) as (u & Hu).
        * intros w. specialize (HB w). destruct (L w) as [|[z q] qs]; [contradiction|exact (proj2 (proj2 (proj1 HB)))].
        * intros d w w' Hd. specialize (HN _ _ _ Hd). destruct (L w) as [|[z q] qs], (L w') as [|[z' q'] qs']; try contradiction.
          exact (proj2 (proj2 (proj1 HN))).
        * destruct (IHl (fun w => tl (L w))) as (us & Hus).
          -- intros w. specialize (HB w). destruct (L w) as [|[z q] qs]; [contradiction|exact (proj2 HB)].
          -- intros d w w' Hd. specialize (HN _ _ _ Hd). destruct (L w) as [|[z q] qs], (L w') as [|[z' q'] qs']; try contradiction.
             exact (proj2 HN).
          -- exists ((y, u) :: us). intros w. specialize (HB w). specialize (Hu w). specialize (Hus w).
             destruct (L w) as [|[z q] qs]; [contradiction|]. destruct HB as ((E1 & _ & _) & _).
             split; [split; [reflexivity|split; [exact E1|exact Hu]]|exact Hus].
  Qed.
  Lemma lift_args a : forall L : Om -> list (pyval RK), (forall w, bounded_args n B a (L w)) ->
    (forall d w w', linked d w w' -> near_args n d a (L w) (L w')) ->
    exists us : list (pyval TameK), forall w, related_args (mapped n (at_w w)) a us (L w).
  Proof.
    induction a as [|s a IH]; intros L HB HN.
    - exists []. intros w. specialize (HB w). destruct (L w); [exact I|contradiction].
    - destruct (lift_value s (fun w => hd (@XNum (conc_alg RK) 0) (L w))) as (u & Hu).
      + intros w. specialize (HB w). destruct (L w); [contradiction|exact (proj1 HB)].
      + intros d w w' Hd. specialize (HN _ _ _ Hd). destruct (L w), (L w'); try contradiction. exact (proj1 HN).
      + destruct (IH (fun w => tl (L w))) as (us & Hus).
        * intros w. specialize (HB w). destruct (L w); [contradiction|exact (proj2 HB)].
        * intros d w w' Hd. specialize (HN _ _ _ Hd). destruct (L w), (L w'); try contradiction. exact (proj2 HN).
        * exists (u :: us). intros w. specialize (HB w). specialize (Hu w). specialize (Hus w).
          destruct (L w); [contradiction|]. split; assumption.
  Qed.

  (** one constant for all entries *)
  Lemma uniform_nat m (P : nat -> R -> Prop) : (forall i C C', C <= C' -> P i C -> P i C') ->
    (forall i, (i < m)%nat -> exists C, P i C) -> exists C, forall i, (i < m)%nat -> P i C.
  Proof.
    intros M H. induction m as [|m IH]; [exists 0; intros; lia|].
    destruct IH as (C & HC); [intros; apply H; lia|]. destruct (H m ltac:(lia)) as (C' & HC').
    exists (Rmax C C'). intros i Hi. destruct (Nat.eq_dec i m) as [->|Ne].
    - exact (M _ _ _ (Rmax_r C C') HC').
    - exact (M _ _ _ (Rmax_l C C') (HC i ltac:(lia))).
  Qed.
  Lemma uniform sh : forall P : list nat -> R -> Prop, (forall i C C', C <= C' -> P i C -> P i C') ->
    (forall i, inrange sh i -> exists C, P i C) -> exists C, forall i, inrange sh i -> P i C.
  Proof.
    induction sh as [|m sh IH]; intros P M H.
    - destruct (H [] (Forall2_nil _)) as (C & HC). exists C. intros i Hi. inversion Hi. exact HC.
    - destruct (uniform_nat m (fun i C => forall idx, inrange sh idx -> P (i :: idx) C)) as (C & HC).
      + intros i C C' HC Hp idx Hi. exact (M _ _ _ HC (Hp idx Hi)).
      + intros i Hi. apply (IH (fun idx C => P (i :: idx) C)).
        * intros idx. apply M.
        * intros idx Hx. apply H. constructor; assumption.
      + exists C. intros i Hi. inversion Hi; subst. apply HC; assumption.
  Qed.

  Definition good (s : shape) (u : pyval TameK) (C : R) : Prop :=
    (forall w v, mapped n (at_w w) s u v -> bounded n C s v) /\
    (forall d w w' v v', linked d w w' -> mapped n (at_w w) s u v -> mapped n (at_w w') s u v' -> near n (C * d) s v v').
  Lemma good_all s : forall u : pyval TameK, exists C0, 0 <= C0 /\ forall C, C0 <= C -> good s u C.
  Proof.
    unfold good, bounded, near, mapped.
    induction s as [|l|l IH|l IH] using shape_ind'; intros [u|u|us|us];
      try (exists 0; split; [lra|]; intros C _; split; [intros w [v|v|v|v] Hv|intros d w w' [v|v|v|v] v' _ Hv _]; cbn [related] in Hv; contradiction).
    - destruct (proj2_sig u) as (C0 & HC). exists C0. split; [exact (proj1 HC)|]. intros C LC.
      destruct (lip_mono _ _ _ LC HC) as (_ & H1 & H2). split.
      + intros w [v|v|v|v] Hv; cbn [related] in *; try contradiction. subst. apply H1.
      + intros d w w' [v|v|v|v] [v'|v'|v'|v'] Hd Hv Hv'; cbn [related] in *; try contradiction. subst. apply H2, Hd.
    - destruct (uniform (map n l) (fun idx C => lip C (tf (dat u idx)))) as (C0 & HC).
      { intros i C C'. apply lip_mono. } { intros i _. exact (proj2_sig (dat u i)). }
      exists (Rmax 0 C0). split; [apply Rmax_l|]. intros C LC.
      assert (LC0 : C0 <= C) by (eapply Rle_trans; [apply Rmax_r|exact LC]). split.
      + intros w [v|v|v|v] Hv; cbn [related] in *; try contradiction. destruct Hv as (_ & S & E). split; [exact S|].
        intros idx Hi. rewrite (E idx Hi). destruct (lip_mono _ _ _ LC0 (HC idx Hi)) as (_ & H1 & _). apply H1.
      + intros d w w' [v|v|v|v] [v'|v'|v'|v'] Hd Hv Hv'; cbn [related] in *; try contradiction.
        destruct Hv as (_ & S & E), Hv' as (_ & S' & E'). split; [exact S|]. split; [exact S'|]. intros idx Hi.
        rewrite (E idx Hi), (E' idx Hi). destruct (lip_mono _ _ _ LC0 (HC idx Hi)) as (_ & _ & H2). apply H2, Hd.
    - enough (W : exists C0, 0 <= C0 /\ forall C, C0 <= C -> good (STup l) (@XTup (conc_alg TameK) us) C) by exact W.
      unfold good, bounded, near, mapped.
      revert us. induction IH as [|s l Hs Hl IHl]; intros us.
      + exists 0. split; [lra|]. intros C _. split.
        * intros w [v|v|[|v vs]|v] Hv; cbn [related] in *; try contradiction; try (destruct us; contradiction). exact I.
        * intros d w w' [v|v|[|v vs]|v] [v'|v'|[|v' vs']|v'] Hd Hv Hv'; cbn [related] in *; try contradiction; try (destruct us; contradiction). exact I.
      + destruct us as [|u us].
        { exists 0. split; [lra|]. intros C _. split.
          - intros w [v|v|vs|v] Hv; cbn [related] in *; contradiction.
          - intros d w w' [v|v|vs|v] v' Hd Hv Hv'; cbn [related] in *; contradiction. }
        destruct (Hs u) as (C1 & P1 & H1). destruct (IHl us) as (C2 & P2 & H2).
        exists (Rmax C1 C2). split; [eapply Rle_trans; [exact P1|apply Rmax_l]|]. intros C LC.
        destruct (H1 C) as (A1 & A2); [eapply Rle_trans; [apply Rmax_l|exact LC]|].
        destruct (H2 C) as (A3 & A4); [eapply Rle_trans; [apply Rmax_r|exact LC]|]. split.
        * intros w [v|v|[|v vs]|v] Hv; try contradiction. destruct Hv as (Hv & Hvs).
          split; [exact (A1 w v Hv)|exact (A3 w (@XTup (conc_alg RK) vs) Hvs)].
        * intros d w w' [v|v|[|v vs]|v] [v'|v'|[|v' vs']|v'] Hd Hv Hv'; try contradiction.
          destruct Hv as (Hv & Hvs), Hv' as (Hv' & Hvs').
          split; [exact (A2 _ _ _ _ _ Hd Hv Hv')|exact (A4 _ _ _ (@XTup (conc_alg RK) vs) (@XTup (conc_alg RK) vs') Hd Hvs Hvs')].
    - enough (W : exists C0, 0 <= C0 /\ forall C, C0 <= C -> good (SObj l) (@XObj (conc_alg TameK) us) C) by exact W.
      unfold good, bounded, near, mapped.
      revert us. induction IH as [|[y s] l Hs Hl IHl]; intros us.
      + exists 0. split; [lra|]. intros C _. split.
        * intros w [v|v|v|[|v vs]] Hv; cbn [related] in *; try contradiction; try (destruct us; contradiction). exact I.
        * intros d w w' [v|v|v|[|v vs]] [v'|v'|v'|[|v' vs']] Hd Hv Hv'; cbn [related] in *; try contradiction; try (destruct us; contradiction). exact I.
      + destruct us as [|[yu u] us].
        { exists 0. split; [lra|]. intros C _. split.
          - intros w [v|v|v|vs] Hv; cbn [related] in *; contradiction.
          - intros d w w' [v|v|v|vs] v' Hd Hv Hv'; cbn [related] in *; contradiction. }
        cbn [snd] in Hs. destruct (Hs u) as (C1 & P1 & H1). destruct (IHl us) as (C2 & P2 & H2).
        exists (Rmax C1 C2). split; [eapply Rle_trans; [exact P1|apply Rmax_l]|]. intros C LC.
        destruct (H1 C) as (A1 & A2); [eapply Rle_trans; [apply Rmax_l|exact LC]|].
        destruct (H2 C) as (A3 & A4); [eapply Rle_trans; [apply Rmax_r|exact LC]|]. split.
        * intros w [v|v|v|[|[yv v] vs]] Hv; try contradiction. destruct Hv as ((E1 & E2 & Hv) & Hvs).
          split; [split; [exact E2|split; [exact E2|exact (A1 w v Hv)]]|exact (A3 w (@XObj (conc_alg RK) vs) Hvs)].
        * intros d w w' [v|v|v|[|[yv v] vs]] [v'|v'|v'|[|[yv' v'] vs']] Hd Hv Hv'; try contradiction.
          destruct Hv as ((E1 & E2 & Hv) & Hvs), Hv' as ((E1' & E2' & Hv') & Hvs').
          split; [split; [exact E2|split; [exact E2'|exact (A2 _ _ _ _ _ Hd Hv Hv')]]|exact (A4 _ _ _ (@XObj (conc_alg RK) vs) (@XObj (conc_alg RK) vs') Hd Hvs Hvs')].
  Qed.
End Tame.

Theorem lipschitz n f a r B : In (f, a, r) public_functions -> 0 <= B ->
  exists C, 0 <= C /\ forall us vs d, bounded_args n B a us -> bounded_args n B a vs -> 0 <= d -> near_args n d a us vs ->
    exists u v, returns f us u /\ returns f vs v /\ bounded n C r u /\ bounded n C r v /\ near n (C * d) r u v.
Proof.
  intros Hf HB.
  set (Om := { vs : list (pyval RK) | bounded_args n B a vs }).
  set (linked := fun d (w w' : Om) => 0 <= d /\ near_args n d a (proj1_sig w) (proj1_sig w')).
  assert (Lp : forall d w w', linked d w w' -> 0 <= d) by (intros d w w' H; exact (proj1 H)).
  destruct (lift_args Om linked Lp n B HB a (fun w => proj1_sig w)) as (us & Hus).
  { intros w. exact (proj2_sig w). } { intros d w w' H. exact (proj2 H). }
  destruct (classic (inhabited Om)) as [[w0]|N].
  - destruct (map_thm _ _ (at_w Om linked Lp w0) n f a r us _ (at_w_map Om linked Lp w0) Hf (Hus w0)) as (u & v0 & R0 & _ & _).
    assert (A : forall w : Om, exists v, returns (K := RK) f (proj1_sig w) v /\ mapped n (at_w Om linked Lp w) r u v).
    { intros w. destruct (map_thm _ _ (at_w Om linked Lp w) n f a r us _ (at_w_map Om linked Lp w) Hf (Hus w)) as (u' & v & R1 & R2 & M).
      rewrite <- (returns_fun _ _ _ _ _ R0 R1) in M. exists v. split; assumption. }
    destruct (good_all Om linked Lp n r u) as (C & HC & G). destruct (G C (Rle_refl C)) as (G1 & G2).
    exists C. split; [exact HC|]. intros xs ys d Hx Hy Hd H.
    set (wx := exist _ xs Hx : Om). set (wy := exist _ ys Hy : Om).
    destruct (A wx) as (v & Rv & Mv). destruct (A wy) as (v' & Rv' & Mv').
    exists v, v'. split; [exact Rv|]. split; [exact Rv'|]. split; [exact (G1 _ _ Mv)|]. split; [exact (G1 _ _ Mv')|].
    exact (G2 d wx wy v v' (conj Hd H) Mv Mv').
  - exists 0. split; [lra|]. intros xs ys d Hx _ _ _. exfalso. apply N. constructor. exact (exist _ xs Hx).
Qed.
