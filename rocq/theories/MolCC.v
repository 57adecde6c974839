(** The integral functions give the arguments of the coupled cluster functions. *)
From Coq Require Import List Bool Arith ZArith Lia Ring String.
From Verif Require Import Scalar Tensor PySyntax PySem CCSpec CCFockSpec SpinSpec UFockSpec RFockSpec
  IntegralsModel IntegralsSpec IntegralsFacts UtilsModel UtilsSpec UtilsFacts MolSpec.
Import ListNotations.
Local Open Scope string_scope.
Local Open Scope list_scope.

Section Mol.
  Variable K : cring.
  Local Open Scope K_scope.
  Add Ring KrMol : (c_th K).
  Notation T := (tensor K).
  Variable m : mol K.
  Hypothesis X : exchangeable m.

  Section Spin.
    Variables (occa occb : list Z) (moa mob : T).
    Hypothesis Ha : coeffs m moa (List.length occa).
    Hypothesis Hb : coeffs m mob (List.length occb).
    Notation no := (List.length (so_positions false occa occb)).
    Notation nv := (List.length (so_positions true occa occb)).
    Notation x := (ordered_so occa occb moa mob).
    Notation g := (fun p q r s => phys_anti m (x p) (x q) (x r) (x s)).

    Definition ofs (v : bool) : nat := if v then no else 0%nat.
    Definition dim (v : bool) : nat := if v then nv else no.
    Lemma x_at v p : (p < dim v)%nat -> x (ofs v + p)%nat = so moa mob (nth p (so_positions v occa occb) 0%nat).
    Proof.
      intros L. unfold ordered_so, ofs. f_equal. destruct v; cbn [dim] in L.
      - rewrite app_nth2 by lia. f_equal. lia.
      - rewrite app_nth1 by exact L. reflexivity.
    Qed.

    Lemma ov_block2 J u v1 v2 v3 v4 : get_phys_antiu_all K m moa mob = Some J ->
      is_ov_block occa occb J v1 v2 v3 v4 u ->
      block2 u g (ofs v1) (dim v1) (ofs v2) (dim v2) (ofs v3) (dim v3) (ofs v4) (dim v4).
    Proof.
      intros EJ [S V].
      destruct (get_physu_all_eq K m moa mob _ _ true X Ha Hb) as (J' & EJ' & SJ & VJ).
      change (get_phys_antiu_all K m moa mob) with (get_physu_all K m moa mob true) in EJ.
      rewrite EJ in EJ'. injection EJ' as <-.
      assert (Sd : shp u = [dim v1; dim v2; dim v3; dim v4]) by (rewrite S; destruct v1, v2, v3, v4; reflexivity).
      split; [exact Sd|]. intros p q r s Lp Lq Lr Ls.
      rewrite V by (rewrite Sd; apply (in4' _ _ _ _ p q r s); auto).
      assert (L : forall v i, (i < dim v)%nat -> (nth i (so_positions v occa occb) 0 < List.length occa + List.length occb)%nat).
      { intros v i Li. apply so_pos_lt. destruct v; exact Li. }
      rewrite VJ by (rewrite SJ; apply in4'; auto).
      rewrite !x_at by assumption. reflexivity.
    Qed.

    Lemma eri_args B J : get_phys_antiu_all K m moa mob = Some J -> blocks_of 0 occa occb J B ->
      exists I, eri_object B I /\ blocks2 no nv g I.
    Proof.
      intros EJ (B1 & B2 & B3 & B4 & B5 & B6 & B7 & B8 & B9). unfold block_if in *. cbn [Nat.eqb orb] in *.
      destruct B1 as (u1 & E1 & C1). destruct B2 as (u2 & E2 & C2). destruct B3 as (u3 & E3 & C3).
      destruct B4 as (u4 & E4 & C4). destruct B5 as (u5 & E5 & C5). destruct B6 as (u6 & E6 & C6).
      destruct B7 as (u7 & E7 & C7). destruct B8 as (u8 & E8 & C8). destruct B9 as (u9 & E9 & C9).
      exists (TwoE K u1 u2 u3 u4 u5 u6 u7 u8 u9). split; [repeat split; assumption|].
      exact (conj (ov_block2 _ _ _ _ _ _ EJ C1) (conj (ov_block2 _ _ _ _ _ _ EJ C2) (conj (ov_block2 _ _ _ _ _ _ EJ C3)
        (conj (ov_block2 _ _ _ _ _ _ EJ C4) (conj (ov_block2 _ _ _ _ _ _ EJ C5) (conj (ov_block2 _ _ _ _ _ _ EJ C6)
        (conj (ov_block2 _ _ _ _ _ _ EJ C7) (conj (ov_block2 _ _ _ _ _ _ EJ C8) (ov_block2 _ _ _ _ _ _ EJ C9))))))))).
    Qed.
    Lemma g_anti : antisym_ints (no + nv) g.
    Proof.
      intros p q r s _ _ _ _. split.
      - exact (phys_anti_lead K m (x p) (x q) (x r) (x s) X).
      - exact (phys_anti_tail K m (x p) (x q) (x r) (x s)).
    Qed.
    Lemma eri_u : exists B I, eri_blocks K m (Uscf K occa occb moa mob) 0 = Some B /\ eri_object B I /\
      antisym_ints (no + nv) g /\ blocks2 no nv g I.
    Proof.
      destruct (eri_blocks_u K m 0 occa occb moa mob X Ha Hb) as (J & B & EJ & EB & H).
      destruct (eri_args B J EJ H) as (I & HI & HB). exists B, I. exact (conj EB (conj HI (conj g_anti HB))).
    Qed.
  End Spin.
  Lemma eri_r occ mo : coeffs m mo (List.length occ) ->
    let no := List.length (so_positions false occ occ) in
    let nv := List.length (so_positions true occ occ) in
    let x := ordered_so occ occ mo mo in
    let g := fun p q r s => phys_anti m (x p) (x q) (x r) (x s) in
    exists B I, eri_blocks K m (Rscf K occ mo) 0 = Some B /\ eri_object B I /\
      antisym_ints (no + nv) g /\ blocks2 no nv g I.
  Proof.
    intros H no nv x g.
    destruct (eri_blocks_r K m 0 occ mo X H) as (J & B & EJ & EB & HB).
    destruct (eri_args occ occ mo mo H H B J EJ HB) as (I & HI & HBI). exists B, I.
    exact (conj EB (conj HI (conj (g_anti occ occ mo mo) HBI))).
  Qed.

  (** blocks of an array *)
  Definition osel (v : bool) (o : nat) : nat := if v then o else 0%nat.
  Definition dsel (v : bool) (o w : nat) : nat := if v then w else o.
  Lemma is_block2 (A : T) b o1 w1 o2 w2 o3 w3 o4 w4 (f : nat -> nat -> nat -> nat -> K) v1 v2 v3 v4 :
    (forall p q r s, (p < o1 + w1)%nat -> (q < o2 + w2)%nat -> (r < o3 + w3)%nat -> (s < o4 + w4)%nat -> dat A [p; q; r; s] = f p q r s) ->
    is_block [o1; o2; o3; o4] [w1; w2; w3; w4] A b [v1; v2; v3; v4] ->
    exists u, attr (block_name [v1; v2; v3; v4]) b = Some u /\
      block2 u f (osel v1 o1) (dsel v1 o1 w1) (osel v2 o2) (dsel v2 o2 w2) (osel v3 o3) (dsel v3 o3 w3) (osel v4 o4) (dsel v4 o4 w4).
  Proof.
    intros HA (u & E & S & V). exists u. split; [exact E|].
    assert (Sd : sels [v1; v2; v3; v4] [o1; o2; o3; o4] [w1; w2; w3; w4] = [dsel v1 o1 w1; dsel v2 o2 w2; dsel v3 o3 w3; dsel v4 o4 w4])
      by (destruct v1, v2, v3, v4; reflexivity).
    rewrite Sd in S, V. split; [exact S|]. intros p q r s Lp Lq Lr Ls.
    rewrite V by (apply (in4' _ _ _ _ p q r s); auto).
    assert (Q : forall v o w i, (i < dsel v o w)%nat -> (osel v o + i < o + w)%nat).
    { intros v o w i L. destruct v; cbn in *; lia. }
    rewrite <- HA by (apply Q; assumption). destruct v1, v2, v3, v4; reflexivity.
  Qed.

  Section Space.
    Variables oa ob : T.
    Variables na nb noa nva nob nvb : nat.
    Hypothesis Ha : coeffs m oa na.
    Hypothesis Hb : coeffs m ob nb.
    Hypothesis Na : (noa + nva)%nat = na.
    Hypothesis Nb : (nob + nvb)%nat = nb.

    Lemma nine_args : exists x b I,
      get_phys K m oa oa oa oa true = Some x /\ make_two_e_blocks x noa nva noa nva noa nva noa nva = Some b /\
      blocks_object b I /\ blocks2 noa nva (anti (space_ints m oa oa)) I.
    Proof.
      destruct (get_phys_eq K m oa oa oa oa na na na na true Ha Ha Ha Ha) as (x & E & S & V).
      rewrite <- Na in S. destruct (nine_blocks K x noa nva noa nva noa nva noa nva S) as (b & Eb & FB & _).
      assert (HA : forall p q r s, (p < noa + nva)%nat -> (q < noa + nva)%nat -> (r < noa + nva)%nat -> (s < noa + nva)%nat ->
        dat x [p; q; r; s] = anti (space_ints m oa oa) p q r s) by (intros; apply V).
      rewrite Forall_forall in FB.
      assert (G : forall v1 v2 v3 v4, In [v1; v2; v3; v4] [[true; true; true; true]; [true; true; true; false]; [true; false; true; true];
          [true; true; false; false]; [true; false; true; false]; [false; false; true; true];
          [true; false; false; false]; [false; false; false; true]; [false; false; false; false]] ->
        exists u, attr (block_name [v1; v2; v3; v4]) b = Some u /\
        block2 u (anti (space_ints m oa oa)) (osel v1 noa) (dsel v1 noa nva) (osel v2 noa) (dsel v2 noa nva)
          (osel v3 noa) (dsel v3 noa nva) (osel v4 noa) (dsel v4 noa nva)).
      { intros v1 v2 v3 v4 Hin. apply (is_block2 x b _ _ _ _ _ _ _ _ _ _ _ _ _ HA). apply FB. exact Hin. }
      destruct (G true true true true ltac:(cbn; auto 12)) as (a1 & E1 & B1). destruct (G true true true false ltac:(cbn; auto 12)) as (a2 & E2 & B2).
      destruct (G true false true true ltac:(cbn; auto 12)) as (a3 & E3 & B3). destruct (G true true false false ltac:(cbn; auto 12)) as (a4 & E4 & B4).
      destruct (G true false true false ltac:(cbn; auto 12)) as (a5 & E5 & B5). destruct (G false false true true ltac:(cbn; auto 12)) as (a6 & E6 & B6).
      destruct (G true false false false ltac:(cbn; auto 12)) as (a7 & E7 & B7). destruct (G false false false true ltac:(cbn; auto 12)) as (a8 & E8 & B8).
      destruct (G false false false false ltac:(cbn; auto 12)) as (a9 & E9 & B9).
      exists x, b, (TwoE K a1 a2 a3 a4 a5 a6 a7 a8 a9). split; [exact E|]. split; [exact Eb|].
      split; [repeat split; assumption|]. repeat (split; [assumption|]). assumption.
    Qed.
    Lemma full_args : exists x b J,
      get_phys K m oa ob oa ob false = Some x /\ make_two_e_blocks_full x noa nva nob nvb noa nva nob nvb = Some b /\
      full_object b J /\ blocks2_mixed noa nva nob nvb (space_ints m oa ob) J.
    Proof.
      destruct (get_phys_eq K m oa ob oa ob na nb na nb false Ha Hb Ha Hb) as (x & E & S & V).
      rewrite <- Na, <- Nb in S. destruct (full_blocks K x noa nva nob nvb noa nva nob nvb S) as (b & Eb & FB).
      assert (HA : forall p q r s, (p < noa + nva)%nat -> (q < nob + nvb)%nat -> (r < noa + nva)%nat -> (s < nob + nvb)%nat ->
        dat x [p; q; r; s] = space_ints m oa ob p q r s) by (intros; rewrite V; unfold space_ints; ring).
      assert (G : forall v1 v2 v3 v4, exists u, attr (block_name [v1; v2; v3; v4]) b = Some u /\
        block2 u (space_ints m oa ob) (osel v1 noa) (dsel v1 noa nva) (osel v2 nob) (dsel v2 nob nvb)
          (osel v3 noa) (dsel v3 noa nva) (osel v4 nob) (dsel v4 nob nvb)).
      { intros v1 v2 v3 v4. apply (is_block2 x b _ _ _ _ _ _ _ _ _ _ _ _ _ HA). apply FB. reflexivity. }
      destruct (G true true true true) as (a1 & E1 & B1). destruct (G true true true false) as (a2 & E2 & B2).
      destruct (G true true false true) as (a3 & E3 & B3). destruct (G true false true true) as (a4 & E4 & B4).
      destruct (G false true true true) as (a5 & E5 & B5). destruct (G true true false false) as (a6 & E6 & B6).
      destruct (G true false true false) as (a7 & E7 & B7). destruct (G true false false true) as (a8 & E8 & B8).
      destruct (G false true true false) as (a9 & E9 & B9). destruct (G false true false true) as (a10 & E10 & B10).
      destruct (G false false true true) as (a11 & E11 & B11). destruct (G false false false true) as (a12 & E12 & B12).
      destruct (G false false true false) as (a13 & E13 & B13). destruct (G false true false false) as (a14 & E14 & B14).
      destruct (G true false false false) as (a15 & E15 & B15). destruct (G false false false false) as (a16 & E16 & B16).
      exists x, b, (TwoEF K a1 a2 a3 a4 a5 a6 a7 a8 a9 a10 a11 a12 a13 a14 a15 a16).
      split; [exact E|]. split; [exact Eb|]. split; [repeat split; assumption|].
      repeat (split; [assumption|]). assumption.
    Qed.
    Lemma space_pair n : pair_symmetric n (space_ints m oa oa).
    Proof. intros p q r s _ _ _ _. unfold space_ints. apply ERI_pair. exact X. Qed.
  End Space.
End Mol.
