(** Entries of the arrays built by utils.py and ov_blocks.py. *)
From Coq Require Import List Bool Arith String Lia Ring.
From Verif Require Import Scalar Tensor PySyntax PySem CCProg SymSound CCSpec NpModel SpinModel
  SpinSpec SpinFacts SOCtx SpinRound UtilsModel UtilsSpec.
Import ListNotations.

Lemma bs_r x a b : bshape (x :: a) (1 :: b) = option_map (cons x) (bshape a b).
Proof.
  simpl. destruct (bshape a b); auto. destruct (Nat.eqb_spec x 1); subst; reflexivity.
Qed.
Lemma bs_l y a b : bshape (1 :: a) (y :: b) = option_map (cons y) (bshape a b).
Proof. simpl. destruct (bshape a b); auto. destruct y as [|[|y]]; reflexivity. Qed.
Lemma bs_nil : bshape [] [] = Some [].
Proof. reflexivity. Qed.
Lemma clip_cons d sh i idx : i < d -> clip (d :: sh) (i :: idx) = i :: clip sh idx.
Proof. intros H. simpl. destruct (Nat.eqb_spec d 1); auto. f_equal. lia. Qed.
Lemma clip_1 sh i idx : clip (1 :: sh) (i :: idx) = 0 :: clip sh idx.
Proof. reflexivity. Qed.
Lemma clip_nil : clip [] [] = [].
Proof. reflexivity. Qed.

Section Facts.
  Variable K : cring.
  Local Open Scope K_scope.
  Add Ring Kr21 : (c_th K).
  Notation T := (tensor K).

  Ltac bs := repeat first [rewrite bs_r | rewrite bs_l | rewrite bs_nil]; cbn [option_map].

  Lemma D1_spec (ev eo : T) nv no : shp ev = [nv] -> shp eo = [no] ->
    exists D, D1 ev eo = Some D /\ shp D = [nv; no] /\
      forall a i, (a < nv)%nat -> (i < no)%nat -> dat D [a; i] = dat ev [a] - dat eo [i].
  Proof.
    intros Hv Ho. unfold D1, tnew. rewrite Hv, Ho. cbn [new_shape bindo].
    unfold tbin. cbn [shp dat]. bs. eexists. split; [reflexivity|]. cbn [shp]. split; [reflexivity|].
    intros a i Ha Hi. cbn [dat]. repeat first [rewrite clip_1 | rewrite clip_cons by assumption | rewrite clip_nil].
    reflexivity.
  Qed.

  Lemma D2u_spec (eva evb eoa eob : T) na nb ma mb : shp eva = [na] -> shp evb = [nb] ->
    shp eoa = [ma] -> shp eob = [mb] ->
    exists D, D2u eva evb eoa eob = Some D /\ shp D = [na; nb; ma; mb] /\
      forall a b i j, (a < na)%nat -> (b < nb)%nat -> (i < ma)%nat -> (j < mb)%nat ->
        dat D [a; b; i; j] = dat eva [a] + dat evb [b] - dat eoa [i] - dat eob [j].
  Proof.
    intros H1 H2 H3 H4. unfold D2u, tnew. rewrite H1, H2, H3, H4. cbn [new_shape bindo].
    unfold tbin. cbn [shp dat]. bs. cbn [bindo shp dat]. bs. cbn [bindo shp dat]. bs.
    eexists. split; [reflexivity|]. cbn [shp].
    split; [reflexivity|].
    intros a b i j Ha Hb Hi Hj. cbn [dat].
    repeat first [rewrite clip_1 | rewrite clip_cons by assumption | rewrite clip_nil].
    cbn [old_index]. reflexivity.
  Qed.
  Lemma D2_D2u (ev eo : T) : D2 ev eo = D2u ev ev eo eo.
  Proof. reflexivity. Qed.

  Lemma D2_spec (ev eo : T) nv no : shp ev = [nv] -> shp eo = [no] ->
    exists D, D2 ev eo = Some D /\ shp D = [nv; nv; no; no] /\
      (forall a b i j, (a < nv)%nat -> (b < nv)%nat -> (i < no)%nat -> (j < no)%nat ->
         dat D [a; b; i; j] = dat ev [a] + dat ev [b] - dat eo [i] - dat eo [j]) /\
      (forall a b i j, (a < nv)%nat -> (b < nv)%nat -> (i < no)%nat -> (j < no)%nat ->
         dat D [a; b; i; j] = dat D [b; a; i; j] /\ dat D [a; b; i; j] = dat D [a; b; j; i]).
  Proof.
    intros H1 H2. rewrite D2_D2u.
    destruct (D2u_spec ev ev eo eo _ _ _ _ H1 H1 H2 H2) as (D & E & S & H).
    exists D. split; [exact E|]. split; [exact S|]. split; [exact H|].
    intros a b i j Ha Hb Hi Hj. rewrite !H by assumption. split; ring.
  Qed.

  Lemma block_diag_spec (A B : T) ma na mb nb : shp A = [ma; na] -> shp B = [mb; nb] ->
    exists M, block_diag A B = Some M /\ shp M = [ma + mb; na + nb]%nat /\
      (forall i j, (i < ma)%nat -> (j < na)%nat -> dat M [i; j] = dat A [i; j]) /\
      (forall i j, (i < mb)%nat -> (j < nb)%nat -> dat M [ma + i; na + j]%nat = dat B [i; j]) /\
      (forall i j, (i < ma)%nat -> (j < nb)%nat -> dat M [i; na + j]%nat = 0) /\
      (forall i j, (i < mb)%nat -> (j < na)%nat -> dat M [ma + i; j]%nat = 0).
  Proof.
    intros HA HB. unfold block_diag. rewrite HA, HB. cbn [nth_error bindo].
    unfold hstack. rewrite HA, HB. cbn [shp tzeros]. rewrite !Nat.eqb_refl. cbn [bindo].
    unfold vstack. cbn [shp]. rewrite Nat.eqb_refl. eexists. split; [reflexivity|]. cbn [shp dat].
    split; [reflexivity|]. repeat split; intros i j Hi Hj.
    - apply Nat.ltb_lt in Hi, Hj. rewrite Hi, Hj. reflexivity.
    - destruct (Nat.ltb_spec (ma + i) ma); [lia|]. destruct (Nat.ltb_spec (na + j) na); [lia|].
      do 2 f_equal; [lia|f_equal; lia].
    - apply Nat.ltb_lt in Hi. rewrite Hi. destruct (Nat.ltb_spec (na + j) na); [lia|]. reflexivity.
    - destruct (Nat.ltb_spec (ma + i) ma); [lia|]. apply Nat.ltb_lt in Hj. rewrite Hj. reflexivity.
  Qed.

  Lemma D2_to_spin_holds (Taa Tab Tbb : T) noa nva nob nvb :
    shp Taa = [nva; nva; noa; noa] -> shp Tab = [nva; nvb; noa; nob] ->
    shp Tbb = [nvb; nvb; nob; nob] ->
    exists t, D2_to_spin Taa Tab Tbb noa nva nob nvb = Some t /\
      holds [nva; nva; noa; noa] [nvb; nvb; nob; nob] t
        (spin4 Taa Tbb Tab (swap_both Tab) (swap_ket Tab) (swap_bra Tab)).
  Proof.
    intros S1 S3 S2. unfold D2_to_spin.
    destruct (holds_set K [nva; nva; noa; noa] [nvb; nvb; nob; nob] _ _ [false; false; false; false] _
      (holds_zeros K [nva; nva; noa; noa] [nvb; nvb; nob; nob] eq_refl) eq_refl S1) as (t1 & E1 & H1).
    change (sides _ _) with [Upto nva; Upto nva; Upto noa; Upto noa] in E1. cbn [sums] in E1.
    rewrite E1; cbn [bindo].
    destruct (holds_set K _ _ _ _ [true; true; true; true] _ H1 eq_refl S2) as (t2 & E2 & H2).
    change (sides _ _) with [From nva; From nva; From noa; From noa] in E2. rewrite E2; cbn [bindo].
    destruct (holds_set K _ _ _ _ [false; true; false; true] _ H2 eq_refl S3) as (t3 & E3 & H3).
    change (sides _ _) with [Upto nva; From nva; Upto noa; From noa] in E3. rewrite E3; cbn [bindo].
    rewrite (ttrans_both K _ _ _ _ _ S3); cbn [bindo].
    assert (S4 : shp (swap_both Tab) = [nvb; nva; nob; noa]) by (cbn; rewrite S3; reflexivity).
    destruct (holds_set K _ _ _ _ [true; false; true; false] _ H3 eq_refl S4) as (t4 & E4 & H4).
    change (sides _ _) with [From nva; Upto nva; From noa; Upto noa] in E4. rewrite E4; cbn [bindo].
    rewrite (ttrans_ket K _ _ _ _ _ S3); cbn [bindo].
    assert (S5 : shp (swap_ket Tab) = [nva; nvb; nob; noa]) by (cbn; rewrite S3; reflexivity).
    destruct (holds_set K _ _ _ _ [false; true; true; false] _ H4 eq_refl S5) as (t5 & E5 & H5).
    change (sides _ _) with [Upto nva; From nva; From noa; Upto noa] in E5. rewrite E5; cbn [bindo].
    rewrite (ttrans_bra K _ _ _ _ _ S3); cbn [bindo].
    assert (S6 : shp (swap_bra Tab) = [nvb; nva; noa; nob]) by (cbn; rewrite S3; reflexivity).
    destruct (holds_set K _ _ _ _ [true; false; false; true] _ H5 eq_refl S6) as (t6 & E6 & H6).
    change (sides _ _) with [From nva; Upto nva; Upto noa; From noa] in E6. rewrite E6; cbn [bindo].
    eexists. split; [reflexivity|]. eapply holds_ext_pat; [exact H6|]. repeat constructor.
  Qed.

  Lemma cat_at n (x y : T) m s i : (i < side_len s n m)%nat ->
    cat n x y (at_spin n s i) = if s then dat y [i] else dat x [i].
  Proof.
    unfold cat. destruct s; simpl; intros H.
    - destruct (Nat.ltb_spec (n + i) n); [lia|]. do 2 f_equal. lia.
    - apply Nat.ltb_lt in H. rewrite H. reflexivity.
  Qed.

  Lemma D2_to_spin_spec (eva evb eoa eob : T) nva nvb noa nob :
    shp eva = [nva] -> shp evb = [nvb] -> shp eoa = [noa] -> shp eob = [nob] ->
    exists Daa Dab Dbb D,
      D2 eva eoa = Some Daa /\ D2u eva evb eoa eob = Some Dab /\ D2 evb eob = Some Dbb /\
      D2_to_spin Daa Dab Dbb noa nva nob nvb = Some D /\
      shp D = [nva + nvb; nva + nvb; noa + nob; noa + nob]%nat /\
      forall p q r s, inrange (shp D) [p; q; r; s] ->
        dat D [p; q; r; s] =
          if Nat.eqb (is_beta nva p + is_beta nva q) (is_beta noa r + is_beta noa s)
          then cat nva eva evb p + cat nva eva evb q - cat noa eoa eob r - cat noa eoa eob s
          else 0.
  Proof.
    intros H1 H2 H3 H4. rewrite !D2_D2u.
    destruct (D2u_spec eva eva eoa eoa _ _ _ _ H1 H1 H3 H3) as (Daa & E1 & S1 & X1).
    destruct (D2u_spec eva evb eoa eob _ _ _ _ H1 H2 H3 H4) as (Dab & E2 & S2 & X2).
    destruct (D2u_spec evb evb eob eob _ _ _ _ H2 H2 H4 H4) as (Dbb & E3 & S3 & X3).
    destruct (D2_to_spin_holds _ _ _ _ _ _ _ S1 S2 S3) as (D & E & HH).
    exists Daa, Dab, Dbb, D. split; [exact E1|]. split; [exact E2|]. split; [exact E3|].
    split; [exact E|]. pose proof HH as (S & _). split; [exact S|].
    intros p q r s Hr. rewrite S in Hr. cbn [sums] in Hr. apply inr4 in Hr.
    destruct Hr as (Hp & Hq & Hr & Hs). apply at_split in Hp, Hq, Hr, Hs.
    destruct Hp as (s1 & i & -> & L1). destruct Hq as (s2 & j & -> & L2).
    destruct Hr as (s3 & k & -> & L3). destruct Hs as (s4 & l & -> & L4).
    rewrite (entry4 K _ _ _ _ _ _ _ _ _ _ _ _ _ _ _ _ _ _ HH) by assumption.
    rewrite (is_beta_at _ _ _ _ L1), (is_beta_at _ _ _ _ L2), (is_beta_at _ _ _ _ L3),
      (is_beta_at _ _ _ _ L4).
    rewrite (cat_at _ _ _ _ _ _ L1), (cat_at _ _ _ _ _ _ L2), (cat_at _ _ _ _ _ _ L3),
      (cat_at _ _ _ _ _ _ L4).
    destruct s1, s2, s3, s4; cbn [spin4 Nat.add Nat.eqb]; try reflexivity; cbn [side_len] in *;
      cbn; rewrite ?X1, ?X2, ?X3 by assumption; ring.
  Qed.

  (** *** ov_blocks *)
  Lemma check_ok (Itot : T) n1o n1v n2o n2v n3o n3v n4o n4v :
    check_sizes Itot n1o n1v n2o n2v n3o n3v n4o n4v = Some tt <->
    shp Itot = [n1o + n1v; n2o + n2v; n3o + n3v; n4o + n4v]%nat.
  Proof.
    unfold check_sizes. destruct (shp Itot) as [|a [|b [|c [|d [|]]]]]; try (split; discriminate).
    destruct (Nat.eqb_spec a (n1o + n1v)); cbn [assertion bindo]; [|split; [discriminate|congruence]].
    destruct (Nat.eqb_spec b (n2o + n2v)); cbn [assertion bindo]; [|split; [discriminate|congruence]].
    destruct (Nat.eqb_spec c (n3o + n3v)); cbn [assertion bindo]; [|split; [discriminate|congruence]].
    destruct (Nat.eqb_spec d (n4o + n4v)); cbn [assertion bindo]; [|split; [discriminate|congruence]].
    subst. tauto.
  Qed.
  Lemma check_none (Itot : T) n1o n1v n2o n2v n3o n3v n4o n4v :
    shp Itot <> [n1o + n1v; n2o + n2v; n3o + n3v; n4o + n4v]%nat ->
    check_sizes Itot n1o n1v n2o n2v n3o n3v n4o n4v = None.
  Proof.
    intros H. rewrite <- check_ok in H. destruct check_sizes as [[]|]; congruence.
  Qed.

  (** the slice of a pattern of spaces *)
  Lemma ov_slice (Itot : T) os vs ss : shp Itot = sums os vs -> List.length vs = List.length os ->
    List.length ss = List.length os ->
    exists u, tslice (sides ss os) Itot = Some u /\ shp u = sels ss os vs /\
      forall idx, inrange (sels ss os vs) idx -> dat u idx = dat Itot (ats os ss idx).
  Proof.
    intros S L1 L2. exact (holds_slice K _ _ _ _ ss (holds_self K os vs Itot S L1) L2).
  Qed.

  Ltac ovs os vs S ss := let u := fresh "u" in let E := fresh "E" in
    destruct (ov_slice _ os vs ss S eq_refl eq_refl) as (u & E & ? & ?);
    cbn [sides combine map side fst snd] in E; rewrite E; cbn [bindo].

  Notation V := true. Notation O := false.
  Lemma full_blocks (Itot : T) n1o n1v n2o n2v n3o n3v n4o n4v :
    shp Itot = [n1o + n1v; n2o + n2v; n3o + n3v; n4o + n4v]%nat ->
    exists b, make_two_e_blocks_full Itot n1o n1v n2o n2v n3o n3v n4o n4v = Some b /\
      forall ss, List.length ss = 4%nat ->
        is_block [n1o; n2o; n3o; n4o] [n1v; n2v; n3v; n4v] Itot b ss.
  Proof.
    intros S. unfold make_two_e_blocks_full. rewrite (proj2 (check_ok _ _ _ _ _ _ _ _ _) S).
    cbn [bindo].
    ovs [n1o; n2o; n3o; n4o] [n1v; n2v; n3v; n4v] S [V; V; V; V].
    ovs [n1o; n2o; n3o; n4o] [n1v; n2v; n3v; n4v] S [V; V; V; O].
    ovs [n1o; n2o; n3o; n4o] [n1v; n2v; n3v; n4v] S [V; V; O; V].
    ovs [n1o; n2o; n3o; n4o] [n1v; n2v; n3v; n4v] S [V; O; V; V].
    ovs [n1o; n2o; n3o; n4o] [n1v; n2v; n3v; n4v] S [O; V; V; V].
    ovs [n1o; n2o; n3o; n4o] [n1v; n2v; n3v; n4v] S [V; V; O; O].
    ovs [n1o; n2o; n3o; n4o] [n1v; n2v; n3v; n4v] S [V; O; V; O].
    ovs [n1o; n2o; n3o; n4o] [n1v; n2v; n3v; n4v] S [O; V; V; O].
    ovs [n1o; n2o; n3o; n4o] [n1v; n2v; n3v; n4v] S [V; O; O; V].
    ovs [n1o; n2o; n3o; n4o] [n1v; n2v; n3v; n4v] S [O; V; O; V].
    ovs [n1o; n2o; n3o; n4o] [n1v; n2v; n3v; n4v] S [O; O; V; V].
    ovs [n1o; n2o; n3o; n4o] [n1v; n2v; n3v; n4v] S [V; O; O; O].
    ovs [n1o; n2o; n3o; n4o] [n1v; n2v; n3v; n4v] S [O; V; O; O].
    ovs [n1o; n2o; n3o; n4o] [n1v; n2v; n3v; n4v] S [O; O; V; O].
    ovs [n1o; n2o; n3o; n4o] [n1v; n2v; n3v; n4v] S [O; O; O; V].
    ovs [n1o; n2o; n3o; n4o] [n1v; n2v; n3v; n4v] S [O; O; O; O].
    eexists. split; [reflexivity|]. apply spin_cases. cbn [spin_list map app].
    repeat (constructor; [eexists; split; [reflexivity|split; eassumption]|]). constructor.
  Qed.

  Lemma nine_blocks (Itot : T) n1o n1v n2o n2v n3o n3v n4o n4v :
    shp Itot = [n1o + n1v; n2o + n2v; n3o + n3v; n4o + n4v]%nat ->
    exists b, make_two_e_blocks Itot n1o n1v n2o n2v n3o n3v n4o n4v = Some b /\
      Forall (is_block [n1o; n2o; n3o; n4o] [n1v; n2v; n3v; n4v] Itot b)
        [[V; V; V; V]; [V; V; V; O]; [V; O; V; V]; [V; V; O; O]; [V; O; V; O]; [O; O; V; V];
         [V; O; O; O]; [O; O; O; V]; [O; O; O; O]] /\
      Forall (fun ss => attr (block_name ss) b = None)
        [[V; V; O; V]; [O; V; V; V]; [O; V; V; O]; [V; O; O; V]; [O; V; O; V]; [O; V; O; O];
         [O; O; V; O]].
  Proof.
    intros S. unfold make_two_e_blocks. rewrite (proj2 (check_ok _ _ _ _ _ _ _ _ _) S).
    cbn [bindo].
    ovs [n1o; n2o; n3o; n4o] [n1v; n2v; n3v; n4v] S [V; V; V; V].
    ovs [n1o; n2o; n3o; n4o] [n1v; n2v; n3v; n4v] S [V; V; V; O].
    ovs [n1o; n2o; n3o; n4o] [n1v; n2v; n3v; n4v] S [V; O; V; V].
    ovs [n1o; n2o; n3o; n4o] [n1v; n2v; n3v; n4v] S [V; V; O; O].
    ovs [n1o; n2o; n3o; n4o] [n1v; n2v; n3v; n4v] S [V; O; V; O].
    ovs [n1o; n2o; n3o; n4o] [n1v; n2v; n3v; n4v] S [O; O; V; V].
    ovs [n1o; n2o; n3o; n4o] [n1v; n2v; n3v; n4v] S [V; O; O; O].
    ovs [n1o; n2o; n3o; n4o] [n1v; n2v; n3v; n4v] S [O; O; O; V].
    ovs [n1o; n2o; n3o; n4o] [n1v; n2v; n3v; n4v] S [O; O; O; O].
    eexists. split; [reflexivity|]. split.
    - repeat (constructor; [eexists; split; [reflexivity|split; eassumption]|]). constructor.
    - repeat (constructor; [reflexivity|]). constructor.
  Qed.

  (** every entry of Itot is an entry of one of the sixteen blocks *)
  Lemma reassemble (Itot : T) n1o n1v n2o n2v n3o n3v n4o n4v b :
    make_two_e_blocks_full Itot n1o n1v n2o n2v n3o n3v n4o n4v = Some b ->
    forall p q r s, inrange (shp Itot) [p; q; r; s] ->
      let side n i := negb (Nat.ltb i n) in
      let loc n i := if Nat.ltb i n then i else (i - n)%nat in
      exists u, attr (block_name [side n1o p; side n2o q; side n3o r; side n4o s]) b = Some u /\
        inrange (shp u) [loc n1o p; loc n2o q; loc n3o r; loc n4o s] /\
        dat Itot [p; q; r; s] = dat u [loc n1o p; loc n2o q; loc n3o r; loc n4o s].
  Proof.
    intros E p q r s Hr side loc.
    assert (S : shp Itot = [n1o + n1v; n2o + n2v; n3o + n3v; n4o + n4v]%nat).
    { unfold make_two_e_blocks_full in E.
      destruct (check_sizes Itot n1o n1v n2o n2v n3o n3v n4o n4v) as [[]|] eqn:C; [|discriminate].
      apply check_ok. exact C. }
    destruct (full_blocks _ _ _ _ _ _ _ _ _ S) as (b' & E' & H). rewrite E in E'.
    injection E' as <-.
    destruct (H [side n1o p; side n2o q; side n3o r; side n4o s] eq_refl) as (u & Eu & Su & Hu).
    exists u. split; [exact Eu|]. rewrite S in Hr. apply inr4 in Hr.
    assert (Hi : inrange (sels [side n1o p; side n2o q; side n3o r; side n4o s]
      [n1o; n2o; n3o; n4o] [n1v; n2v; n3v; n4v]) [loc n1o p; loc n2o q; loc n3o r; loc n4o s]).
    { cbn [sels]. apply inr4. unfold side, loc, side_len.
      destruct (Nat.ltb_spec p n1o), (Nat.ltb_spec q n2o), (Nat.ltb_spec r n3o),
        (Nat.ltb_spec s n4o); cbn [negb]; lia. }
    split; [rewrite Su; exact Hi|]. rewrite Hu by exact Hi. cbn [ats].
    assert (X : forall n i, i = at_spin n (side n i) (loc n i)).
    { intros n i. unfold side, loc, at_spin. destruct (Nat.ltb_spec i n); cbn [negb]; lia. }
    rewrite <- !X. reflexivity.
  Qed.

  Lemma wrong_sizes (Itot : T) n1o n1v n2o n2v n3o n3v n4o n4v :
    shp Itot <> [n1o + n1v; n2o + n2v; n3o + n3v; n4o + n4v]%nat ->
    make_two_e_blocks Itot n1o n1v n2o n2v n3o n3v n4o n4v = None /\
    make_two_e_blocks_full Itot n1o n1v n2o n2v n3o n3v n4o n4v = None.
  Proof.
    intros H. unfold make_two_e_blocks, make_two_e_blocks_full.
    rewrite (check_none _ _ _ _ _ _ _ _ _ H). auto.
  Qed.
End Facts.
