(** Round trips, symmetry and spin conservation of spin_utils.py. *)
From Coq Require Import List Bool Arith Lia Ring.
From Verif Require Import Scalar Tensor PySyntax PySem CCProg SymSound CCSpec NpModel SpinModel
  SpinSpec SpinFacts SOCtx.
Import ListNotations.

Section Round.
  Variable K : cring.
  Local Open Scope K_scope.
  Add Ring Kr20 : (c_th K).
  Notation T := (tensor K).

  Lemma slice_blk na nb (t w : T) b ts : holds na nb t b -> List.length ts = List.length na ->
    b ts = Some w -> shp w = sels ts na nb ->
    exists u, tslice (sides ts na) t = Some u /\ teq u w.
  Proof.
    intros H L E S. destruct (holds_slice K _ _ _ _ _ H L) as (u & Eu & Su & Hu).
    exists u. split; auto. split; [congruence|]. intros idx Hi. rewrite Su in Hi.
    rewrite Hu, E by auto. reflexivity.
  Qed.

  Lemma inr4 a b c d i j k l : inrange [a; b; c; d] [i; j; k; l] <->
    (i < a /\ j < b /\ k < c /\ l < d)%nat.
  Proof.
    split.
    - intros H. inversion H; subst. inversion H5; subst. inversion H7; subst. inversion H9; subst.
      auto.
    - intros (A & B & C & D). repeat constructor; assumption.
  Qed.
  Lemma inr2 a b i j : inrange [a; b] [i; j] <-> (i < a /\ j < b)%nat.
  Proof.
    split.
    - intros H. inversion H; subst. inversion H5; subst. auto.
    - intros (A & B). repeat constructor; assumption.
  Qed.

  (** undoing the transposes *)
  Lemma un_ket (u w : T) a b c d : shp w = [a; b; c; d] -> teq u (tneg (swap_ket w)) ->
    exists v, ttrans [0; 1; 3; 2]%nat u = Some v /\ teq (tneg v) w.
  Proof.
    intros S [Su Hu]. cbn in Su. rewrite S in Su. cbn in Su.
    exists (swap_ket u). split; [apply (ttrans_ket K _ _ _ _ _ Su)|].
    split; [cbn; rewrite Su; auto|].
    intros idx Hi. cbn in Hi. rewrite Su in Hi. cbn in Hi.
    destruct (idx4 _ _ _ _ _ Hi) as (i & j & k & l & ->). cbn.
    rewrite Hu; [cbn; ring|]. rewrite Su. apply inr4 in Hi. apply inr4. tauto.
  Qed.
  Lemma un_bra (u w : T) a b c d : shp w = [a; b; c; d] -> teq u (tneg (swap_bra w)) ->
    exists v, ttrans [1; 0; 2; 3]%nat u = Some v /\ teq (tneg v) w.
  Proof.
    intros S [Su Hu]. cbn in Su. rewrite S in Su. cbn in Su.
    exists (swap_bra u). split; [apply (ttrans_bra K _ _ _ _ _ Su)|].
    split; [cbn; rewrite Su; auto|].
    intros idx Hi. cbn in Hi. rewrite Su in Hi. cbn in Hi.
    destruct (idx4 _ _ _ _ _ Hi) as (i & j & k & l & ->). cbn.
    rewrite Hu; [cbn; ring|]. rewrite Su. apply inr4 in Hi. apply inr4. tauto.
  Qed.
  Lemma un_both (u w : T) a b c d : shp w = [a; b; c; d] -> teq u (swap_both w) ->
    exists v, ttrans [1; 0; 3; 2]%nat u = Some v /\ teq v w.
  Proof.
    intros S [Su Hu]. cbn in Su. rewrite S in Su. cbn in Su.
    exists (swap_both u). split; [apply (ttrans_both K _ _ _ _ _ Su)|].
    split; [cbn; rewrite Su; auto|].
    intros idx Hi. cbn in Hi. rewrite Su in Hi. cbn in Hi.
    destruct (idx4 _ _ _ _ _ Hi) as (i & j & k & l & ->). cbn.
    rewrite Hu; [cbn; ring|]. rewrite Su. apply inr4 in Hi. apply inr4. tauto.
  Qed.

  (** *** C38 *)
  Lemma T1_round (Ta Tb : T) noa nva nob nvb :
    shp Ta = [nva; noa] -> shp Tb = [nvb; nob] ->
    exists t Ta' Tb', T1_to_spin Ta Tb noa nva nob nvb = Some t /\
      T1_to_spatial t noa nva nob nvb = Some (Ta', Tb') /\ teq Ta' Ta /\ teq Tb' Tb.
  Proof.
    intros HA HB. destruct (T1_to_spin_holds K _ _ _ _ _ _ HA HB) as (t & E & H).
    destruct (slice_blk _ _ _ Ta _ [false; false] H eq_refl eq_refl HA) as (a & Ea & Qa).
    destruct (slice_blk _ _ _ Tb _ [true; true] H eq_refl eq_refl HB) as (b & Eb & Qb).
    exists t, a, b. split; [exact E|]. split; [|auto]. unfold T1_to_spatial.
    change (sides _ _) with [Upto nva; Upto noa] in Ea.
    change (sides _ _) with [From nva; From noa] in Eb.
    rewrite Ea; cbn [bindo]. rewrite Eb. reflexivity.
  Qed.

  Lemma F_round (Fa Fb : one_e K) noa nva nob nvb :
    one_e_ok noa nva Fa -> one_e_ok nob nvb Fb ->
    exists F Fa' Fb', F_to_spin Fa Fb noa nva nob nvb = Some F /\
      F_to_spatial F noa nva nob nvb = Some (Fa', Fb') /\ same_one_e Fa' Fa /\ same_one_e Fb' Fb.
  Proof.
    intros HA HB.
    destruct (F_to_spin_holds K _ _ _ _ _ _ HA HB) as (F & E & H1 & H2 & H3 & H4).
    destruct HA as (A1 & A2 & A3 & A4). destruct HB as (B1 & B2 & B3 & B4).
    destruct (slice_blk _ _ _ _ _ [false; false] H1 eq_refl eq_refl A1) as (a1 & X1 & P1).
    destruct (slice_blk _ _ _ _ _ [false; false] H2 eq_refl eq_refl A2) as (a2 & X2 & P2).
    destruct (slice_blk _ _ _ _ _ [false; false] H3 eq_refl eq_refl A3) as (a3 & X3 & P3).
    destruct (slice_blk _ _ _ _ _ [false; false] H4 eq_refl eq_refl A4) as (a4 & X4 & P4).
    destruct (slice_blk _ _ _ _ _ [true; true] H1 eq_refl eq_refl B1) as (b1 & Y1 & Q1).
    destruct (slice_blk _ _ _ _ _ [true; true] H2 eq_refl eq_refl B2) as (b2 & Y2 & Q2).
    destruct (slice_blk _ _ _ _ _ [true; true] H3 eq_refl eq_refl B3) as (b3 & Y3 & Q3).
    destruct (slice_blk _ _ _ _ _ [true; true] H4 eq_refl eq_refl B4) as (b4 & Y4 & Q4).
    cbn [sides combine map side fst snd] in *.
    exists F, (OneE K a1 a2 a3 a4), (OneE K b1 b2 b3 b4). split; [exact E|].
    split; [|split; repeat split; cbn; try apply P1; try apply P2; try apply P3; try apply P4;
      try apply Q1; try apply Q2; try apply Q3; try apply Q4].
    unfold F_to_spatial.
    rewrite X1; cbn [bindo]. rewrite X2; cbn [bindo]. rewrite X3; cbn [bindo].
    rewrite X4; cbn [bindo]. rewrite Y1; cbn [bindo]. rewrite Y2; cbn [bindo].
    rewrite Y3; cbn [bindo]. rewrite Y4; cbn [bindo]. reflexivity.
  Qed.

  Lemma T2_round (Taa Tab Tbb : T) noa nva nob nvb :
    shp Taa = [nva; nva; noa; noa] -> shp Tab = [nva; nvb; noa; nob] ->
    shp Tbb = [nvb; nvb; nob; nob] ->
    exists t aa ab bb, T2_to_spin Taa Tab Tbb noa nva nob nvb = Some t /\
      T2_to_spatial t noa nva nob nvb = Some (aa, ab, bb) /\
      teq aa Taa /\ teq ab Tab /\ teq bb Tbb.
  Proof.
    intros H1 H2 H3. destruct (T2_to_spin_holds K _ _ _ _ _ _ _ H1 H2 H3) as (t & E & H).
    destruct (slice_blk _ _ _ _ _ [false; false; false; false] H eq_refl eq_refl H1) as (a & Ea & Qa).
    destruct (slice_blk _ _ _ _ _ [false; true; false; true] H eq_refl eq_refl H2) as (c & Ec & Qc).
    destruct (slice_blk _ _ _ _ _ [true; true; true; true] H eq_refl eq_refl H3) as (b & Eb & Qb).
    cbn [sides combine map side fst snd] in *.
    exists t, a, c, b. split; [exact E|]. split; [|auto]. unfold T2_to_spatial.
    rewrite Ea; cbn [bindo]. rewrite Eb; cbn [bindo]. rewrite Ec. reflexivity.
  Qed.

  Lemma int_round (Ia Ib : two_e K) (J : two_e_full K) noa nva nob nvb :
    two_e_shape noa nva Ia -> two_e_shape nob nvb Ib -> two_e_full_ok noa nva nob nvb J ->
    exists I Ia' Ib' J', int_to_spin2 Ia Ib J noa nva nob nvb = Some I /\
      int_to_spatial I noa nob nva nvb = Some (Ia', Ib', J') /\
      same_two_e Ia' Ia /\ same_two_e Ib' Ib /\ same_two_e_full J' J.
  Proof.
    intros HA HB HJ.
    destruct (int_to_spin2_holds K _ _ _ _ _ _ _ HA HB HJ) as (I & E & H1 & H2 & H3 & H4 & H5 & H6 &
      H7 & H8 & H9).
    destruct HA as (A1 & A2 & A3 & A4 & A5 & A6 & A7 & A8 & A9).
    destruct HB as (B1 & B2 & B3 & B4 & B5 & B6 & B7 & B8 & B9).
    destruct HJ as (J1 & J2 & J3 & J4 & J5 & J6 & J7 & J8 & J9 & J10 & J11 & J12 & J13 & J14 &
      J15 & J16).
    assert (S3 : shp (tneg (swap_ket (fvvov J))) = [nva; nvb; nvb; noa]) by (cbn; rewrite J3; auto).
    assert (S5 : shp (tneg (swap_bra (fovvv J))) = [nvb; noa; nva; nvb]) by (cbn; rewrite J5; auto).
    assert (S8 : shp (tneg (swap_ket (fvoov J))) = [nva; nob; nvb; noa]) by (cbn; rewrite J8; auto).
    assert (S9 : shp (tneg (swap_bra (fovvo J))) = [nvb; noa; nva; nob]) by (cbn; rewrite J9; auto).
    assert (S10 : shp (swap_both (fovov J)) = [nvb; noa; nvb; noa]) by (cbn; rewrite J10; auto).
    assert (S13 : shp (tneg (swap_ket (foovo J))) = [noa; nob; nob; nva]) by (cbn; rewrite J13; auto).
    assert (S14 : shp (tneg (swap_bra (fovoo J))) = [nvb; noa; noa; nob]) by (cbn; rewrite J14; auto).
    Ltac sb H ts S := let u := fresh "u" in let X := fresh "X" in let P := fresh "P" in
      destruct (slice_blk _ _ _ _ _ ts H eq_refl eq_refl S) as (u & X & P);
      cbn [sides combine map side fst snd] in X.
    sb H1 [false; false; false; false] A1. sb H2 [false; false; false; false] A2.
    sb H3 [false; false; false; false] A3. sb H4 [false; false; false; false] A4.
    sb H5 [false; false; false; false] A5. sb H6 [false; false; false; false] A6.
    sb H7 [false; false; false; false] A7. sb H8 [false; false; false; false] A8.
    sb H9 [false; false; false; false] A9.
    sb H1 [true; true; true; true] B1. sb H2 [true; true; true; true] B2.
    sb H3 [true; true; true; true] B3. sb H4 [true; true; true; true] B4.
    sb H5 [true; true; true; true] B5. sb H6 [true; true; true; true] B6.
    sb H7 [true; true; true; true] B7. sb H8 [true; true; true; true] B8.
    sb H9 [true; true; true; true] B9.
    sb H1 [false; true; false; true] J1. sb H2 [false; true; false; true] J2.
    sb H2 [false; true; true; false] S3.
    destruct (un_ket _ _ _ _ _ _ J3 P19) as (v3 & V3 & W3).
    sb H3 [false; true; false; true] J4.
    sb H3 [true; false; false; true] S5.
    destruct (un_bra _ _ _ _ _ _ J5 P21) as (v5 & V5 & W5).
    sb H4 [false; true; false; true] J6. sb H5 [false; true; false; true] J7.
    sb H5 [false; true; true; false] S8.
    destruct (un_ket _ _ _ _ _ _ J8 P24) as (v8 & V8 & W8).
    sb H5 [true; false; true; false] S10.
    destruct (un_both _ _ _ _ _ _ J10 P25) as (v10 & V10 & W10).
    sb H5 [true; false; false; true] S9.
    destruct (un_bra _ _ _ _ _ _ J9 P26) as (v9 & V9 & W9).
    sb H6 [false; true; false; true] J11. sb H7 [false; true; false; true] J15.
    sb H7 [true; false; false; true] S14.
    destruct (un_bra _ _ _ _ _ _ J14 P29) as (v14 & V14 & W14).
    sb H8 [false; true; false; true] J12.
    sb H8 [false; true; true; false] S13.
    destruct (un_ket _ _ _ _ _ _ J13 P31) as (v13 & V13 & W13).
    sb H9 [false; true; false; true] J16.
    exists I. do 3 eexists. split; [exact E|]. split.
    - unfold int_to_spatial. cbv zeta beta.
      repeat match goal with
      | H : ?e = Some _ |- context [bindo ?e _] => rewrite H; cbn [bindo]
      end. reflexivity.
    - repeat (split; [repeat (split; [cbn; assumption|]); cbn; assumption|]).
      repeat (split; [cbn; assumption|]); cbn; assumption.
  Qed.

  (** *** C39 *)
  Lemma at_split a b p : (p < a + b)%nat ->
    exists s i, p = at_spin a s i /\ (i < side_len s a b)%nat.
  Proof.
    intros H. destruct (Nat.leb_spec a p).
    - exists true, (p - a)%nat. simpl. lia.
    - exists false, p. simpl. lia.
  Qed.
  Lemma is_beta_at a b s i : (i < side_len s a b)%nat ->
    is_beta a (at_spin a s i) = if s then 1%nat else 0%nat.
  Proof.
    unfold is_beta. destruct s; simpl; intros H.
    - destruct (Nat.leb_spec a (a + i)); [auto|lia].
    - destruct (Nat.leb_spec a i); [lia|auto].
  Qed.
  Lemma entry2 n1 n2 m1 m2 (t : T) b s1 s2 i j : holds [n1; n2] [m1; m2] t b ->
    (i < side_len s1 n1 m1)%nat -> (j < side_len s2 n2 m2)%nat ->
    dat t [at_spin n1 s1 i; at_spin n2 s2 j] =
      match b [s1; s2] with Some u => dat u [i; j] | None => 0 end.
  Proof.
    intros (_ & _ & H) H1 H2. apply (H [s1; s2] [i; j]); auto. repeat constructor; auto.
  Qed.
  Lemma entry4 n1 n2 n3 n4 m1 m2 m3 m4 (t : T) b s1 s2 s3 s4 i j k l :
    holds [n1; n2; n3; n4] [m1; m2; m3; m4] t b ->
    (i < side_len s1 n1 m1)%nat -> (j < side_len s2 n2 m2)%nat ->
    (k < side_len s3 n3 m3)%nat -> (l < side_len s4 n4 m4)%nat ->
    dat t [at_spin n1 s1 i; at_spin n2 s2 j; at_spin n3 s3 k; at_spin n4 s4 l] =
      match b [s1; s2; s3; s4] with Some u => dat u [i; j; k; l] | None => 0 end.
  Proof.
    intros (_ & _ & H) H1 H2 H3 H4. apply (H [s1; s2; s3; s4] [i; j; k; l]); auto.
    repeat constructor; auto.
  Qed.

  Ltac at4 Hr := apply inr4 in Hr; let R := fresh in destruct Hr as (Hr & R & Hr2 & Hr3);
    apply at_split in Hr, R, Hr2, Hr3;
    destruct Hr as (s1 & i' & -> & L1); destruct R as (s2 & j' & -> & L2);
    destruct Hr2 as (s3 & k' & -> & L3); destruct Hr3 as (s4 & l' & -> & L4).

  Lemma lead_holds a c d b e f (t aa bb ab ba : T) :
    holds [a; a; c; d] [b; b; e; f] t
      (spin4 aa bb ab (swap_both ba) (tneg (swap_ket ba)) (tneg (swap_bra ab))) ->
    shp aa = [a; a; c; d] -> shp bb = [b; b; e; f] -> antisym_lead aa -> antisym_lead bb ->
    antisym_lead t.
  Proof.
    intros H Sa Sb Aa Ab i j k l Hr. destruct H as (S & HL & H). rewrite S in Hr.
    pose proof (conj S (conj HL H)) as HH. cbn [sums] in Hr. at4 Hr.
    rewrite !(entry4 _ _ _ _ _ _ _ _ _ _ _ _ _ _ _ _ _ _ HH) by assumption.
    destruct s1, s2, s3, s4; cbn [spin4]; cbn; try ring.
    - apply Ab. rewrite Sb. repeat constructor; assumption.
    - apply Aa. rewrite Sa. repeat constructor; assumption.
  Qed.
  Lemma tail_holds a c d b e f (t aa bb ab ba : T) :
    holds [a; c; d; d] [b; e; f; f] t
      (spin4 aa bb ab (swap_both ba) (tneg (swap_ket ab)) (tneg (swap_bra ba))) ->
    shp aa = [a; c; d; d] -> shp bb = [b; e; f; f] -> antisym_tail aa -> antisym_tail bb ->
    antisym_tail t.
  Proof.
    intros H Sa Sb Aa Ab i j k l Hr. destruct H as (S & HL & H). rewrite S in Hr.
    pose proof (conj S (conj HL H)) as HH. cbn [sums] in Hr. at4 Hr.
    rewrite !(entry4 _ _ _ _ _ _ _ _ _ _ _ _ _ _ _ _ _ _ HH) by assumption.
    destruct s1, s2, s3, s4; cbn [spin4]; cbn; try ring.
    - apply Ab. rewrite Sb. repeat constructor; assumption.
    - apply Aa. rewrite Sa. repeat constructor; assumption.
  Qed.
  Lemma cons4_holds n1 n2 n3 n4 m1 m2 m3 m4 (t aaaa bbbb abab baba abba baab : T) :
    holds [n1; n2; n3; n4] [m1; m2; m3; m4] t (spin4 aaaa bbbb abab baba abba baab) ->
    conserves4 n1 n2 n3 n4 t.
  Proof.
    intros HH i j k l Hr Hne. pose proof HH as (S & _). rewrite S in Hr. cbn [sums] in Hr. at4 Hr.
    rewrite (entry4 _ _ _ _ _ _ _ _ _ _ _ _ _ _ _ _ _ _ HH) by assumption.
    rewrite (is_beta_at _ _ _ _ L1), (is_beta_at _ _ _ _ L2), (is_beta_at _ _ _ _ L3),
      (is_beta_at _ _ _ _ L4) in Hne.
    destruct s1, s2, s3, s4; try reflexivity; exfalso; apply Hne; reflexivity.
  Qed.
  Lemma cons2_holds n1 n2 m1 m2 (t aa bb : T) :
    holds [n1; n2] [m1; m2] t (spin2 aa bb) -> conserves2 n1 n2 t.
  Proof.
    intros HH i j Hr Hne. pose proof HH as (S & _). rewrite S in Hr. cbn [sums] in Hr.
    apply inr2 in Hr. destruct Hr as (R1 & R2). apply at_split in R1, R2.
    destruct R1 as (s1 & i' & -> & L1). destruct R2 as (s2 & j' & -> & L2).
    rewrite (entry2 _ _ _ _ _ _ _ _ _ _ HH) by assumption.
    rewrite (is_beta_at _ _ _ _ L1), (is_beta_at _ _ _ _ L2) in Hne.
    destruct s1, s2; try reflexivity; exfalso; apply Hne; reflexivity.
  Qed.

  Lemma T2_to_spin_ok (Taa Tab Tbb : T) noa nva nob nvb :
    t2_ok noa nva Taa -> shp Tab = [nva; nvb; noa; nob] -> t2_ok nob nvb Tbb ->
    exists t, T2_to_spin Taa Tab Tbb noa nva nob nvb = Some t /\
      t2_ok (noa + nob) (nva + nvb) t /\ conserves4 nva nva noa noa t.
  Proof.
    intros (S1 & A1 & A2) S2 (S3 & B1 & B2).
    destruct (T2_to_spin_holds K _ _ _ _ _ _ _ S1 S2 S3) as (t & E & H).
    exists t. split; [exact E|]. split; [|exact (cons4_holds _ _ _ _ _ _ _ _ _ _ _ _ _ _ _ H)].
    split; [apply H|]. split.
    - exact (lead_holds _ _ _ _ _ _ _ _ _ _ _ H S1 S3 A1 B1).
    - exact (tail_holds _ _ _ _ _ _ _ _ _ _ _ H S1 S3 A2 B2).
  Qed.

  Lemma int_blocks_ok (Ia Ib : two_e K) (J : two_e_full K) noa nva nob nvb I :
    two_e_ok noa nva Ia -> two_e_ok nob nvb Ib -> int_blocks Ia Ib J noa nva nob nvb I ->
    two_e_ok (noa + nob) (nva + nvb) I /\ conserves_two_e noa nva I.
  Proof.
    intros [(S1 & S2 & S3 & S4 & S5 & S6 & S7 & S8 & S9)
                     ([A1 B1] & A2 & A3 & [A4 B4] & [A6 B6] & A7 & A8 & [A9 B9])]
            [(S1' & S2' & S3' & S4' & S5' & S6' & S7' & S8' & S9')
             ([A1' B1'] & A2' & A3' & [A4' B4'] & [A6' B6'] & A7' & A8' & [A9' B9'])]
            (H1 & H2 & H3 & H4 & H5 & H6 & H7 & H8 & H9).
    split; [split|].
    - repeat split; [apply H1|apply H2|apply H3|apply H4|apply H5|apply H6|apply H7|apply H8|apply H9].
    - repeat split; (eapply lead_holds || eapply tail_holds); eauto.
    - repeat split; eapply cons4_holds; eauto.
  Qed.

  Lemma int_to_spin2_ok (Ia Ib : two_e K) (J : two_e_full K) noa nva nob nvb :
    two_e_ok noa nva Ia -> two_e_ok nob nvb Ib -> two_e_full_ok noa nva nob nvb J ->
    exists I, int_to_spin2 Ia Ib J noa nva nob nvb = Some I /\
      two_e_ok (noa + nob) (nva + nvb) I /\ conserves_two_e noa nva I.
  Proof.
    intros HA HB HJ.
    destruct (int_to_spin2_holds K _ _ _ _ _ _ _ (proj1 HA) (proj1 HB) HJ) as (I & E & H).
    exists I. split; [exact E|]. exact (int_blocks_ok _ _ _ _ _ _ _ _ HA HB H).
  Qed.
  Lemma T1_to_spin_ok (Ta Tb : T) noa nva nob nvb :
    shp Ta = [nva; noa] -> shp Tb = [nvb; nob] ->
    exists t, T1_to_spin Ta Tb noa nva nob nvb = Some t /\
      shp t = [nva + nvb; noa + nob]%nat /\ conserves2 nva noa t.
  Proof.
    intros HA HB. destruct (T1_to_spin_holds K _ _ _ _ _ _ HA HB) as (t & E & H).
    exists t. split; [exact E|]. split; [apply H|]. exact (cons2_holds _ _ _ _ _ _ _ H).
  Qed.
  Lemma F_to_spin_ok (Fa Fb : one_e K) noa nva nob nvb :
    one_e_ok noa nva Fa -> one_e_ok nob nvb Fb ->
    exists F, F_to_spin Fa Fb noa nva nob nvb = Some F /\ one_e_ok (noa + nob) (nva + nvb) F /\
      conserves2 noa noa (oo F) /\ conserves2 noa nva (ov F) /\
      conserves2 nva noa (vo F) /\ conserves2 nva nva (vv F).
  Proof.
    intros HA HB. destruct (F_to_spin_holds K _ _ _ _ _ _ HA HB) as (F & E & H1 & H2 & H3 & H4).
    exists F. split; [exact E|].
    split; [split; [apply H1|split; [apply H2|split; [apply H3|apply H4]]]|].
    split; [exact (cons2_holds _ _ _ _ _ _ _ H1)|]. split; [exact (cons2_holds _ _ _ _ _ _ _ H2)|].
    split; [exact (cons2_holds _ _ _ _ _ _ _ H3)|exact (cons2_holds _ _ _ _ _ _ _ H4)].
  Qed.

  (** *** C40 *)
  Lemma tsub_spec (A B : T) : shp A = shp B ->
    exists u, tsub A B = Some u /\ shp u = shp A /\ forall idx, dat u idx = dat A idx - dat B idx.
  Proof.
    intros E. unfold tsub, tadd. cbn [tneg shp]. rewrite E, shape_eqb_refl.
    eexists. split; [reflexivity|]. split; [reflexivity|]. intros idx. cbn. ring.
  Qed.

  Lemma raw_block_holds (da xa db xb ab ba x y : T) a1 a2 a3 a4 b1 b2 b3 b4 :
    shp da = [a1; a2; a3; a4] -> shp xa = [a1; a2; a4; a3] ->
    shp db = [b1; b2; b3; b4] -> shp xb = [b1; b2; b4; b3] ->
    shp ab = [a1; b2; a3; b4] -> shp ba = [a2; b1; a4; b3] ->
    shp x = [a1; b2; a4; b3] -> shp y = [a2; b1; a3; b4] ->
    exists t, raw_block da xa db xb ab ba x y a1 a2 a3 a4 b1 b2 b3 b4 = Some t /\
      holds [a1; a2; a3; a4] [b1; b2; b3; b4] t
        (spin4 (tminus da (swap_ket xa)) (tminus db (swap_ket xb)) ab (swap_both ba)
          (tneg (swap_ket x)) (tneg (swap_bra y))).
  Proof.
    intros S1 S2 S3 S4 S5 S6 S7 S8. unfold raw_block.
    rewrite (ttrans_ket K _ _ _ _ _ S2); cbn [bindo].
    destruct (tsub_spec da (swap_ket xa)) as (u & E & Su & Hu); [cbn; rewrite S1, S2; reflexivity|].
    rewrite E; cbn [bindo]. rewrite (ttrans_ket K _ _ _ _ _ S4); cbn [bindo].
    destruct (tsub_spec db (swap_ket xb)) as (w & E' & Sw & Hw); [cbn; rewrite S3, S4; reflexivity|].
    rewrite E'; cbn [bindo].
    rewrite (ttrans_both K _ _ _ _ _ S6); cbn [bindo].
    rewrite (ttrans_ket K _ _ _ _ _ S7); cbn [bindo].
    rewrite (ttrans_bra K _ _ _ _ _ S8); cbn [bindo].
    destruct (block_holds K u w ab (swap_both ba) (tneg (swap_ket x)) (tneg (swap_bra y))
      a1 a2 a3 a4 b1 b2 b3 b4) as (t & Et & H); cbn; rewrite ?S6, ?S7, ?S8; cbn; try congruence.
    exists t. split; [exact Et|]. eapply holds_ext; [exact H|].
    intros ss idx Hs _.
    destruct ss as [|[] [|[] [|[] [|[] [|]]]]]; try discriminate Hs; cbn [spin4];
      first [reflexivity | apply Hu | apply Hw].
  Qed.

  Lemma int_to_spin_holds (Ia Ib J : two_e_full K) noa nva nob nvb :
    two_e_full_ok noa nva noa nva Ia -> two_e_full_ok nob nvb nob nvb Ib ->
    two_e_full_ok noa nva nob nvb J ->
    exists I, int_to_spin Ia Ib J noa nva nob nvb = Some I /\
      int_blocks (anti_of Ia) (anti_of Ib) J noa nva nob nvb I.
  Proof.
    intros (A1 & A2 & A3 & A4 & A5 & A6 & A7 & A8 & A9 & A10 & A11 & A12 & A13 & A14 & A15 & A16)
           (B1 & B2 & B3 & B4 & B5 & B6 & B7 & B8 & B9 & B10 & B11 & B12 & B13 & B14 & B15 & B16)
           (J1 & J2 & J3 & J4 & J5 & J6 & J7 & J8 & J9 & J10 & J11 & J12 & J13 & J14 & J15 & J16).
    unfold int_to_spin, int_blocks. cbv zeta.
    destruct (raw_block_holds _ _ _ _ _ _ _ _ _ _ _ _ _ _ _ _ A1 A1 B1 B1 J1 J1 J1 J1) as (t1 & E1 & H1).
    destruct (raw_block_holds _ _ _ _ _ _ _ _ _ _ _ _ _ _ _ _ A2 A3 B2 B3 J2 J3 J3 J2) as (t2 & E2 & H2).
    destruct (raw_block_holds _ _ _ _ _ _ _ _ _ _ _ _ _ _ _ _ A4 A4 B4 B4 J4 J5 J4 J5) as (t3 & E3 & H3).
    destruct (raw_block_holds _ _ _ _ _ _ _ _ _ _ _ _ _ _ _ _ A6 A6 B6 B6 J6 J6 J6 J6) as (t4 & E4 & H4).
    destruct (raw_block_holds _ _ _ _ _ _ _ _ _ _ _ _ _ _ _ _ A7 A8 B7 B8 J7 J10 J8 J9) as (t5 & E5 & H5).
    destruct (raw_block_holds _ _ _ _ _ _ _ _ _ _ _ _ _ _ _ _ A11 A11 B11 B11 J11 J11 J11 J11) as (t6 & E6 & H6).
    destruct (raw_block_holds _ _ _ _ _ _ _ _ _ _ _ _ _ _ _ _ A15 A15 B15 B15 J15 J14 J15 J14) as (t7 & E7 & H7).
    destruct (raw_block_holds _ _ _ _ _ _ _ _ _ _ _ _ _ _ _ _ A12 A13 B12 B13 J12 J13 J13 J12) as (t8 & E8 & H8).
    destruct (raw_block_holds _ _ _ _ _ _ _ _ _ _ _ _ _ _ _ _ A16 A16 B16 B16 J16 J16 J16 J16) as (t9 & E9 & H9).
    rewrite E1; cbn [bindo]. rewrite E2; cbn [bindo]. rewrite E3; cbn [bindo].
    rewrite E4; cbn [bindo]. rewrite E5; cbn [bindo]. rewrite E6; cbn [bindo].
    rewrite E7; cbn [bindo]. rewrite E8; cbn [bindo]. rewrite E9; cbn [bindo].
    eexists. split; [reflexivity|]. cbn [vvvv vvvo vovv vvoo vovo oovv vooo ooov oooo anti_of].
    split; [exact H1|]. split; [exact H2|]. split; [exact H3|]. split; [exact H4|].
    split; [exact H5|]. split; [exact H6|]. split; [exact H7|]. split; [exact H8|exact H9].
  Qed.

  Lemma anti_of_shape no nv (I : two_e_full K) : two_e_full_ok no nv no nv I ->
    two_e_shape no nv (anti_of I).
  Proof.
    intros (J1 & J2 & J3 & J4 & J5 & J6 & J7 & J8 & J9 & J10 & J11 & J12 & J13 & J14 & J15 & J16).
    repeat split; assumption.
  Qed.

  (** entries related by the pair symmetry *)
  Lemma swap_entry (t u : T) a b c d i j k l : teq t (swap_both u) -> shp t = [a; b; c; d] ->
    (i < a)%nat -> (j < b)%nat -> (k < c)%nat -> (l < d)%nat ->
    dat t [i; j; k; l] = dat u [j; i; l; k].
  Proof. intros [_ H] S H1 H2 H3 H4. apply H. rewrite S. repeat constructor; assumption. Qed.

  Lemma anti_tail (t : T) a b c : shp t = [a; b; c; c] -> antisym_tail (tminus t (swap_ket t)).
  Proof. intros _ i j k l _. cbn. ring. Qed.
  Lemma anti_lead (t u : T) a c d : shp t = [a; a; c; d] -> shp u = [a; a; d; c] ->
    teq u (swap_both t) -> antisym_lead (tminus t (swap_ket u)).
  Proof.
    intros S Su H i j k l Hr. cbn in *. rewrite S in Hr. apply inr4 in Hr.
    destruct Hr as (H1 & H2 & H3 & H4).
    rewrite !(swap_entry u t a a d c _ _ _ _ H Su) by assumption. ring.
  Qed.

  Lemma anti_of_ok no nv (I : two_e_full K) : two_e_full_ok no nv no nv I -> pair_sym_full I ->
    two_e_ok no nv (anti_of I).
  Proof.
    intros HI (P1 & P2 & P3 & P4 & P5 & P6 & P7 & P8 & P9 & P10).
    split; [apply anti_of_shape; exact HI|].
    destruct HI as
      (J1 & J2 & J3 & J4 & J5 & J6 & J7 & J8 & J9 & J10 & J11 & J12 & J13 & J14 & J15 & J16).
    repeat split; cbn [anti_of vvvv vvvo vovv vvoo vovo oovv vooo ooov oooo];
      (eapply anti_tail || eapply anti_lead); eassumption.
  Qed.

  Lemma same_blocks (Ia Ib : two_e K) (J : two_e_full K) noa nva nob nvb I I' :
    int_blocks Ia Ib J noa nva nob nvb I -> int_blocks Ia Ib J noa nva nob nvb I' ->
    same_two_e I I'.
  Proof.
    intros (H1 & H2 & H3 & H4 & H5 & H6 & H7 & H8 & H9)
      (G1 & G2 & G3 & G4 & G5 & G6 & G7 & G8 & G9).
    unfold same_two_e.
    repeat match goal with |- _ /\ _ => split end; (eapply holds_teq; [eassumption|eassumption|auto]).
  Qed.

  Lemma int_to_spin_anti (Ia Ib J : two_e_full K) noa nva nob nvb :
    two_e_full_ok noa nva noa nva Ia -> two_e_full_ok nob nvb nob nvb Ib ->
    two_e_full_ok noa nva nob nvb J ->
    exists I I', int_to_spin Ia Ib J noa nva nob nvb = Some I /\
      int_to_spin2 (anti_of Ia) (anti_of Ib) J noa nva nob nvb = Some I' /\ same_two_e I I' /\
      (pair_sym_full Ia -> pair_sym_full Ib ->
       two_e_ok (noa + nob) (nva + nvb) I /\ conserves_two_e noa nva I).
  Proof.
    intros HA HB HJ. destruct (int_to_spin_holds _ _ _ _ _ _ _ HA HB HJ) as (I & E & H).
    destruct (int_to_spin2_holds K _ _ _ _ _ _ _ (anti_of_shape _ _ _ HA) (anti_of_shape _ _ _ HB)
      HJ) as (I' & E' & H').
    exists I, I'. split; [exact E|]. split; [exact E'|].
    split; [exact (same_blocks _ _ _ _ _ _ _ _ _ H H')|].
    intros PA PB. eapply int_blocks_ok; [| |exact H]; apply anti_of_ok; assumption.
  Qed.

  (** *** C41 *)
  Lemma T1_retract (t : T) noa nva nob nvb : shp t = [nva + nvb; noa + nob]%nat ->
    conserves2 nva noa t ->
    exists a b t', T1_to_spatial t noa nva nob nvb = Some (a, b) /\
      T1_to_spin a b noa nva nob nvb = Some t' /\ teq t' t.
  Proof.
    intros S C. pose proof (holds_self K [nva; noa] [nvb; nob] t S eq_refl) as H.
    destruct (holds_slice K _ _ _ _ [false; false] H eq_refl) as (a & Ea & Sa & Ha).
    destruct (holds_slice K _ _ _ _ [true; true] H eq_refl) as (b & Eb & Sb & Hb).
    cbn [sides combine map side fst snd] in *.
    destruct (T1_to_spin_holds K a b noa nva nob nvb Sa Sb) as (t' & E' & H').
    exists a, b, t'. split; [|split; [exact E'|]].
    - unfold T1_to_spatial. rewrite Ea; cbn [bindo]. rewrite Eb. reflexivity.
    - eapply holds_teq; [exact H'|exact H|]. intros ss idx Hs Hi.
      destruct ss as [|s1 [|s2 [|]]]; try discriminate Hs. cbn [dat].
      assert (Hd : s1 <> s2 -> dat t (ats [nva; noa] [s1; s2] idx) = 0).
      { intros Hne. cbn in Hi. destruct (idx2 _ _ _ Hi) as (i & j & ->). apply inr2 in Hi.
        destruct Hi as [L1 L2]. cbn. apply C.
        - rewrite S. apply inr2. unfold at_spin, side_len in *. destruct s1, s2; lia.
        - rewrite (is_beta_at _ _ _ _ L1), (is_beta_at _ _ _ _ L2).
          destruct s1, s2; congruence. }
      destruct s1, s2; cbn [spin2].
      + apply Hb. exact Hi.
      + symmetry. apply Hd. discriminate.
      + symmetry. apply Hd. discriminate.
      + apply Ha. exact Hi.
  Qed.

  Lemma T2_retract (t : T) noa nva nob nvb : t2_ok (noa + nob) (nva + nvb) t ->
    conserves4 nva nva noa noa t ->
    exists aa ab bb t', T2_to_spatial t noa nva nob nvb = Some (aa, ab, bb) /\
      T2_to_spin aa ab bb noa nva nob nvb = Some t' /\ teq t' t.
  Proof.
    intros (S & A1 & A2) C.
    pose proof (holds_self K [nva; nva; noa; noa] [nvb; nvb; nob; nob] t S eq_refl) as H.
    destruct (holds_slice K _ _ _ _ [false; false; false; false] H eq_refl) as (a & Ea & Sa & Ha).
    destruct (holds_slice K _ _ _ _ [false; true; false; true] H eq_refl) as (c & Ec & Sc & Hc).
    destruct (holds_slice K _ _ _ _ [true; true; true; true] H eq_refl) as (b & Eb & Sb & Hb).
    cbn [sides combine map side fst snd] in *.
    destruct (T2_to_spin_holds K a c b noa nva nob nvb Sa Sc Sb) as (t' & E' & H').
    exists a, c, b, t'. split; [|split; [exact E'|]].
    - unfold T2_to_spatial. rewrite Ea; cbn [bindo]. rewrite Eb; cbn [bindo]. rewrite Ec. reflexivity.
    - eapply holds_teq; [exact H'|exact H|]. intros ss idx Hs Hi.
      destruct ss as [|s1 [|s2 [|s3 [|s4 [|]]]]]; try discriminate Hs.
      cbn [sels] in Hi. destruct (idx4 _ _ _ _ _ Hi) as (i & j & k & l & ->).
      apply inr4 in Hi. destruct Hi as (L1 & L2 & L3 & L4). cbn [dat].
      assert (Hr : inrange (shp t)
        (ats [nva; nva; noa; noa] [s1; s2; s3; s4] [i; j; k; l])).
      { rewrite S. cbn [ats]. apply inr4. unfold at_spin, side_len in *. destruct s1, s2, s3, s4; lia. }
      assert (Hd : ((if s1 then 1 else 0) + (if s2 then 1 else 0) <>
          (if s3 then 1 else 0) + (if s4 then 1 else 0))%nat ->
          dat t (ats [nva; nva; noa; noa] [s1; s2; s3; s4] [i; j; k; l]) = 0).
      { intros Hne. cbn [ats] in *. apply C; [exact Hr|].
        rewrite (is_beta_at _ _ _ _ L1), (is_beta_at _ _ _ _ L2), (is_beta_at _ _ _ _ L3),
          (is_beta_at _ _ _ _ L4). exact Hne. }
      destruct s1, s2, s3, s4; cbn [spin4_anti spin4]; try (symmetry; apply Hd; discriminate);
        unfold side_len in *.
      + apply Hb. apply inr4. auto.
      + cbn in *. rewrite Hc by (apply inr4; auto). cbn.
        rewrite (A1 _ _ _ _ Hr). rewrite (A2 j); [cbn; ring|].
        rewrite S. apply inr4. lia.
      + cbn in *. rewrite Hc by (apply inr4; auto). cbn. rewrite (A1 _ _ _ _ Hr). cbn. ring.
      + cbn in *. rewrite Hc by (apply inr4; auto). cbn. rewrite (A2 _ _ _ _ Hr). cbn. ring.
      + cbn in *. rewrite Hc by (apply inr4; auto). reflexivity.
      + apply Ha. apply inr4. auto.
  Qed.
End Round.
