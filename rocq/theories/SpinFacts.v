(** Entries of the arrays built by spin_utils.py. *)
From Coq Require Import List Bool Arith Lia Ring.
From Verif Require Import Scalar Tensor PySyntax PySem CCProg SymSound CCSpec NpModel SpinModel SpinSpec.
Import ListNotations.

Lemma len_upto a b : sl_len (Upto a) (a + b) = a.
Proof. simpl. lia. Qed.
Lemma len_from a b : sl_len (From a) (a + b) = b.
Proof. simpl. lia. Qed.
Lemma lo_upto a d : sl_lo (Upto a) d = 0.
Proof. reflexivity. Qed.
Lemma lo_from a b : sl_lo (From a) (a + b) = a.
Proof. simpl. lia. Qed.

Definition side (s : bool) (n : nat) : sl := if s then From n else Upto n.

Lemma len_side s a b : sl_len (side s a) (a + b) = side_len s a b.
Proof. destruct s; simpl; lia. Qed.
Lemma lo_side s a b : sl_lo (side s a) (a + b) = if s then a else 0.
Proof. destruct s; simpl; lia. Qed.

Definition sides (ss : list bool) (na : list nat) : list sl := map (fun p => side (fst p) (snd p)) (combine ss na).
Fixpoint bools_eqb (a b : list bool) : bool :=
  match a, b with [], [] => true | x :: a', y :: b' => eqb x y && bools_eqb a' b' | _, _ => false end.

Lemma sl_lens_sides ss : forall na nb, List.length ss = List.length na -> List.length nb = List.length na ->
  sl_lens (sides ss na) (sums na nb) = sels ss na nb.
Proof.
  induction ss as [|s ss IH]; intros [|a na] [|b nb]; simpl; try discriminate; auto.
  intros H1 H2. unfold sides in *. f_equal; auto. apply len_side.
Qed.

Lemma sl_in_sides ts : forall ss na nb idx, List.length ss = List.length na ->
  List.length ts = List.length na -> List.length nb = List.length na ->
  inrange (sels ss na nb) idx ->
  sl_in (sides ts na) (sums na nb) (ats na ss idx) = if bools_eqb ts ss then Some idx else None.
Proof.
  induction ts as [|t ts IH]; intros [|s ss] [|a na] [|b nb] idx; simpl; try discriminate; auto.
  - intros _ _ _ H. inversion H; auto.
  - intros H1 H2 H3 H. inversion H as [|i ? idx' ? H4 H5]; subst.
    change (map _ _) with (sides ts na). cbn [fst snd sl_in].
    rewrite IH by auto. rewrite lo_side, len_side. simpl.
    destruct t, s; unfold at_spin, side_len in *; simpl.
    + replace (Nat.leb a (a + i)) with true by (symmetry; apply Nat.leb_le; lia).
      replace (Nat.ltb (a + i) (a + b)) with true by (symmetry; apply Nat.ltb_lt; lia). simpl.
      destruct (bools_eqb ts ss); auto. do 2 f_equal. lia.
    + replace (Nat.leb a i) with false by (symmetry; apply Nat.leb_gt; lia). reflexivity.
    + replace (Nat.ltb (a + i) a) with false by (symmetry; apply Nat.ltb_ge; lia). reflexivity.
    + replace (Nat.ltb i a) with true by (symmetry; apply Nat.ltb_lt; lia).
      destruct (bools_eqb ts ss); auto. do 2 f_equal. lia.
Qed.

(** all spin patterns *)
Fixpoint spin_list (n : nat) : list (list bool) :=
  match n with
  | O => [[]]
  | S n' => map (cons false) (spin_list n') ++ map (cons true) (spin_list n')
  end.

Section Facts.
  Variable K : cring.
  Local Open Scope K_scope.
  Add Ring Kr9 : (c_th K).

  Lemma holds_zeros na nb : List.length nb = List.length na ->
    holds (K := K) na nb (tzeros K (sums na nb)) (fun _ => None).
  Proof. intros H. split; [reflexivity|]. split; [exact H|]. reflexivity. Qed.

  Lemma sums_length na : forall nb, List.length nb = List.length na ->
    List.length (sums na nb) = List.length na.
  Proof. induction na as [|a na IH]; intros [|b nb]; simpl; try discriminate; auto. Qed.

  Lemma holds_set na nb (t : tensor K) b ts u : holds na nb t b -> List.length ts = List.length na ->
    shp u = sels ts na nb ->
    exists t', tset (sides ts na) u t = Some t' /\
      holds na nb t' (fun ss => if bools_eqb ts ss then Some u else b ss).
  Proof.
    intros (H1 & HL & H2) Ht Hu. unfold tset. rewrite H1.
    assert (E : List.length (sides ts na) = List.length (sums na nb)).
    { unfold sides. rewrite map_length, combine_length, sums_length by auto. lia. }
    rewrite E, Nat.eqb_refl, sl_lens_sides, Hu, shape_eqb_refl by auto. simpl.
    eexists. split; [reflexivity|]. split; [reflexivity|]. split; [exact HL|].
    intros ss idx Hs Hi. cbn [dat]. rewrite sl_in_sides by auto.
    destruct (bools_eqb ts ss); auto.
  Qed.

  (** any in-range index is a spin pattern and an index into the block *)
  Fixpoint spins (na idx : list nat) : list bool :=
    match na, idx with a :: na', i :: idx' => Nat.leb a i :: spins na' idx' | _, _ => [] end.
  Fixpoint locs (na idx : list nat) : list nat :=
    match na, idx with
    | a :: na', i :: idx' => (if Nat.leb a i then i - a else i)%nat :: locs na' idx'
    | _, _ => [] end.
  Lemma spin_split na : forall nb idx, List.length nb = List.length na -> inrange (sums na nb) idx ->
    idx = ats na (spins na idx) (locs na idx) /\ List.length (spins na idx) = List.length na /\
    inrange (sels (spins na idx) na nb) (locs na idx).
  Proof.
    induction na as [|a na IH]; intros [|b nb] idx; simpl; try discriminate;
      intros HL H; inversion H as [|i ? idx' ? H4 H5]; subst.
    - repeat split. constructor.
    - destruct (IH nb idx') as (E1 & E2 & E3); auto. simpl. rewrite <- E1, E2.
      destruct (Nat.leb_spec a i); simpl.
      + repeat split; [f_equal; lia|]. constructor; [lia|auto].
      + repeat split. constructor; [lia|auto].
  Qed.

  Lemma spin_split_sp ss : forall na nb idx, List.length ss = List.length na ->
    List.length nb = List.length na -> inrange (sels ss na nb) idx ->
    spins na (ats na ss idx) = ss /\ locs na (ats na ss idx) = idx.
  Proof.
    induction ss as [|s ss IH]; intros [|a na] [|b nb] idx; simpl; try discriminate;
      intros H1 H2 H; inversion H as [|i ? idx' ? H4 H5]; subst; auto.
    destruct (IH na nb idx') as (E1 & E2); auto. simpl. rewrite E1, E2.
    unfold at_spin. destruct s; simpl in *.
    - destruct (Nat.leb_spec a (a + i)); [|lia]. split; auto. f_equal. lia.
    - destruct (Nat.leb_spec a i); [lia|]. auto.
  Qed.

  Lemma ats_range ss : forall na nb idx, List.length ss = List.length na ->
    List.length nb = List.length na -> inrange (sels ss na nb) idx ->
    inrange (sums na nb) (ats na ss idx).
  Proof.
    induction ss as [|s ss IH]; intros [|a na] [|b nb] idx; simpl; try discriminate;
      intros H1 H2 H; inversion H as [|i ? idx' ? H4 H5]; subst; constructor; auto.
    - unfold at_spin, side_len in *. destruct s; lia.
    - apply IH; auto.
  Qed.

  Lemma holds_slice na nb (t : tensor K) b ts : holds na nb t b -> List.length ts = List.length na ->
    exists u, tslice (sides ts na) t = Some u /\ shp u = sels ts na nb /\
      forall idx, inrange (sels ts na nb) idx ->
        dat u idx = match b ts with Some w => dat w idx | None => 0 end.
  Proof.
    intros (H1 & HL & H2) Ht. unfold tslice. rewrite H1.
    assert (E : List.length (sides ts na) = List.length (sums na nb)).
    { unfold sides. rewrite map_length, combine_length, sums_length by auto. lia. }
    rewrite E, Nat.eqb_refl. eexists. split; [reflexivity|]. cbn [shp dat].
    split; [apply sl_lens_sides; auto|].
    intros idx Hi. rewrite <- H2 by auto. f_equal. clear - HL Ht Hi.
    revert na nb idx HL Ht Hi. induction ts as [|s ss IH]; intros [|a na] [|b nb] idx; simpl;
      try discriminate; auto. intros HL Ht Hi.
    inversion Hi as [|i ? idx' ? H4 H5]; subst. cbn. f_equal.
    - unfold at_spin. destruct s; simpl; lia.
    - apply IH; auto.
  Qed.

  (** every array holds its own slices *)
  Lemma holds_self na nb (t : tensor K) : shp t = sums na nb -> List.length nb = List.length na ->
    holds na nb t (fun ss => Some (mkT (sels ss na nb) (fun idx => dat t (ats na ss idx)))).
  Proof. intros H HL. split; [auto|]. split; auto. Qed.

  Lemma holds_ext na nb (t : tensor K) b c : holds na nb t b ->
    (forall ss idx, List.length ss = List.length na -> inrange (sels ss na nb) idx ->
      match b ss with Some u => dat u idx | None => 0 end =
      match c ss with Some u => dat u idx | None => 0 end) -> holds na nb t c.
  Proof.
    intros (H1 & HL & H2) H. split; auto. split; auto. intros ss idx Hs Hi.
    rewrite H2, H; auto.
  Qed.

  (** arrays with the same content are equal *)
  Lemma holds_teq na nb (t u : tensor K) b c : holds na nb t b -> holds na nb u c ->
    (forall ss idx, List.length ss = List.length na -> inrange (sels ss na nb) idx ->
      match b ss with Some w => dat w idx | None => 0 end =
      match c ss with Some w => dat w idx | None => 0 end) -> teq t u.
  Proof.
    intros (H1 & HL & H2) (H3 & _ & H4) H. split; [congruence|]. intros idx Hi.
    rewrite H1 in Hi. destruct (spin_split na nb idx HL Hi) as (E1 & E2 & E3).
    rewrite E1, H2, H4, H; auto.
  Qed.

  (** transposes of rank-4 arrays *)
  Lemma ttrans_both (t : tensor K) a b c d : shp t = [a; b; c; d]%nat ->
    ttrans [1; 0; 3; 2]%nat t = Some (swap_both t).
  Proof. intros H. unfold ttrans, swap_both, swap. rewrite H. reflexivity. Qed.
  Lemma ttrans_ket (t : tensor K) a b c d : shp t = [a; b; c; d]%nat ->
    ttrans [0; 1; 3; 2]%nat t = Some (swap_ket t).
  Proof. intros H. unfold ttrans, swap_ket, swap. rewrite H. reflexivity. Qed.
  Lemma ttrans_bra (t : tensor K) a b c d : shp t = [a; b; c; d]%nat ->
    ttrans [1; 0; 2; 3]%nat t = Some (swap_bra t).
  Proof. intros H. unfold ttrans, swap_bra, swap. rewrite H. reflexivity. Qed.

  Lemma spin_cases (P : list bool -> Prop) n :
    Forall P (spin_list n) -> forall ss, List.length ss = n -> P ss.
  Proof.
    intros H ss E. rewrite Forall_forall in H. apply H. clear - E.
    revert n E. induction ss as [|s ss IH]; intros n E; subst; simpl; auto.
    apply in_or_app. destruct s; [right|left]; apply in_map; auto.
  Qed.

  Lemma holds_ext_pat na nb t (b c : list bool -> option (tensor K)) : holds na nb t b ->
    Forall (fun ss => b ss = c ss) (spin_list (List.length na)) -> holds na nb t c.
  Proof.
    intros H HF. eapply holds_ext; [exact H|]. intros ss idx Hs Hi.
    rewrite (spin_cases _ _ HF ss Hs). reflexivity.
  Qed.

  (** rank 2 *)
  Lemma set2_holds (A B : tensor K) a1 a2 b1 b2 : shp A = [a1; a2]%nat -> shp B = [b1; b2]%nat ->
    exists t t', tset [Upto a1; Upto a2] A (tzeros K [a1 + b1; a2 + b2]%nat) = Some t /\
      tset [From a1; From a2] B t = Some t' /\
      holds [a1; a2]%nat [b1; b2]%nat t' (spin2 A B).
  Proof.
    intros HA HB.
    destruct (holds_set [a1; a2] [b1; b2] _ _ [false; false] A
                (holds_zeros [a1; a2] [b1; b2] eq_refl) eq_refl HA) as (t & E & H).
    destruct (holds_set _ _ _ _ [true; true] B H eq_refl HB) as (t' & E' & H').
    exists t, t'. split; [exact E|]. split; [exact E'|].
    eapply holds_ext_pat; [exact H'|]. repeat constructor.
  Qed.

  Lemma T1_to_spin_holds (Ta Tb : tensor K) noa nva nob nvb :
    shp Ta = [nva; noa] -> shp Tb = [nvb; nob] ->
    exists t, T1_to_spin Ta Tb noa nva nob nvb = Some t /\
      holds [nva; noa] [nvb; nob] t (spin2 Ta Tb).
  Proof.
    intros HA HB. destruct (set2_holds Ta Tb _ _ _ _ HA HB) as (t & t' & E & E' & H).
    exists t'. split; [|exact H]. unfold T1_to_spin. rewrite E. cbn [bindo]. rewrite E'.
    reflexivity.
  Qed.

  Lemma F_to_spin_holds (Fa Fb : one_e K) noa nva nob nvb :
    one_e_ok noa nva Fa -> one_e_ok nob nvb Fb ->
    exists F, F_to_spin Fa Fb noa nva nob nvb = Some F /\
      holds [noa; noa] [nob; nob] (oo F) (spin2 (oo Fa) (oo Fb)) /\
      holds [noa; nva] [nob; nvb] (ov F) (spin2 (ov Fa) (ov Fb)) /\
      holds [nva; noa] [nvb; nob] (vo F) (spin2 (vo Fa) (vo Fb)) /\
      holds [nva; nva] [nvb; nvb] (vv F) (spin2 (vv Fa) (vv Fb)).
  Proof.
    intros (A1 & A2 & A3 & A4) (B1 & B2 & B3 & B4). unfold F_to_spin.
    destruct (set2_holds _ _ _ _ _ _ A1 B1) as (t1 & u1 & E1 & G1 & H1).
    destruct (set2_holds _ _ _ _ _ _ A2 B2) as (t2 & u2 & E2 & G2 & H2).
    destruct (set2_holds _ _ _ _ _ _ A3 B3) as (t3 & u3 & E3 & G3 & H3).
    destruct (set2_holds _ _ _ _ _ _ A4 B4) as (t4 & u4 & E4 & G4 & H4).
    rewrite E1; cbn [bindo]. rewrite G1; cbn [bindo].
    rewrite E2; cbn [bindo]. rewrite G2; cbn [bindo].
    rewrite E3; cbn [bindo]. rewrite G3; cbn [bindo].
    rewrite E4; cbn [bindo]. rewrite G4; cbn [bindo].
    eexists. split; [reflexivity|]. auto.
  Qed.

  (** rank 4: six assignments, in any order *)
  Lemma block_holds (aaaa bbbb abab baba abba baab : tensor K) a1 a2 a3 a4 b1 b2 b3 b4 :
    shp aaaa = [a1; a2; a3; a4]%nat -> shp bbbb = [b1; b2; b3; b4]%nat ->
    shp abab = [a1; b2; a3; b4]%nat -> shp baba = [b1; a2; b3; a4]%nat ->
    shp abba = [a1; b2; b3; a4]%nat -> shp baab = [b1; a2; a3; b4]%nat ->
    exists t, int_to_spin_block aaaa bbbb abab baba abba baab a1 a2 a3 a4 b1 b2 b3 b4 = Some t /\
      holds [a1; a2; a3; a4]%nat [b1; b2; b3; b4]%nat t (spin4 aaaa bbbb abab baba abba baab).
  Proof.
    intros S1 S2 S3 S4 S5 S6. unfold int_to_spin_block.
    destruct (holds_set [a1; a2; a3; a4] [b1; b2; b3; b4] _ _ [false; false; false; false] _
      (holds_zeros [a1; a2; a3; a4] [b1; b2; b3; b4] eq_refl) eq_refl S1) as (t1 & E1 & H1).
    change (sides _ _) with [Upto a1; Upto a2; Upto a3; Upto a4] in E1. cbn [sums] in E1.
    rewrite E1; cbn [bindo].
    destruct (holds_set _ _ _ _ [true; true; true; true] _ H1 eq_refl S2) as (t2 & E2 & H2).
    change (sides _ _) with [From a1; From a2; From a3; From a4] in E2. rewrite E2; cbn [bindo].
    destruct (holds_set _ _ _ _ [false; true; false; true] _ H2 eq_refl S3) as (t3 & E3 & H3).
    change (sides _ _) with [Upto a1; From a2; Upto a3; From a4] in E3. rewrite E3; cbn [bindo].
    destruct (holds_set _ _ _ _ [false; true; true; false] _ H3 eq_refl S5) as (t4 & E4 & H4).
    change (sides _ _) with [Upto a1; From a2; From a3; Upto a4] in E4. rewrite E4; cbn [bindo].
    destruct (holds_set _ _ _ _ [true; false; false; true] _ H4 eq_refl S6) as (t5 & E5 & H5).
    change (sides _ _) with [From a1; Upto a2; Upto a3; From a4] in E5. rewrite E5; cbn [bindo].
    destruct (holds_set _ _ _ _ [true; false; true; false] _ H5 eq_refl S4) as (t6 & E6 & H6).
    change (sides _ _) with [From a1; Upto a2; From a3; Upto a4] in E6. rewrite E6; cbn [bindo].
    eexists. split; [reflexivity|]. eapply holds_ext_pat; [exact H6|]. repeat constructor.
  Qed.

  Lemma T2_to_spin_holds (Taa Tab Tbb : tensor K) noa nva nob nvb :
    shp Taa = [nva; nva; noa; noa] -> shp Tab = [nva; nvb; noa; nob] ->
    shp Tbb = [nvb; nvb; nob; nob] ->
    exists t, T2_to_spin Taa Tab Tbb noa nva nob nvb = Some t /\
      holds [nva; nva; noa; noa] [nvb; nvb; nob; nob] t (spin4_anti Taa Tab Tbb).
  Proof.
    intros S1 S3 S2. unfold T2_to_spin.
    destruct (holds_set [nva; nva; noa; noa] [nvb; nvb; nob; nob] _ _ [false; false; false; false] _
      (holds_zeros [nva; nva; noa; noa] [nvb; nvb; nob; nob] eq_refl) eq_refl S1) as (t1 & E1 & H1).
    change (sides _ _) with [Upto nva; Upto nva; Upto noa; Upto noa] in E1. cbn [sums] in E1.
    rewrite E1; cbn [bindo].
    destruct (holds_set _ _ _ _ [true; true; true; true] _ H1 eq_refl S2) as (t2 & E2 & H2).
    change (sides _ _) with [From nva; From nva; From noa; From noa] in E2. rewrite E2; cbn [bindo].
    destruct (holds_set _ _ _ _ [false; true; false; true] _ H2 eq_refl S3) as (t3 & E3 & H3).
    change (sides _ _) with [Upto nva; From nva; Upto noa; From noa] in E3. rewrite E3; cbn [bindo].
    rewrite (ttrans_both _ _ _ _ _ S3); cbn [bindo].
    assert (S4 : shp (swap_both Tab) = [nvb; nva; nob; noa]) by (cbn; rewrite S3; reflexivity).
    destruct (holds_set _ _ _ _ [true; false; true; false] _ H3 eq_refl S4) as (t4 & E4 & H4).
    change (sides _ _) with [From nva; Upto nva; From noa; Upto noa] in E4. rewrite E4; cbn [bindo].
    rewrite (ttrans_ket _ _ _ _ _ S3); cbn [bindo].
    assert (S5 : shp (tneg (swap_ket Tab)) = [nva; nvb; nob; noa]) by (cbn; rewrite S3; reflexivity).
    destruct (holds_set _ _ _ _ [false; true; true; false] _ H4 eq_refl S5) as (t5 & E5 & H5).
    change (sides _ _) with [Upto nva; From nva; From noa; Upto noa] in E5. rewrite E5; cbn [bindo].
    rewrite (ttrans_bra _ _ _ _ _ S3); cbn [bindo].
    assert (S6 : shp (tneg (swap_bra Tab)) = [nvb; nva; noa; nob]) by (cbn; rewrite S3; reflexivity).
    destruct (holds_set _ _ _ _ [true; false; false; true] _ H5 eq_refl S6) as (t6 & E6 & H6).
    change (sides _ _) with [From nva; Upto nva; Upto noa; From noa] in E6. rewrite E6; cbn [bindo].
    eexists. split; [reflexivity|]. eapply holds_ext_pat; [exact H6|]. repeat constructor.
  Qed.

  Lemma anti_block_holds (aaaa bbbb ab ba x y : tensor K) a1 a2 a3 a4 b1 b2 b3 b4 :
    shp aaaa = [a1; a2; a3; a4]%nat -> shp bbbb = [b1; b2; b3; b4]%nat ->
    shp ab = [a1; b2; a3; b4]%nat -> shp ba = [a2; b1; a4; b3]%nat ->
    shp x = [a1; b2; a4; b3]%nat -> shp y = [a2; b1; a3; b4]%nat ->
    exists t, anti_block aaaa bbbb ab ba x y a1 a2 a3 a4 b1 b2 b3 b4 = Some t /\
      holds [a1; a2; a3; a4]%nat [b1; b2; b3; b4]%nat t
        (spin4 aaaa bbbb ab (swap_both ba) (tneg (swap_ket x)) (tneg (swap_bra y))).
  Proof.
    intros S1 S2 S3 S4 S5 S6. unfold anti_block.
    rewrite (ttrans_both _ _ _ _ _ S4); cbn [bindo].
    rewrite (ttrans_ket _ _ _ _ _ S5); cbn [bindo].
    rewrite (ttrans_bra _ _ _ _ _ S6); cbn [bindo].
    apply block_holds; auto; cbn; rewrite ?S4, ?S5, ?S6; reflexivity.
  Qed.

  (** what int_to_spin2 puts into each block *)
  Definition int_blocks (Ia Ib : two_e K) (J : two_e_full K) (noa nva nob nvb : nat) (I : two_e K)
    : Prop :=
    let h a1 a2 a3 a4 b1 b2 b3 b4 t aaaa bbbb ab ba x y :=
      holds [a1; a2; a3; a4]%nat [b1; b2; b3; b4]%nat t
        (spin4 aaaa bbbb ab (swap_both ba) (tneg (swap_ket x)) (tneg (swap_bra y))) in
    h nva nva nva nva nvb nvb nvb nvb (vvvv I) (vvvv Ia) (vvvv Ib)
      (fvvvv J) (fvvvv J) (fvvvv J) (fvvvv J) /\
    h nva nva nva noa nvb nvb nvb nob (vvvo I) (vvvo Ia) (vvvo Ib)
      (fvvvo J) (fvvov J) (fvvov J) (fvvvo J) /\
    h nva noa nva nva nvb nob nvb nvb (vovv I) (vovv Ia) (vovv Ib)
      (fvovv J) (fovvv J) (fvovv J) (fovvv J) /\
    h nva nva noa noa nvb nvb nob nob (vvoo I) (vvoo Ia) (vvoo Ib)
      (fvvoo J) (fvvoo J) (fvvoo J) (fvvoo J) /\
    h nva noa nva noa nvb nob nvb nob (vovo I) (vovo Ia) (vovo Ib)
      (fvovo J) (fovov J) (fvoov J) (fovvo J) /\
    h noa noa nva nva nob nob nvb nvb (oovv I) (oovv Ia) (oovv Ib)
      (foovv J) (foovv J) (foovv J) (foovv J) /\
    h nva noa noa noa nvb nob nob nob (vooo I) (vooo Ia) (vooo Ib)
      (fvooo J) (fovoo J) (fvooo J) (fovoo J) /\
    h noa noa noa nva nob nob nob nvb (ooov I) (ooov Ia) (ooov Ib)
      (fooov J) (foovo J) (foovo J) (fooov J) /\
    h noa noa noa noa nob nob nob nob (oooo I) (oooo Ia) (oooo Ib)
      (foooo J) (foooo J) (foooo J) (foooo J).

  Lemma int_to_spin2_holds (Ia Ib : two_e K) (J : two_e_full K) noa nva nob nvb :
    two_e_shape noa nva Ia -> two_e_shape nob nvb Ib -> two_e_full_ok noa nva nob nvb J ->
    exists I, int_to_spin2 Ia Ib J noa nva nob nvb = Some I /\
      int_blocks Ia Ib J noa nva nob nvb I.
  Proof.
    intros (A1 & A2 & A3 & A4 & A5 & A6 & A7 & A8 & A9)
           (B1 & B2 & B3 & B4 & B5 & B6 & B7 & B8 & B9)
           (J1 & J2 & J3 & J4 & J5 & J6 & J7 & J8 & J9 & J10 & J11 & J12 & J13 & J14 & J15 & J16).
    unfold int_to_spin2, int_blocks. cbv zeta.
    destruct (anti_block_holds _ _ _ _ _ _ _ _ _ _ _ _ _ _ A1 B1 J1 J1 J1 J1) as (t1 & E1 & H1).
    destruct (anti_block_holds _ _ _ _ _ _ _ _ _ _ _ _ _ _ A2 B2 J2 J3 J3 J2) as (t2 & E2 & H2).
    destruct (anti_block_holds _ _ _ _ _ _ _ _ _ _ _ _ _ _ A3 B3 J4 J5 J4 J5) as (t3 & E3 & H3).
    destruct (anti_block_holds _ _ _ _ _ _ _ _ _ _ _ _ _ _ A4 B4 J6 J6 J6 J6) as (t4 & E4 & H4).
    destruct (anti_block_holds _ _ _ _ _ _ _ _ _ _ _ _ _ _ A5 B5 J7 J10 J8 J9) as (t5 & E5 & H5).
    destruct (anti_block_holds _ _ _ _ _ _ _ _ _ _ _ _ _ _ A6 B6 J11 J11 J11 J11) as (t6 & E6 & H6).
    destruct (anti_block_holds _ _ _ _ _ _ _ _ _ _ _ _ _ _ A7 B7 J15 J14 J15 J14) as (t7 & E7 & H7).
    destruct (anti_block_holds _ _ _ _ _ _ _ _ _ _ _ _ _ _ A8 B8 J12 J13 J13 J12) as (t8 & E8 & H8).
    destruct (anti_block_holds _ _ _ _ _ _ _ _ _ _ _ _ _ _ A9 B9 J16 J16 J16 J16) as (t9 & E9 & H9).
    rewrite E1; cbn [bindo]. rewrite E2; cbn [bindo]. rewrite E3; cbn [bindo].
    rewrite E4; cbn [bindo]. rewrite E5; cbn [bindo]. rewrite E6; cbn [bindo].
    rewrite E7; cbn [bindo]. rewrite E8; cbn [bindo]. rewrite E9; cbn [bindo].
    eexists. split; [reflexivity|]. cbn [vvvv vvvo vovv vvoo vovo oovv vooo ooov oooo].
    repeat split; auto; try apply H1; try apply H2; try apply H3; try apply H4; try apply H5;
      try apply H6; try apply H7; try apply H8; try apply H9.
  Qed.
End Facts.
Arguments int_blocks {K}.
