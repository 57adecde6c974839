(** Terms whose factors are connected through their indices are additive for
    systems without interaction. *)
From Coq Require Import List Bool Arith ZArith Lia Ring String.
From Verif Require Import Scalar Tensor PySyntax PySem PySim Sym SymSound Norm CCProg CCSpec Engine
  CCShapes Public CovSpec Cov Rot.
Import ListNotations.

Definition mem_ix (i : ix) (l : list ix) : bool := existsb (ix_eqb i) l.
Definition absorb (fs : list (positive * list ix)) (seen : list ix) : list ix :=
  fold_left (fun s f => if existsb (fun i => mem_ix i s) (snd f) then snd f ++ s else s) fs seen.
Fixpoint iter_absorb (k : nat) (fs : list (positive * list ix)) (seen : list ix) : list ix :=
  match k with O => seen | S k' => iter_absorb k' fs (absorb fs seen) end.

Definition all_ix (r d : nat) : list ix := map X (seq 0 r) ++ map D (seq 0 d).

Definition size_chk (tb : list (positive * (unit * option (list space)))) (sh : list cls) (m : mono) : bool :=
  forallb (fac_typed tb sh (m_dm m)) (m_fs m) &&
  match all_ix (List.length sh) (List.length (m_dm m)) with
  | [] => false
  | i :: _ =>
      let s := iter_absorb (List.length (m_fs m)) (m_fs m) [i] in
      forallb (fun j => mem_ix j s) (all_ix (List.length sh) (List.length (m_dm m)))
  end.

Lemma mem_ix_In i l : mem_ix i l = true -> In i l.
Proof.
  unfold mem_ix. rewrite existsb_exists. intros (j & Hj & E). destruct (ix_eqb_spec i j); [subst; auto|discriminate].
Qed.

Section Side.
  Variable fs : list (positive * list ix).
  Variable side : ix -> bool.
  Hypothesis Hf : forall f, In f fs -> forall i j, In i (snd f) -> In j (snd f) -> side i = side j.
  Variable b : bool.

  Lemma absorb_side gs : incl gs fs -> forall s, (forall i, In i s -> side i = b) -> forall i, In i (absorb gs s) -> side i = b.
  Proof.
    unfold absorb. induction gs as [|g gs IH]; intros Hg s Hs i Hi; simpl in Hi; [auto|].
    revert i Hi. apply IH; [intros x Hx; apply Hg; right; auto|].
    destruct (existsb (fun i => mem_ix i s) (snd g)) eqn:E; [|auto].
    apply existsb_exists in E as (j & Hj & E). apply mem_ix_In in E.
    intros i Hi. apply in_app_or in Hi as [Hi|Hi]; [|auto].
    rewrite (Hf g (Hg g (or_introl eq_refl)) i j Hi Hj). auto.
  Qed.

  Lemma iter_side k : forall s, (forall i, In i s -> side i = b) -> forall i, In i (iter_absorb k fs s) -> side i = b.
  Proof.
    induction k as [|k IH]; intros s Hs i Hi; simpl in Hi; [auto|]. revert i Hi. apply IH.
    apply absorb_side; [apply incl_refl|auto].
  Qed.
End Side.

Section Size.
  Variable K : cring.
  Local Open Scope K_scope.
  Add Ring Kr_size : (c_th K).
  Variables nA nB : space -> nat.
  Notation nAB := (both nA nB).
  Notation dA := (sp_dim nA).
  Notation dB := (sp_dim nB).
  Notation dAB := (sp_dim nAB).

  Lemma dAB_sum c : dAB c = (dA c + dB c)%nat.
  Proof. destruct c as [[c|c|]|[[c|c|]|[c|c|]|]|]; reflexivity. Qed.

  Definition inA (cs : list cls) (xs : list nat) : Prop := Forall2 (fun x c => x < dA c)%nat xs cs.
  Definition inB (cs : list cls) (xs : list nat) : Prop := Forall2 (fun x c => dA c <= x)%nat xs cs.
  Fixpoint shiftc (cs : list cls) (xs : list nat) : list nat :=
    match cs, xs with c :: cs', x :: xs' => (dA c + x)%nat :: shiftc cs' xs' | _, _ => [] end.

  Lemma sum_A dm : forall g : list nat -> K,
    (forall ds, inrange (map dAB dm) ds -> ~ inA dm ds -> g ds = 0) ->
    sumL (map dAB dm) g = sumL (map dA dm) g.
  Proof.
    induction dm as [|c dm IH]; intros g Hg; cbn [map sumL]; [reflexivity|].
    rewrite dAB_sum, sumN_plus. rewrite (sumN_ext _ (dB c) _ (fun _ => 0)).
    - rewrite sumN_0. transitivity (sumN (dA c) (fun i => sumL (map dAB dm) (fun l => g (i :: l)))); [ring|].
      apply sumN_ext. intros i Hi. apply IH. intros ds Hd Hn. apply Hg.
      + constructor; [rewrite dAB_sum; lia|exact Hd].
      + intros Q. inversion Q; subst. auto.
    - intros i Hi. transitivity (sumL (map dAB dm) (fun _ : list nat => 0 : K)); [|apply sumL_0].
      apply sumL_ext. intros ds Hd. apply Hg; [constructor; [rewrite dAB_sum; lia|exact Hd]|].
      intros Q. inversion Q; subst. lia.
  Qed.

  Lemma sum_B dm : forall g : list nat -> K,
    (forall ds, inrange (map dAB dm) ds -> ~ inB dm ds -> g ds = 0) ->
    sumL (map dAB dm) g = sumL (map dB dm) (fun ds => g (shiftc dm ds)).
  Proof.
    induction dm as [|c dm IH]; intros g Hg; cbn [map sumL]; [reflexivity|].
    rewrite dAB_sum, sumN_plus. rewrite (sumN_ext _ (dA c) _ (fun _ => 0)).
    - rewrite sumN_0. transitivity (sumN (dB c) (fun i => sumL (map dAB dm) (fun l => g ((dA c + i)%nat :: l)))); [ring|].
      apply sumN_ext. intros i Hi. apply (IH (fun l => g ((dA c + i)%nat :: l))). intros ds Hd Hn. apply Hg.
      + constructor; [rewrite dAB_sum; lia|exact Hd].
      + intros Q. inversion Q; subst. auto.
    - intros i Hi. transitivity (sumL (map dAB dm) (fun _ : list nat => 0 : K)); [|apply sumL_0].
      apply sumL_ext. intros ds Hd. apply Hg; [constructor; [rewrite dAB_sum; lia|exact Hd]|].
      intros Q. inversion Q; subst. lia.
  Qed.

  (** a sum all of whose terms vanish unless all values lie on one side *)
  Lemma sum_AB dm (g : list nat -> K) : dm <> [] ->
    (forall ds, inrange (map dAB dm) ds -> ~ inA dm ds -> ~ inB dm ds -> g ds = 0) ->
    sumL (map dAB dm) g = sumL (map dA dm) g + sumL (map dB dm) (fun ds => g (shiftc dm ds)).
  Proof.
    destruct dm as [|c dm]; [congruence|]. intros _ Hg. cbn [map sumL shiftc].
    rewrite dAB_sum, sumN_plus. f_equal; apply sumN_ext; intros i Hi.
    - apply sum_A. intros ds Hd Hn. apply Hg.
      + constructor; [rewrite dAB_sum; lia|exact Hd].
      + intros Q. inversion Q; subst. auto.
      + intros Q. inversion Q; subst. lia.
    - apply (sum_B dm (fun l => g ((dA c + i)%nat :: l))). intros ds Hd Hn. apply Hg.
      + constructor; [rewrite dAB_sum; lia|exact Hd].
      + intros Q. inversion Q; subst. lia.
      + intros Q. inversion Q; subst. auto.
  Qed.

  Variables rA rB rho : positive -> list nat -> K.
  Variable tb : list (positive * (unit * option (list space))).
  Hypothesis Htb : Forall (sym_rel3 K unit nA nB nAB (fun _ x y z => x = z /\ y = z) (fun _ => dsum_array nA nB) rA rB rho) tb.

  Lemma shiftc_shifted l : forall xs, shiftc (map cl l) xs = shifted nA l xs.
  Proof.
    induction l as [|s l IH]; intros [|x xs]; try reflexivity. unfold shifted. cbn [map shiftc combine fst snd].
    rewrite sp_dim_cl. f_equal. apply IH.
  Qed.

  Lemma nth_shiftc cs : forall xs k c, nth_error cs k = Some c -> List.length xs = List.length cs ->
    nth k (shiftc cs xs) 0%nat = (dA c + nth k xs 0)%nat.
  Proof.
    induction cs as [|c' cs IH]; intros [|x xs] [|k] c H L; simpl in *; try discriminate.
    - congruence.
    - apply IH; auto.
  Qed.

  Section Term.
    Variables sh dm : list cls.

    Lemma typed_shift xs ds is : forall l, typed sh dm is (map cl l) = true ->
      List.length xs = List.length sh -> List.length ds = List.length dm ->
      map (look (shiftc sh xs) (shiftc dm ds)) is = shifted nA l (map (look xs ds) is).
    Proof.
      induction is as [|i is IH]; intros [|s l] H Lx Ld; simpl in H; try discriminate; [reflexivity|].
      destruct (ix_cls sh dm i) as [c|] eqn:E; [|discriminate]. destruct (Pos.eqb_spec (cl s) c) as [<-|]; [|discriminate].
      unfold shifted. cbn [map combine fst snd]. f_equal; [|apply IH; auto].
      destruct i as [k|k]; cbn [look ix_cls] in *; rewrite (nth_shiftc _ _ _ _ E) by auto; rewrite sp_dim_cl; reflexivity.
    Qed.

    Definition side (xs ds : list nat) (i : ix) : bool :=
      match ix_cls sh dm i with Some c => Nat.ltb (look xs ds i) (dA c) | None => true end.

    Lemma typed_side xs ds is b : forall l, typed sh dm is (map cl l) = true -> (forall i, In i is -> side xs ds i = b) ->
      if b then Forall2 (fun i s => i < nA s)%nat (map (look xs ds) is) l else Forall2 (fun i s => nA s <= i)%nat (map (look xs ds) is) l.
    Proof.
      induction is as [|i is IH]; intros [|s l] H Hs; simpl in H; try discriminate; [destruct b; constructor|].
      destruct (ix_cls sh dm i) as [c|] eqn:E; [|discriminate]. destruct (Pos.eqb_spec (cl s) c) as [<-|]; [|discriminate].
      specialize (IH l H (fun j Hj => Hs j (or_intror Hj))). pose proof (Hs i (or_introl eq_refl)) as Hi.
      unfold side in Hi. rewrite E, sp_dim_cl in Hi.
      destruct b; cbn [map]; constructor; auto; [apply Nat.ltb_lt|apply Nat.ltb_ge]; exact Hi.
    Qed.

    (** not all on one side: zero *)
    Lemma side_typed xs ds is l : typed sh dm is (map cl l) = true ->
      (Forall2 (fun i s => i < nA s)%nat (map (look xs ds) is) l -> forall i, In i is -> side xs ds i = true) /\
      (Forall2 (fun i s => nA s <= i)%nat (map (look xs ds) is) l -> forall i, In i is -> side xs ds i = false).
    Proof.
      revert l. induction is as [|i is IH]; intros [|s l] H; simpl in H; try discriminate; [split; intros _ ? []|].
      destruct (ix_cls sh dm i) as [c|] eqn:E; [|discriminate]. destruct (Pos.eqb_spec (cl s) c) as [<-|]; [|discriminate].
      destruct (IH l H) as (I1 & I2). split; intros F j Hj; cbn [map] in F; inversion F; subst;
        (destruct Hj as [<-|Hj]; [unfold side; rewrite E, sp_dim_cl|auto]).
      - apply Nat.ltb_lt. auto.
      - apply Nat.ltb_ge. auto.
    Qed.

    Lemma fac_mixed xs ds f : fac_typed tb sh dm f = true ->
      inrange (map dAB sh) xs -> inrange (map dAB dm) ds ->
      den_fac K rho xs ds f = 0 \/ forall i j, In i (snd f) -> In j (snd f) -> side xs ds i = side xs ds j.
    Proof.
      unfold fac_typed, den_fac. destruct f as [t is]. cbn [fst snd]. intros H Hx Hd.
      destruct (lookup_sym t tb) as [[[] [l|]]|] eqn:E; [| |discriminate].
      - apply lookup_in in E. rewrite Forall_forall in Htb. specialize (Htb _ E). unfold sym_rel3 in Htb. cbn [fst snd] in Htb.
        destruct Htb as (a & b & w & (_ & _ & _ & _ & _ & Z) & _ & _ & Ew).
        pose proof (typed_inrange nAB sh dm xs ds is l H Hx Hd) as HI.
        destruct (side_typed xs ds is l H) as (S1 & S2).
        assert (D : forallb (fun p => Nat.ltb (snd p) (nA (fst p))) (combine l (map (look xs ds) is)) = true \/
                    forallb (fun p => Nat.leb (nA (fst p)) (snd p)) (combine l (map (look xs ds) is)) = true \/
                    (forallb (fun p => Nat.ltb (snd p) (nA (fst p))) (combine l (map (look xs ds) is)) = false /\
                     forallb (fun p => Nat.leb (nA (fst p)) (snd p)) (combine l (map (look xs ds) is)) = false)).
        { generalize (forallb (fun p => Nat.ltb (snd p) (nA (fst p))) (combine l (map (look xs ds) is))). generalize (forallb (fun p => Nat.leb (nA (fst p)) (snd p)) (combine l (map (look xs ds) is))). intros [|] [|]; auto. }
        assert (L : List.length (map (look xs ds) is) = List.length l) by (apply Forall2_length in HI; rewrite !map_length in HI; rewrite map_length; congruence).
        assert (FA : forall ll xx, List.length xx = List.length ll ->
          (forallb (fun p => Nat.ltb (snd p) (nA (fst p))) (combine ll xx) = true <-> Forall2 (fun i s => i < nA s)%nat xx ll)).
        { induction ll as [|s ll IHl]; intros [|x xx] LL; simpl in LL; try discriminate; simpl; [split; [constructor|reflexivity]|].
          rewrite andb_true_iff, IHl by lia. rewrite Nat.ltb_lt. split; [intros (? & ?); constructor; auto|]. intros F; inversion F; auto. }
        assert (FB : forall ll xx, List.length xx = List.length ll ->
          (forallb (fun p => Nat.leb (nA (fst p)) (snd p)) (combine ll xx) = true <-> Forall2 (fun i s => nA s <= i)%nat xx ll)).
        { induction ll as [|s ll IHl]; intros [|x xx] LL; simpl in LL; try discriminate; simpl; [split; [constructor|reflexivity]|].
          rewrite andb_true_iff, IHl by lia. rewrite Nat.leb_le. split; [intros (? & ?); constructor; auto|]. intros F; inversion F; auto. }
        destruct D as [D|[D|(D1 & D2)]].
        + right. apply FA in D; auto. intros i j Hi Hj. rewrite !S1; auto.
        + right. apply FB in D; auto. intros i j Hi Hj. rewrite !S2; auto.
        + left. rewrite Ew by auto. apply Z; auto.
          * intros F. apply FA in F; auto. congruence.
          * intros F. apply FB in F; auto. congruence.
      - destruct is; [|discriminate]. right. intros i j [].
    Qed.

    Lemma fac_A xs ds f : fac_typed tb sh dm f = true -> inrange (map dA sh) xs -> inrange (map dA dm) ds ->
      den_fac K rho xs ds f = den_fac K rA xs ds f.
    Proof.
      unfold fac_typed, den_fac. destruct f as [t is]. cbn [fst snd]. intros H Hx Hd.
      destruct (lookup_sym t tb) as [[[] [l|]]|] eqn:E; [| |discriminate];
        apply lookup_in in E; rewrite Forall_forall in Htb; specialize (Htb _ E); unfold sym_rel3 in Htb; cbn [fst snd] in Htb.
      - destruct Htb as (a & b & w & (_ & _ & _ & QA & _ & _) & Ea & _ & Ew).
        pose proof (typed_inrange nA sh dm xs ds is l H Hx Hd) as HI.
        assert (HAB : inrange (map nAB l) (map (look xs ds) is)).
        { clear - HI. unfold inrange in *. revert HI. generalize (map (look xs ds) is). induction l as [|s l IHl]; intros zs F; inversion F; subst; constructor; auto.
          unfold both. lia. }
        rewrite Ew, QA, Ea by auto. reflexivity.
      - destruct is; [|discriminate]. simpl. symmetry. apply Htb.
    Qed.

    Lemma fac_B xs ds f : fac_typed tb sh dm f = true -> inrange (map dB sh) xs -> inrange (map dB dm) ds ->
      den_fac K rho (shiftc sh xs) (shiftc dm ds) f = den_fac K rB xs ds f.
    Proof.
      unfold fac_typed, den_fac. destruct f as [t is]. cbn [fst snd]. intros H Hx Hd.
      destruct (lookup_sym t tb) as [[[] [l|]]|] eqn:E; [| |discriminate];
        apply lookup_in in E; rewrite Forall_forall in Htb; specialize (Htb _ E); unfold sym_rel3 in Htb; cbn [fst snd] in Htb.
      - destruct Htb as (a & b & w & (_ & _ & _ & _ & QB & _) & _ & Eb & Ew).
        pose proof (typed_inrange nB sh dm xs ds is l H Hx Hd) as HI.
        apply Forall2_length in Hx. apply Forall2_length in Hd. rewrite map_length in Hx, Hd.
        rewrite (typed_shift xs ds is l H Hx Hd).
        assert (HAB : inrange (map nAB l) (shifted nA l (map (look xs ds) is))).
        { clear - HI. unfold inrange, shifted in *. revert HI. generalize (map (look xs ds) is). induction l as [|s l IHl]; intros zs F; inversion F; subst; cbn [combine map fst snd]; constructor; auto.
          unfold both. cbn [fst snd]. lia. }
        rewrite Ew, QB, Eb by auto. reflexivity.
      - destruct is; [|discriminate]. simpl. symmetry. apply Htb.
    Qed.
  End Term.

  Lemma prod_zero (l : list K) : In 0 l -> prodK l = 0.
  Proof. induction l as [|x l IH]; simpl; [tauto|]. intros [->|H]; [ring|]. rewrite (IH H). ring. Qed.

  Lemma fs_mixed sh dm xs ds fs : forallb (fac_typed tb sh dm) fs = true ->
    inrange (map dAB sh) xs -> inrange (map dAB dm) ds ->
    prodK (map (den_fac K rho xs ds) fs) = 0 \/
    forall f, In f fs -> forall i j, In i (snd f) -> In j (snd f) -> side sh dm xs ds i = side sh dm xs ds j.
  Proof.
    intros H Hx Hd. induction fs as [|f fs IH]; [right; intros f []|]. cbn [forallb] in H. apply andb_prop in H as (H1 & H2).
    destruct (fac_mixed sh dm xs ds f H1 Hx Hd) as [E|E].
    - left. apply prod_zero. cbn [map]. left. exact E.
    - destruct (IH H2) as [E2|E2].
      + left. cbn [map prodK]. rewrite E2. ring.
      + right. intros g [<-|Hg]; [exact E|exact (E2 g Hg)].
  Qed.

  Lemma connected m sh xs ds : size_chk tb sh m = true ->
    inrange (map dAB sh) xs -> inrange (map dAB (m_dm m)) ds ->
    prodK (map (den_fac K rho xs ds) (m_fs m)) = 0 \/
    exists b, forall i, In i (all_ix (List.length sh) (List.length (m_dm m))) -> side sh (m_dm m) xs ds i = b.
  Proof.
    unfold size_chk. intros H Hx Hd. apply andb_prop in H as (H1 & H2).
    destruct (fs_mixed _ _ _ _ _ H1 Hx Hd) as [E|E]; [left; exact E|right].
    destruct (all_ix (List.length sh) (List.length (m_dm m))) as [|i0 rest] eqn:EA; [discriminate|]. cbv zeta in H2.
    exists (side sh (m_dm m) xs ds i0). intros i Hi. rewrite forallb_forall in H2. apply H2 in Hi. apply mem_ix_In in Hi.
    revert i Hi. apply (iter_side (m_fs m) (side sh (m_dm m) xs ds) E). intros i [<-|[]]. reflexivity.
  Qed.

  Lemma sides sh dm xs ds b : List.length xs = List.length sh -> List.length ds = List.length dm ->
    (forall i, In i (all_ix (List.length sh) (List.length dm)) -> side sh dm xs ds i = b) ->
    if b then inA sh xs /\ inA dm ds else inB sh xs /\ inB dm ds.
  Proof.
    intros Lx Ld H.
    assert (G : forall (mk : nat -> ix) cs zs, (forall k, ix_cls sh dm (mk k) = nth_error cs k) -> (forall k, look xs ds (mk k) = nth k zs 0%nat) ->
      List.length zs = List.length cs -> (forall k, (k < List.length cs)%nat -> side sh dm xs ds (mk k) = b) ->
      forall k x c, nth_error zs k = Some x -> nth_error cs k = Some c -> if b then (x < dA c)%nat else (dA c <= x)%nat).
    { intros mk cs zs Hc Hz L Hk k x c Ex Ec. specialize (Hk k). unfold side in Hk. rewrite Hc, Hz, Ec in Hk.
      rewrite (nth_error_nth _ _ _ Ex) in Hk. specialize (Hk ltac:(apply nth_error_Some; congruence)).
      destruct b; [apply Nat.ltb_lt|apply Nat.ltb_ge]; exact Hk. }
    assert (F : forall (R : nat -> cls -> Prop) zs cs, List.length zs = List.length cs ->
      (forall k x c, nth_error zs k = Some x -> nth_error cs k = Some c -> R x c) -> Forall2 R zs cs).
    { intros R. induction zs as [|z zs IH]; intros [|c cs] L Hk; simpl in L; try discriminate; constructor.
      - apply (Hk 0%nat); reflexivity.
      - apply IH; [lia|]. intros k x c' E1 E2. apply (Hk (S k)); auto. }
    assert (HX : forall k, (k < List.length sh)%nat -> side sh dm xs ds (X k) = b).
    { intros k Hk. apply H. unfold all_ix. apply in_or_app. left. apply in_map. apply in_seq. lia. }
    assert (HD : forall k, (k < List.length dm)%nat -> side sh dm xs ds (D k) = b).
    { intros k Hk. apply H. unfold all_ix. apply in_or_app. right. apply in_map. apply in_seq. lia. }
    pose proof (G X sh xs (fun _ => eq_refl) (fun _ => eq_refl) Lx HX) as GX.
    pose proof (G D dm ds (fun _ => eq_refl) (fun _ => eq_refl) Ld HD) as GD.
    destruct b; split; apply F; auto.
  Qed.

  Lemma inA_inB cs xs : cs <> [] -> inA cs xs -> inB cs xs -> False.
  Proof. destruct cs; [congruence|]. intros _ HA HB. inversion HA; subst. inversion HB; subst. lia. Qed.

  Lemma range_A cs xs : inrange (map dA cs) xs -> inrange (map dAB cs) xs /\ inA cs xs.
  Proof.
    unfold inrange, inA. revert xs. induction cs as [|c cs IH]; intros xs F; inversion F; subst; [split; constructor|].
    destruct (IH _ H3). split; constructor; auto. rewrite dAB_sum. lia.
  Qed.
  Lemma range_B cs xs : inrange (map dB cs) xs -> inrange (map dAB cs) (shiftc cs xs) /\ inB cs (shiftc cs xs).
  Proof.
    unfold inrange, inB. revert xs. induction cs as [|c cs IH]; intros xs F; inversion F; subst; [split; constructor|].
    destruct (IH _ H3). split; cbn [shiftc map]; constructor; auto; [rewrite dAB_sum|]; lia.
  Qed.

  Lemma mono_A sh m xs : sh <> [] -> size_chk tb sh m = true -> inrange (map dA sh) xs ->
    den_mono K dAB rho xs m = den_mono K dA rA xs m.
  Proof.
    intros Hs H Hx. destruct (range_A _ _ Hx) as (Hx1 & Hx2). unfold den_mono. f_equal. rewrite sum_A.
    - apply sumL_ext. intros ds Hd. f_equal. apply map_ext_in. intros f Hf. unfold size_chk in H.
      apply andb_prop in H as (H & _). rewrite forallb_forall in H. apply (fac_A sh (m_dm m)); auto.
    - intros ds Hd Hn. destruct (connected m sh xs ds H Hx1 Hd) as [E|(b & E)]; [exact E|]. exfalso.
      apply sides in E; [|apply Forall2_length in Hx; rewrite map_length in Hx; auto|apply Forall2_length in Hd; rewrite map_length in Hd; auto].
      destruct b; destruct E as (E1 & E2); [auto|]. eapply inA_inB; eauto.
  Qed.

  Lemma mono_B sh m xs : sh <> [] -> size_chk tb sh m = true -> inrange (map dB sh) xs ->
    den_mono K dAB rho (shiftc sh xs) m = den_mono K dB rB xs m.
  Proof.
    intros Hs H Hx. destruct (range_B _ _ Hx) as (Hx1 & Hx2). unfold den_mono. f_equal. rewrite sum_B.
    - apply sumL_ext. intros ds Hd. f_equal. apply map_ext_in. intros f Hf. unfold size_chk in H.
      apply andb_prop in H as (H & _). rewrite forallb_forall in H. apply (fac_B sh (m_dm m)); auto.
    - intros ds Hd Hn. destruct (connected m sh _ ds H Hx1 Hd) as [E|(b & E)]; [exact E|]. exfalso.
      apply sides in E; [|apply Forall2_length in Hx1; rewrite map_length in Hx1; auto|apply Forall2_length in Hd; rewrite map_length in Hd; auto].
      destruct b; destruct E as (E1 & E2); [|auto]. eapply inA_inB; eauto.
  Qed.

  Lemma mono_mixed sh m xs : size_chk tb sh m = true -> inrange (map dAB sh) xs -> ~ inA sh xs -> ~ inB sh xs ->
    den_mono K dAB rho xs m = 0.
  Proof.
    intros H Hx NA NB. unfold den_mono. rewrite (sumL_ext _ _ _ (fun _ => 0)); [rewrite sumL_0; ring|].
    intros ds Hd. destruct (connected m sh xs ds H Hx Hd) as [E|(b & E)]; [exact E|]. exfalso.
    apply sides in E; [|apply Forall2_length in Hx; rewrite map_length in Hx; auto|apply Forall2_length in Hd; rewrite map_length in Hd; auto].
    destruct b; destruct E; auto.
  Qed.

  Lemma mono_num m : size_chk tb [] m = true ->
    den_mono K dA rA [] m + den_mono K dB rB [] m = den_mono K dAB rho [] m.
  Proof.
    intros H. assert (Hdm : m_dm m <> []).
    { intros E. unfold size_chk in H. rewrite E in H. simpl in H. rewrite andb_false_r in H. discriminate. }
    assert (HT : forall f, In f (m_fs m) -> fac_typed tb [] (m_dm m) f = true).
    { unfold size_chk in H. apply andb_prop in H as (H & _). rewrite forallb_forall in H. exact H. }
    unfold den_mono. rewrite (sum_AB (m_dm m) _ Hdm).
    - rewrite (sumL_ext _ (map dA (m_dm m)) _ (fun ds => prodK (map (den_fac K rho [] ds) (m_fs m)))).
      + rewrite (sumL_ext _ (map dB (m_dm m)) _ (fun ds => prodK (map (den_fac K rho [] (shiftc (m_dm m) ds)) (m_fs m)))).
        * ring.
        * intros ds Hd. f_equal. apply map_ext_in. intros f Hf. symmetry.
          apply (fac_B [] (m_dm m) [] ds f); auto. constructor.
      + intros ds Hd. f_equal. apply map_ext_in. intros f Hf. symmetry. apply (fac_A [] (m_dm m)); auto. constructor.
    - intros ds Hd NA NB. destruct (connected m [] [] ds H ltac:(constructor) Hd) as [E|(b & E)]; [exact E|]. exfalso.
      apply sides in E; [|reflexivity|apply Forall2_length in Hd; rewrite map_length in Hd; auto].
      destruct b; destruct E; auto.
  Qed.

  Lemma den_num ms : forallb (size_chk tb []) ms = true -> den K dA rA [] ms + den K dB rB [] ms = den K dAB rho [] ms.
  Proof.
    unfold den. induction ms as [|m ms IH]; intros H; simpl; [ring|]. simpl in H. apply andb_prop in H as (H1 & H2).
    rewrite <- (IH H2), <- (mono_num m H1). ring.
  Qed.

  Lemma den_ext (f g : mono -> K) ms : (forall m, In m ms -> f m = g m) -> lsum (map f ms) = lsum (map g ms).
  Proof. intros H. f_equal. apply map_ext_in. exact H. Qed.

  Lemma den_arr l ms a b t : l <> [] -> forallb (size_chk tb (map cl l)) ms = true ->
    Rarr K dA rA (STens (map cl l) ms) a -> Rarr K dB rB (STens (map cl l) ms) b -> Rarr K dAB rho (STens (map cl l) ms) t ->
    dsum_array nA nB l a b t.
  Proof.
    intros Hl H (S1 & _ & E1) (S2 & _ & E2) (S3 & _ & E3). cbn [s_sh s_ms] in *. rewrite map_sp_dim in S1, S2, S3.
    rewrite forallb_forall in H.
    assert (Hc : map cl l <> []) by (destruct l; simpl; congruence).
    split; [exact S1|]. split; [exact S2|]. split; [exact S3|]. split; [|split].
    - intros idx Hi. assert (HI : inrange (map dA (map cl l)) idx) by (rewrite map_sp_dim; exact Hi).
      destruct (range_A _ _ HI) as (HAB & _). rewrite map_sp_dim in HAB.
      rewrite E3 by (rewrite S3; exact HAB). rewrite E1 by (rewrite S1; exact Hi). apply den_ext. intros m Hm. apply (mono_A (map cl l)); auto.
    - intros idx Hi. assert (HI : inrange (map dB (map cl l)) idx) by (rewrite map_sp_dim; exact Hi).
      destruct (range_B _ _ HI) as (HAB & _). rewrite map_sp_dim, shiftc_shifted in HAB.
      rewrite E3 by (rewrite S3; exact HAB). rewrite E2 by (rewrite S2; exact Hi). apply den_ext. intros m Hm.
      rewrite <- shiftc_shifted. apply (mono_B (map cl l)); auto.
    - intros idx Hi NA NB. rewrite E3 by (rewrite S3; exact Hi). unfold den.
      assert (Z : forall m, In m ms -> den_mono K dAB rho idx m = 0).
      { intros m Hm. apply (mono_mixed (map cl l)); auto; [rewrite map_sp_dim; exact Hi| |].
        - intros F. apply NA. clear - F. unfold inA in F. revert idx F. induction l as [|s l IH]; intros idx F; inversion F; subst; constructor; auto. rewrite sp_dim_cl in *. auto.
        - intros F. apply NB. clear - F. unfold inB in F. revert idx F. induction l as [|s l IH]; intros idx F; inversion F; subst; constructor; auto. rewrite sp_dim_cl in *. auto. }
      rewrite (den_ext _ (fun _ => 0) ms Z). clear. induction ms; simpl; [reflexivity|]. rewrite IHms. ring.
  Qed.
End Size.

(** no array of rank zero in the result *)
Fixpoint no_rank0 (s : shape) : bool :=
  match s with
  | SNum => true
  | SArr l => match l with [] => false | _ => true end
  | STup l => forallb no_rank0 l
  | SObj l => forallb (fun p => no_rank0 (snd p)) l
  end.

Lemma related3_rank {K : cring} (N : K -> K -> K -> Prop) (A : list space -> tensor K -> tensor K -> tensor K -> Prop) s :
  forall u v w, no_rank0 s = true -> related3 N (fun l a b t => l <> [] -> A l a b t) s u v w -> related3 N A s u v w.
Proof.
  induction s as [|l|l IH|l IH] using shape_ind'; intros [x|x|xs|xs] [y|y|ys|ys] [z|z|zs|zs] HN H; cbn [related3] in *; try contradiction; auto.
  - apply H. destruct l; [discriminate|congruence].
  - cbn [no_rank0] in HN. revert xs ys zs HN H. induction IH as [|s l Hs Hl IHl]; intros [|x xs] [|y ys] [|z zs] HN H; try contradiction; auto.
    cbn [forallb] in HN. apply andb_prop in HN as (N1 & N2). destruct H as (H1 & H2). split; [apply Hs; auto|apply IHl; auto].
  - cbn [no_rank0] in HN. revert xs ys zs HN H. induction IH as [|[x0 s] l Hs Hl IHl]; intros [|[? x] xs] [|[? y] ys] [|[? z] zs] HN H; try contradiction; auto.
    cbn [forallb fst snd] in *. apply andb_prop in HN as (N1 & N2). destruct H as ((H1 & H2 & H3 & H4) & H5). split; [repeat (split; [assumption|]); apply Hs; auto|apply IHl; auto].
Qed.

Theorem size_sound (K : cring) (nA nB : space -> nat) f a r us vs ws :
  no_rank0 r = true -> cov_chk size_chk f (map (pair tt) a) r = true ->
  related_args3 (noninteracting (K:=K) nA nB) a us vs ws ->
  exists u v w, returns f us u /\ returns f vs v /\ returns f ws w /\ additive nA nB r u v w.
Proof.
  intros H0 HC HR.
  destruct (triple_sound K unit nA nB (both nA nB) (fun _ x y z => x = z /\ y = z) (fun _ => dsum_array nA nB)
    (fun x y z => cadd x y = z) (fun l a b t => l <> [] -> dsum_array nA nB l a b t) size_chk f (map (pair tt) a) r us vs ws) as (u & v & w & Ru & Rv & Rw & H).
  - intros _ l t u w (H1 & H2 & H3 & _). auto.
  - intros r1 r2 r3 HT. split.
    + intros ms Hm _. apply (den_num K nA nB r1 r2 r3 _ HT). exact Hm.
    + intros l ms t u w Hm R1 R2 R3 Hl. eapply (den_arr K nA nB r1 r2 r3); eauto.
  - exact HC.
  - apply qrelated3_unit. exact HR.
  - exists u, v, w. repeat (split; [assumption|]). apply related3_rank; auto.
Qed.
