(** The similarity transformed Hamiltonian as symbolic operator terms. *)
From Coq Require Import List Bool Arith ZArith Lia Ring.
From Verif Require Import Scalar CISpec CIFacts CIFock CIMatrix CIVec CIExpSpec CIExp Tensor PySyntax PySem PySim Sym SymSound
  CCSpec SOCtx CCFockSpec FockStates FockExp FockT WickSym.
Import ListNotations.
Local Open Scope list_scope.

(** exp(-T) o exp(T) for the operator with index X j; T1 is tensor 14, T2 tensor 15 *)
Definition tl_form (b : bool) (c : cls) (j : nat) : list st :=
  let plain : st := (Mono 1 0 [] [], [(b, c, X j)]) in
  if b then
    match c with
    | 1%positive =>
        [plain; (Mono (-1) 0 [cV] [(14%positive, [D 0; X j])], [(true, cV, D 0)]);
         (Mono (-1) 1 [cV; cV; cO] [(15%positive, [D 0; D 1; X j; D 2])],
          [(true, cV, D 0); (true, cV, D 1); (false, cO, D 2)])]
    | _ => [plain]
    end
  else
    match c with
    | 2%positive =>
        [plain; (Mono 1 0 [cO] [(14%positive, [X j; D 0])], [(false, cO, D 0)]);
         (Mono 1 1 [cV; cO; cO] [(15%positive, [X j; D 0; D 1; D 2])],
          [(true, cV, D 0); (false, cO, D 2); (false, cO, D 1)])]
    | _ => [plain]
    end.

Fixpoint tl_word (w : list (bool * cls * nat)) : list st :=
  match w with
  | [] => [(Mono 1 0 [] [], [])]
  | (b, c, j) :: w' => sts_mul (tl_form b c j) (tl_word w')
  end.

(** the block that holds g for given classes of its orbitals: minus sign?,
    tensor, order of the indices *)
Definition blk (c1 c2 c3 c4 : cls) : bool * positive * list nat :=
  match c1, c2, c3, c4 with
  | 2, 2, 2, 2 => (false, 5, [0; 1; 2; 3]%nat)
  | 2, 2, 2, 1 => (false, 6, [0; 1; 2; 3]%nat)
  | 2, 2, 1, 2 => (true, 6, [0; 1; 3; 2]%nat)
  | 2, 1, 2, 2 => (false, 7, [0; 1; 2; 3]%nat)
  | 1, 2, 2, 2 => (true, 7, [1; 0; 2; 3]%nat)
  | 2, 2, 1, 1 => (false, 8, [0; 1; 2; 3]%nat)
  | 2, 1, 2, 1 => (false, 9, [0; 1; 2; 3]%nat)
  | 2, 1, 1, 2 => (true, 9, [0; 1; 3; 2]%nat)
  | 1, 2, 2, 1 => (true, 9, [1; 0; 2; 3]%nat)
  | 1, 2, 1, 2 => (false, 9, [1; 0; 3; 2]%nat)
  | 1, 1, 2, 2 => (false, 10, [0; 1; 2; 3]%nat)
  | 2, 1, 1, 1 => (false, 11, [0; 1; 2; 3]%nat)
  | 1, 2, 1, 1 => (true, 11, [1; 0; 2; 3]%nat)
  | 1, 1, 1, 2 => (false, 12, [0; 1; 2; 3]%nat)
  | 1, 1, 2, 1 => (true, 12, [0; 1; 3; 2]%nat)
  | _, _, _, _ => (false, 13, [0; 1; 2; 3]%nat)
  end%positive.
Definition fid (c1 c2 : cls) : positive :=
  match c1, c2 with 1, 1 => 1 | 1, 2 => 2 | 2, 1 => 3 | _, _ => 4 end%positive.

Definition order (p : list nat) (l : list ix) : list ix := map (fun k => nth k l (X 0)) p.

Definition coef1 (r : nat) (c1 c2 : cls) : list mono :=
  [Mono 1 0 [] [(fid c1 c2, [X r; X (r + 1)])];
   let '(s, t, p) := blk c1 cO c2 cO in
   Mono (if s then 1 else -1) 0 [cO] [(t, order p [X r; D 0; X (r + 1); D 0])]].
Definition coef2 (r : nat) (c1 c2 c3 c4 : cls) : list mono :=
  let '(s, t, p) := blk c1 c2 c3 c4 in
  [Mono (if s then -1 else 1) 2 [] [(t, order p [X r; X (r + 1); X (r + 2); X (r + 3)])]].

Definition plain_ms (l : list mono) : list st := map (fun m => (m, [])) l.

Definition h_term (r : nat) (cs : list cls) : list st :=
  match cs with
  | [c1; c2] =>
      map (st_close r cs) (sts_mul (plain_ms (coef1 r c1 c2)) (tl_word [(true, c1, r); (false, c2, r + 1)]))
  | [c1; c2; c3; c4] =>
      map (st_close r cs) (sts_mul (plain_ms (coef2 r c1 c2 c3 c4))
        (tl_word [(true, c1, r); (true, c2, r + 1); (false, c4, r + 3); (false, c3, r + 2)]))
  | _ => []
  end.

Fixpoint clss (k : nat) : list (list cls) :=
  match k with
  | O => [[]]
  | S k' => flat_map (fun c => map (cons c) (clss k')) [cO; cV]
  end.

(** the terms of exp(-T) H exp(T), with the first [r] external indices left free *)
Definition H_sts (r : nat) : list st := flat_map (h_term r) (clss 2) ++ flat_map (h_term r) (clss 4).

Section HSound.
  Variable K : cring.
  Local Open Scope K_scope.
  Add Ring KrHS : (c_th K).
  Variables no nv : nat.
  Variable rho : positive -> list nat -> K.
  Notation dim := (wdim no nv).
  Notation dens := (den_sts K no nv rho).
  Definition rt1 (a i : nat) : K := rho 14%positive [a; i].
  Definition rt2 (a b i j : nat) : K := rho 15%positive [a; b; i; j].
  Notation tld := (tilde K no nv rt1 rt2).

  Lemma dyad10 : dyad (K := K) 1 0 = 1.
  Proof. unfold dyad. cbn. ring. Qed.
  Lemma dyadm10 : dyad (K := K) (-1) 0 = - (1).
  Proof. unfold dyad. cbn. ring. Qed.
  Lemma dyad11 : dyad (K := K) 1 1 = chalf.
  Proof. unfold dyad. cbn. ring. Qed.
  Lemma dyadm11 : dyad (K := K) (-1) 1 = - chalf.
  Proof. unfold dyad. cbn. ring. Qed.
  Lemma dyad12 : dyad (K := K) 1 2 = quarter.
  Proof. unfold dyad, quarter. cbn. ring. Qed.
  Lemma dyadm12 : dyad (K := K) (-1) 2 = - quarter.
  Proof. unfold dyad, quarter. cbn. ring. Qed.

  Lemma dens_cons xs s l psi t : dens xs (s :: l) psi t = den_st K no nv rho xs s psi t + dens xs l psi t.
  Proof. unfold den_sts. apply SL_cons. Qed.
  Lemma dens_nil xs psi t : dens xs [] psi t = 0.
  Proof. reflexivity. Qed.

  Lemma tl_form_sound b c j xs psi t : c = cO \/ c = cV -> (nth j xs 0 < dim c)%nat ->
    dens xs (tl_form b c j) psi t = tld (mkop b (orb no c (nth j xs 0%nat))) psi t.
  Proof.
    intros C L. set (x := nth j xs 0%nat) in *.
    assert (P : den_st K no nv rho xs (Mono 1 0 [] [], [(b, c, X j)]) psi t = eo (mkop b (orb no c x)) psi t).
    { unfold den_st, fprod, conc. cbn [map fst snd m_z m_k m_dm m_fs prodK sumL look eow].
      rewrite dyad10. unfold x. ring. }
    unfold tilde.
    destruct C as [-> | ->]; destruct b; cbn [tl_form cO cV]; rewrite !dens_cons, dens_nil, P; cbn [mkop orb cO cV B_op] in *.
    - cbn [wdim cO] in L. destruct (Nat.ltb_spec x no); [|lia].
      rewrite eos_app. unfold eos. rewrite SL_map_seq, SL_fm_seq.
      unfold den_st, fprod, conc, rt1, rt2. cbn [map fst snd m_z m_k m_dm m_fs prodK sumL look wdim cO cV mkop orb nth den_fac].
      rewrite dyadm10, dyadm11. fold x. rewrite <- sumN_mul_l.
      rewrite (sumN_ext K nv _ (fun i => - rho 14%positive [i; x] * eow [Cre (no + i)] psi t)) by (intros; unfold den_fac; cbn; fold x; ring).
      rewrite <- sumN_mul_l.
      match goal with |- _ + (?A + (?B + 0)) = _ + (?A' + ?B') => replace B with B'; [ring|] end.
      apply sumN_ext. intros a _. rewrite <- sumN_mul_l. rewrite SL_fm_seq. apply sumN_ext. intros b _. rewrite <- sumN_mul_l.
      rewrite SL_map_seq. apply sumN_ext. intros i _. unfold den_fac. cbn. fold x. ring.
    - cbn [wdim cO] in L. destruct (Nat.leb_spec no x); [lia|]. rewrite eos_nil. ring.
    - destruct (Nat.ltb_spec (no + x) no); [lia|]. rewrite eos_nil. ring.
    - destruct (Nat.leb_spec no (no + x)); [|lia].
      rewrite eos_app. unfold eos. rewrite SL_map_seq, SL_fm_seq.
      unfold den_st, fprod, conc, rt1, rt2. cbn [map fst snd m_z m_k m_dm m_fs prodK sumL look wdim cO cV mkop orb nth den_fac].
      replace (no + x - no)%nat with x by lia.
      rewrite dyad10, dyad11. fold x. rewrite <- sumN_mul_l.
      rewrite (sumN_ext K no _ (fun i => rho 14%positive [x; i] * eow [Ann i] psi t)) by (intros; unfold den_fac; cbn; fold x; ring).
      rewrite <- sumN_mul_l.
      match goal with |- _ + (?A + (?B + 0)) = _ + (?A' + ?B') => replace B with B'; [ring|] end.
      apply sumN_ext. intros a _. rewrite <- sumN_mul_l. rewrite SL_fm_seq. apply sumN_ext. intros b _. rewrite <- sumN_mul_l.
      rewrite SL_map_seq. apply sumN_ext. intros i _. unfold den_fac. cbn. fold x. ring.
  Qed.

  Lemma tl_form_ok r b c j : (j < r)%nat -> c = cO \/ c = cV -> Forall (st_ok r) (tl_form b c j).
  Proof.
    intros L [-> | ->]; destruct b; cbn [tl_form cO cV]; repeat apply Forall_cons; try apply Forall_nil;
      (split; [unfold m_ok; cbn; repeat (constructor; cbn; try lia)|cbn; repeat (constructor; cbn; try lia)]).
  Qed.

  Definition w_in (xs : list nat) (o : bool * cls * nat) : Prop :=
    let '(b, c, j) := o in (c = cO \/ c = cV) /\ (j < List.length xs)%nat /\ (nth j xs 0 < dim c)%nat.
  Definition w_op (xs : list nat) (o : bool * cls * nat) : op :=
    let '(b, c, j) := o in mkop b (orb no c (nth j xs 0%nat)).

  Lemma tl_word_ok r w : Forall (fun o : bool * cls * nat => let '(b, c, j) := o in (c = cO \/ c = cV) /\ (j < r)%nat) w ->
    Forall (st_ok r) (tl_word w).
  Proof.
    induction 1 as [|[[b c] j] w [C L] Hw IH]; cbn [tl_word].
    - repeat constructor.
    - apply sts_mul_ok; auto. apply tl_form_ok; auto.
  Qed.

  Lemma dens_ext xs l psi phi t : (forall u, List.length u = List.length t -> psi u = phi u) -> dens xs l psi t = dens xs l phi t.
  Proof. intros E. unfold den_sts. apply SL_ext. intros s _. apply den_st_ext, E. Qed.

  Lemma tl_word_sound xs w psi : Forall (w_in xs) w -> forall t,
    dens xs (tl_word w) psi t = tildew K no nv rt1 rt2 (map (w_op xs) w) psi t.
  Proof.
    induction 1 as [|[[b c] j] w (C & L & R) Hw IH]; intros t; cbn [tl_word map tildew].
    - rewrite dens_cons, dens_nil. unfold den_st, fprod. cbn [map fst snd m_z m_k m_dm m_fs prodK sumL eow]. rewrite dyad10. ring.
    - rewrite den_sts_mul.
      + rewrite (dens_ext xs _ _ _ t (fun u _ => IH u)). unfold w_op at 1. apply tl_form_sound; auto.
      + apply tl_form_ok; auto.
      + apply tl_word_ok. eapply Forall_impl; [|exact Hw]. intros [[b' c'] j']. unfold w_in. tauto.
  Qed.

  Lemma dens_plain xs l psi t : dens xs (plain_ms l) psi t = den K dim rho xs l * psi t.
  Proof.
    unfold den_sts, plain_ms, den. rewrite SL_map. fold (SL (K := K) l (den_mono K dim rho xs)). rewrite <- SL_mul_r.
    apply SL_ext. intros m _. unfold den_st, den_mono, fprod. cbn [fst snd map eow]. rewrite sumL_mul_r. ring.
  Qed.
  Lemma plain_ok r l : Forall (m_ok r) l -> Forall (st_ok r) (plain_ms l).
  Proof. intros H. apply Forall_map. eapply Forall_impl; [|exact H]. intros m Hm. split; cbn; auto. Qed.

  Lemma dens_close xs sc l psi t : Forall (st_ok (List.length xs + List.length sc)) l ->
    dens xs (map (st_close (List.length xs) sc) l) psi t = sumL (map dim sc) (fun ys => dens (xs ++ ys) l psi t).
  Proof.
    intros H. unfold den_sts. rewrite SL_map. unfold SL. rewrite sumL_lsum. fold (SL (K := K) l).
    f_equal. apply map_ext_in. intros s Hs. rewrite Forall_forall in H. apply den_st_close. auto.
  Qed.

  (** *** Splitting sums over all orbitals into occupied and virtual *)
  Fixpoint orbs (cs : list cls) (l : list nat) : list nat :=
    match cs, l with c :: cs', x :: l' => orb no c x :: orbs cs' l' | _, _ => [] end.

  Lemma sumN_SL {A} n (l : list A) (f : A -> nat -> K) :
    sumN n (fun i => SL l (fun a => f a i)) = SL l (fun a => sumN n (f a)).
  Proof.
    induction l as [|a l IH]; [apply sumN_0|]. rewrite SL_cons, <- IH, <- sumN_add. reflexivity.
  Qed.

  Lemma sum_classes k : forall F : list nat -> K,
    sumL (repeat (no + nv)%nat k) F = SL (clss k) (fun cs => sumL (map dim cs) (fun l => F (orbs cs l))).
  Proof.
    induction k as [|k IH]; intros F.
    - unfold SL. cbn. ring.
    - cbn [repeat sumL clss]. rewrite sumN_plus, SL_flat_map. unfold SL at 1. cbn [map lsum].
      rewrite !SL_map. cbn [map sumL cO cV wdim orbs orb].
      rewrite (sumN_ext K no _ (fun i => SL (clss k) (fun cs => sumL (map dim cs) (fun l => F (i :: orbs cs l))))) by (intros; apply IH).
      rewrite (sumN_ext K nv _ (fun i => SL (clss k) (fun cs => sumL (map dim cs) (fun l => F ((no + i)%nat :: orbs cs l))))) by (intros; apply IH).
      rewrite !sumN_SL. ring.
  Qed.

  (** *** The Hamiltonian *)
  Variable h : nat -> nat -> K.
  Variable g : nat -> nat -> nat -> nat -> K.
  Definition ov_cls (c : cls) : Prop := c = cO \/ c = cV.
  Hypothesis HF : forall c1 c2 i j, ov_cls c1 -> ov_cls c2 -> (i < dim c1)%nat -> (j < dim c2)%nat ->
    rho (fid c1 c2) [i; j] = fock no h g (orb no c1 i) (orb no c2 j).
  Hypothesis HG : forall c1 c2 c3 c4 i j k l, ov_cls c1 -> ov_cls c2 -> ov_cls c3 -> ov_cls c4 ->
    (i < dim c1)%nat -> (j < dim c2)%nat -> (k < dim c3)%nat -> (l < dim c4)%nat ->
    g (orb no c1 i) (orb no c2 j) (orb no c3 k) (orb no c4 l)
    = let '(s, t, p) := blk c1 c2 c3 c4 in sgn s * rho t (map (fun m => nth m [i; j; k; l] 0%nat) p).

  Lemma nth_x xs ys k : nth (List.length xs + k) (xs ++ ys) 0%nat = nth k ys 0%nat.
  Proof. rewrite app_nth2 by lia. f_equal. lia. Qed.
  Lemma nth_x0 xs ys : nth (List.length xs) (xs ++ ys) 0%nat = nth 0 ys 0%nat.
  Proof. rewrite <- (nth_x xs ys 0). f_equal. lia. Qed.

  Lemma coef1_den xs c1 c2 i j : ov_cls c1 -> ov_cls c2 -> (i < dim c1)%nat -> (j < dim c2)%nat ->
    den K dim rho (xs ++ [i; j]) (coef1 (List.length xs) c1 c2) = h (orb no c1 i) (orb no c2 j).
  Proof.
    intros C1 C2 L1 L2.
    assert (E : h (orb no c1 i) (orb no c2 j) = rho (fid c1 c2) [i; j] - sumN no (fun k => g (orb no c1 i) k (orb no c2 j) k)).
    { rewrite HF by auto. unfold fock. ring. }
    rewrite E.
    rewrite (sumN_ext K no _ (fun k => let '(s, t, p) := blk c1 cO c2 cO in sgn s * rho t (map (fun m => nth m [i; k; j; k] 0%nat) p))).
    2:{ intros k Lk. apply (HG c1 cO c2 cO i k j k); auto; left; reflexivity. }
    destruct C1 as [-> | ->], C2 as [-> | ->]; unfold coef1; cbn [blk cO cV fid];
      unfold den, den_mono, order, den_fac; cbn [map lsum m_z m_k m_dm m_fs prodK sumL wdim look fst snd nth];
      rewrite ?nth_x0, ?nth_x; cbn [nth sgn]; rewrite ?dyad10, ?dyadm10;
      change (dim cO) with no;
      match goal with |- _ * _ + (?c * sumN no ?A + 0) = _ - sumN no ?B =>
        rewrite (sumN_ext K no B (fun k => - c * A k)); [rewrite sumN_mul_l; ring|
          intros; rewrite ?nth_x0, ?nth_x; cbn [nth]; ring] end.
  Qed.
  Lemma coef2_den xs c1 c2 c3 c4 i j k l : ov_cls c1 -> ov_cls c2 -> ov_cls c3 -> ov_cls c4 ->
    (i < dim c1)%nat -> (j < dim c2)%nat -> (k < dim c3)%nat -> (l < dim c4)%nat ->
    den K dim rho (xs ++ [i; j; k; l]) (coef2 (List.length xs) c1 c2 c3 c4)
    = quarter * g (orb no c1 i) (orb no c2 j) (orb no c3 k) (orb no c4 l).
  Proof.
    intros C1 C2 C3 C4 L1 L2 L3 L4. rewrite (HG c1 c2 c3 c4) by auto.
    destruct C1 as [-> | ->], C2 as [-> | ->], C3 as [-> | ->], C4 as [-> | ->]; unfold coef2; cbn [blk cO cV];
      unfold den, den_mono, order, den_fac; cbn [map lsum m_z m_k m_dm m_fs prodK sumL look fst snd nth];
      rewrite ?nth_x0, ?nth_x; cbn [nth sgn]; rewrite ?dyad12, ?dyadm12; ring.
  Qed.

  Lemma coef1_ok r c1 c2 : ov_cls c1 -> ov_cls c2 -> Forall (m_ok (r + 2)) (coef1 r c1 c2).
  Proof.
    intros [-> | ->] [-> | ->]; unfold coef1; cbn [blk cO cV fid]; unfold m_ok;
      repeat first [apply Forall_cons | apply Forall_nil | progress cbn | lia].
  Qed.
  Lemma coef2_ok r c1 c2 c3 c4 : ov_cls c1 -> ov_cls c2 -> ov_cls c3 -> ov_cls c4 ->
    Forall (m_ok (r + 4)) (coef2 r c1 c2 c3 c4).
  Proof.
    intros [-> | ->] [-> | ->] [-> | ->] [-> | ->]; unfold coef2; cbn [blk cO cV]; unfold m_ok;
      repeat first [apply Forall_cons | apply Forall_nil | progress cbn | lia].
  Qed.

  Ltac words_ok := repeat first [apply Forall_cons | apply Forall_nil]; (split; [assumption|cbn; lia]).
  Definition tw (w : list op) (psi : state K) : state K := tildew K no nv rt1 rt2 w psi.

  Lemma h_term2_sound xs c1 c2 psi t : ov_cls c1 -> ov_cls c2 ->
    dens xs (h_term (List.length xs) [c1; c2]) psi t
    = sumL (map dim [c1; c2]) (fun l => let p := nth 0 (orbs [c1; c2] l) 0%nat in let q := nth 1 (orbs [c1; c2] l) 0%nat in
        h p q * tw [Cre p; Ann q] psi t).
  Proof.
    intros C1 C2. unfold h_term.
    assert (O1 : Forall (st_ok (List.length xs + 2)) (plain_ms (coef1 (List.length xs) c1 c2))) by (apply plain_ok, coef1_ok; auto).
    assert (O2 : Forall (st_ok (List.length xs + 2)) (tl_word [(true, c1, List.length xs); (false, c2, List.length xs + 1)%nat])).
    { apply tl_word_ok. words_ok. }
    rewrite dens_close by (apply sts_mul_ok; auto).
    apply sumL_ext. intros l Hl.
    inversion Hl as [|? i ? l1 Hi Hl1]; subst. inversion Hl1 as [|? j ? l2 Hj Hl2]; subst. inversion Hl2; subst.
    rewrite den_sts_mul by (rewrite app_length; auto).
    rewrite dens_plain, coef1_den by auto. cbn [orbs nth]. f_equal.
    rewrite tl_word_sound.
    - cbn [map w_op mkop]. rewrite nth_x0, nth_x. reflexivity.
    - repeat first [apply Forall_cons | apply Forall_nil]; cbn [w_in]; rewrite ?app_length, ?nth_x0, ?nth_x;
        (split; [assumption|split; [cbn; lia|assumption]]).
  Qed.
  Lemma h_term4_sound xs c1 c2 c3 c4 psi t : ov_cls c1 -> ov_cls c2 -> ov_cls c3 -> ov_cls c4 ->
    dens xs (h_term (List.length xs) [c1; c2; c3; c4]) psi t
    = sumL (map dim [c1; c2; c3; c4]) (fun l => let o k := nth k (orbs [c1; c2; c3; c4] l) 0%nat in
        quarter * g (o 0%nat) (o 1%nat) (o 2%nat) (o 3%nat) *
        tw [Cre (o 0%nat); Cre (o 1%nat); Ann (o 3%nat); Ann (o 2%nat)] psi t).
  Proof.
    intros C1 C2 C3 C4. unfold h_term.
    assert (O1 : Forall (st_ok (List.length xs + 4)) (plain_ms (coef2 (List.length xs) c1 c2 c3 c4)))
      by (apply plain_ok, coef2_ok; auto).
    assert (O2 : Forall (st_ok (List.length xs + 4)) (tl_word [(true, c1, List.length xs); (true, c2, List.length xs + 1);
       (false, c4, List.length xs + 3); (false, c3, List.length xs + 2)]%nat)).
    { apply tl_word_ok. words_ok. }
    rewrite dens_close by (apply sts_mul_ok; auto).
    apply sumL_ext. intros l Hl.
    inversion Hl as [|? i ? l1 Hi Hl1]; subst. inversion Hl1 as [|? j ? l2 Hj Hl2]; subst.
    inversion Hl2 as [|? k ? l3 Hk Hl3]; subst. inversion Hl3 as [|? m ? l4 Hm Hl4]; subst. inversion Hl4; subst.
    rewrite den_sts_mul by (rewrite app_length; auto).
    rewrite dens_plain, coef2_den by auto. cbn [orbs nth]. f_equal.
    rewrite tl_word_sound.
    - cbn [map w_op mkop]. rewrite nth_x0, !nth_x. reflexivity.
    - repeat first [apply Forall_cons | apply Forall_nil]; cbn [w_in]; rewrite ?app_length, ?nth_x0, ?nth_x;
        (split; [assumption|split; [cbn; lia|assumption]]).
  Qed.

  Lemma H_op_sum (f : K * list op -> K) : SL (H_op (no + nv) h g) f
    = sumL (repeat (no + nv)%nat 2) (fun l => let p := nth 0 l 0%nat in let q := nth 1 l 0%nat in f (h p q, [Cre p; Ann q]))
      + sumL (repeat (no + nv)%nat 4) (fun l => let o k := nth k l 0%nat in
          f (quarter * g (o 0%nat) (o 1%nat) (o 2%nat) (o 3%nat), [Cre (o 0%nat); Cre (o 1%nat); Ann (o 3%nat); Ann (o 2%nat)])).
  Proof.
    unfold H_op. rewrite SL_app. cbn [repeat sumL nth]. f_equal.
    - rewrite SL_fm_seq. apply sumN_ext. intros p _. apply SL_map_seq.
    - rewrite SL_fm_seq. apply sumN_ext. intros p _. rewrite SL_fm_seq. apply sumN_ext. intros q _.
      rewrite SL_fm_seq. apply sumN_ext. intros r _. apply SL_map_seq.
  Qed.

  Lemma clss_in k cs : In cs (clss k) -> List.length cs = k /\ Forall ov_cls cs.
  Proof.
    revert cs. induction k as [|k IH]; intros cs H.
    - destruct H as [<-|[]]. auto.
    - cbn [clss] in H. apply in_flat_map in H as (c & Hc & H). apply in_map_iff in H as (cs' & <- & H).
      apply IH in H as [L Hf]. split; [cbn; auto|]. constructor; auto.
      destruct Hc as [<-|[<-|[]]]; [left|right]; reflexivity.
  Qed.

  Lemma H_sts_sound xs psi t : dens xs (H_sts (List.length xs)) psi t
    = SL (H_op (no + nv) h g) (fun a => fst a * tw (snd a) psi t).
  Proof.
    rewrite H_op_sum, !sum_classes. unfold H_sts, den_sts. rewrite SL_app, !SL_flat_map. f_equal; apply SL_ext; intros cs Hcs;
      apply clss_in in Hcs as [L Hc].
    - destruct cs as [|c1 [|c2 [|]]]; try discriminate.
      inversion Hc as [|? ? C1 Hc1]; subst. inversion Hc1 as [|? ? C2 Hc2]; subst.
      exact (h_term2_sound xs c1 c2 psi t C1 C2).
    - destruct cs as [|c1 [|c2 [|c3 [|c4 [|]]]]]; try discriminate.
      inversion Hc as [|? ? C1 Hc1]; subst. inversion Hc1 as [|? ? C2 Hc2]; subst.
      inversion Hc2 as [|? ? C3 Hc3]; subst. inversion Hc3 as [|? ? C4 Hc4]; subst.
      exact (h_term4_sound xs c1 c2 c3 c4 psi t C1 C2 C3 C4).
  Qed.

  Lemma h_term_ok r cs : Forall ov_cls cs -> Forall (st_ok r) (h_term r cs).
  Proof.
    intros H. destruct cs as [|c1 [|c2 [|c3 [|c4 [|]]]]]; try constructor.
    - inversion H as [|? ? C1 Hc1]; subst. inversion Hc1 as [|? ? C2 Hc2]; subst. cbn [h_term].
      apply Forall_map. eapply Forall_impl; [intros s; apply (st_close_ok r [c1; c2])|].
      apply sts_mul_ok; [apply plain_ok, coef1_ok; auto|]. apply tl_word_ok. words_ok.
    - inversion H as [|? ? C1 Hc1]; subst. inversion Hc1 as [|? ? C2 Hc2]; subst.
      inversion Hc2 as [|? ? C3 Hc3]; subst. inversion Hc3 as [|? ? C4 Hc4]; subst. cbn [h_term].
      apply Forall_map. eapply Forall_impl; [intros s; apply (st_close_ok r [c1; c2; c3; c4])|].
      apply sts_mul_ok; [apply plain_ok, coef2_ok; auto|]. apply tl_word_ok. words_ok.
  Qed.
  Lemma H_sts_ok r : Forall (st_ok r) (H_sts r).
  Proof.
    apply Forall_app. split; apply Forall_forall; intros s Hs; apply in_flat_map in Hs as (cs & Hcs & Hs);
      apply clss_in in Hcs as [_ Hc]; pose proof (h_term_ok r cs Hc) as HH; rewrite Forall_forall in HH; auto.
  Qed.
End HSound.
