(** The exponential of a sum of excitation operators, sorted by products of
    operator classes. *)
From Coq Require Import List Bool Arith ZArith Lia Factorial Permutation.
From Verif Require Import Scalar CISpec CIFacts CIFock CIMatrix CIVec CIExpSpec.
Import ListNotations.
Local Open Scope list_scope.

(** *** Sums over lists *)
Section SL.
  Variable K : cring.
  Local Open Scope K_scope.
  Add Ring KrSL : (c_th K).

  Definition SL {A} (l : list A) (f : A -> K) : K := lsum (map f l).

  Lemma SL_cons {A} x l (f : A -> K) : SL (x :: l) f = f x + SL l f.
  Proof. reflexivity. Qed.
  Lemma SL_ext {A} l (f g : A -> K) : (forall x, In x l -> f x = g x) -> SL l f = SL l g.
  Proof. intros E. unfold SL. f_equal. apply map_ext_in, E. Qed.
  Lemma SL_app {A} l1 l2 (f : A -> K) : SL (l1 ++ l2) f = SL l1 f + SL l2 f.
  Proof. unfold SL. rewrite map_app. apply lsum_app. Qed.
  Lemma SL_map {A B} (h : A -> B) l (f : B -> K) : SL (map h l) f = SL l (fun x => f (h x)).
  Proof. unfold SL. rewrite map_map. reflexivity. Qed.
  Lemma SL_flat_map {A B} (h : A -> list B) l (f : B -> K) : SL (flat_map h l) f = SL l (fun x => SL (h x) f).
  Proof.
    induction l as [|x l IH]; [reflexivity|]. cbn [flat_map]. rewrite SL_app, SL_cons, IH. reflexivity.
  Qed.
  Lemma SL_0 {A} (l : list A) : SL l (fun _ => 0) = 0.
  Proof. induction l as [|x l IH]; [reflexivity|]. rewrite SL_cons, IH. ring. Qed.
  Lemma SL_zero {A} l (f : A -> K) : (forall x, In x l -> f x = 0) -> SL l f = 0.
  Proof. intros E. rewrite (SL_ext l f (fun _ => 0)) by auto. apply SL_0. Qed.
  Lemma SL_add {A} l (f g : A -> K) : SL l (fun x => f x + g x) = SL l f + SL l g.
  Proof. induction l as [|x l IH]; [unfold SL; cbn; ring|]. rewrite !SL_cons, IH. ring. Qed.
  Lemma SL_mul {A} c l (f : A -> K) : SL l (fun x => c * f x) = c * SL l f.
  Proof. induction l as [|x l IH]; [unfold SL; cbn; ring|]. rewrite !SL_cons, IH. ring. Qed.
  Lemma SL_mul_r {A} c l (f : A -> K) : SL l (fun x => f x * c) = SL l f * c.
  Proof. induction l as [|x l IH]; [unfold SL; cbn; ring|]. rewrite !SL_cons, IH. ring. Qed.
  Lemma SL_swap {A B} l m (f : A -> B -> K) :
    SL l (fun x => SL m (fun y => f x y)) = SL m (fun y => SL l (fun x => f x y)).
  Proof.
    induction l as [|x l IH].
    - symmetry. apply SL_zero. reflexivity.
    - rewrite SL_cons, IH, <- SL_add. reflexivity.
  Qed.
  Lemma SL_filter {A} (p : A -> bool) l (f : A -> K) : (forall x, In x l -> p x = false -> f x = 0) ->
    SL l f = SL (filter p l) f.
  Proof.
    intros Z. induction l as [|x l IH]; [reflexivity|]. cbn [filter].
    assert (IH' : SL l f = SL (filter p l) f) by (apply IH; intros; apply Z; cbn; auto).
    destruct (p x) eqn:P; rewrite !SL_cons, IH'; [reflexivity|]. rewrite (Z x) by (cbn; auto). ring.
  Qed.
  Lemma SL_prod {A B} l m (f : A * B -> K) : SL (list_prod l m) f = SL l (fun x => SL m (fun y => f (x, y))).
  Proof.
    induction l as [|x l IH]; [reflexivity|]. cbn [list_prod]. rewrite SL_app, SL_map, IH. reflexivity.
  Qed.
End SL.
Arguments SL {K A}.

(** *** Operators that pairwise anticommute *)
Definition compat (o1 o2 : op) : Prop :=
  match o1, o2 with
  | Cre p, Ann q => p <> q
  | Ann p, Cre q => p <> q
  | _, _ => True
  end.

Definition flipo (b : bool) (r : option (bool * det)) : option (bool * det) :=
  match r with Some (g, t) => Some (xorb b g, t) | None => None end.

Lemma flipo_flipo b c r : flipo b (flipo c r) = flipo (xorb b c) r.
Proof. destruct r as [[g t]|]; [|reflexivity]. cbn. rewrite xorb_assoc. reflexivity. Qed.
Lemma flipo_false r : flipo false r = r.
Proof. destruct r as [[g t]|]; [|reflexivity]. cbn. destruct g; reflexivity. Qed.

Definition opi (o : op) : nat := match o with Cre p | Ann p => p end.
Definition opb (o : op) : bool := match o with Cre _ => true | Ann _ => false end.

Lemma act1_eq o s : act1 o s
  = if Nat.ltb (opi o) (length s) && Bool.eqb (occd s (opi o)) (negb (opb o))
    then Some (odd_below (opi o) s, put (opi o) (opb o) s) else None.
Proof.
  destruct o as [p|p]; cbn [act1 opi opb].
  - destruct (Nat.ltb p (length s)), (occd s p); reflexivity.
  - destruct (occd s p) eqn:E.
    + apply occd_lt in E. apply Nat.ltb_lt in E. rewrite E. reflexivity.
    + destruct (Nat.ltb p (length s)); reflexivity.
Qed.

Lemma act2_closed o1 o2 s :
  act [o1; o2] s = if Nat.ltb (opi o2) (length s) && Bool.eqb (occd s (opi o2)) (negb (opb o2)) &&
                      (Nat.ltb (opi o1) (length s) &&
                       Bool.eqb (if Nat.eqb (opi o1) (opi o2) then opb o2 else occd s (opi o1)) (negb (opb o1)))
                   then Some (xorb (xorb (odd_below (opi o1) s) (Nat.ltb (opi o2) (opi o1))) (odd_below (opi o2) s),
                              put (opi o1) (opb o1) (put (opi o2) (opb o2) s))
                   else None.
Proof.
  rewrite !act_cons. cbn [act bindop]. rewrite (act1_eq o2 s).
  destruct (Nat.ltb (opi o2) (length s)) eqn:L2; [|reflexivity].
  destruct (Bool.eqb (occd s (opi o2)) (negb (opb o2))) eqn:E2; [|reflexivity]. cbn [andb bindop].
  rewrite act1_eq, put_length, occd_put, L2, andb_true_r, odd_below_put, L2, andb_true_r.
  destruct (Nat.ltb (opi o1) (length s) &&
     Bool.eqb (if Nat.eqb (opi o1) (opi o2) then opb o2 else occd s (opi o1)) (negb (opb o1))) eqn:E1; [|reflexivity].
  cbn [bindop]. apply eqb_prop in E2. rewrite E2. f_equal. f_equal.
  rewrite xorb_false_r. destruct (Nat.ltb (opi o2) (opi o1)), (opb o2), (odd_below (opi o1) s), (odd_below (opi o2) s); reflexivity.
Qed.

Lemma act_anti o1 o2 s : compat o1 o2 -> act [o1; o2] s = flipo true (act [o2; o1] s).
Proof.
  intros C. rewrite !act2_closed.
  assert (D : opi o1 = opi o2 -> opb o1 = opb o2).
  { intros E. destruct o1, o2; cbn in *; try reflexivity; destruct (C E). }
  destruct (Nat.eqb_spec (opi o1) (opi o2)) as [E|N].
  - rewrite (D E), E, Nat.eqb_refl. destruct (opb o2), (occd s (opi o2)), (Nat.ltb (opi o2) (length s)); reflexivity.
  - destruct (Nat.eqb_spec (opi o2) (opi o1)); [congruence|].
    rewrite (put_comm (opi o1) (opi o2)) by auto.
    rewrite andb_comm.
    destruct (Nat.ltb (opi o1) (length s) && Bool.eqb (occd s (opi o1)) (negb (opb o1)) &&
      (Nat.ltb (opi o2) (length s) && Bool.eqb (occd s (opi o2)) (negb (opb o2)))); [|reflexivity].
    cbn [flipo]. f_equal. f_equal.
    destruct (Nat.ltb_spec (opi o2) (opi o1)), (Nat.ltb_spec (opi o1) (opi o2)); try lia;
      destruct (odd_below (opi o1) s), (odd_below (opi o2) s); reflexivity.
Qed.

Lemma bindop_flip b r f : bindop (flipo b r) f = flipo b (bindop r f).
Proof.
  destruct r as [[g s]|]; [|reflexivity]. cbn. destruct (f s) as [[h t]|]; [|reflexivity]. cbn. f_equal. f_equal.
  destruct b, g, h; reflexivity.
Qed.

Lemma act_swap x y w s : compat x y -> act (x :: y :: w) s = flipo true (act (y :: x :: w) s).
Proof.
  intros C. change (x :: y :: w) with ([x; y] ++ w). change (y :: x :: w) with ([y; x] ++ w).
  rewrite !act_app. destruct (act w s) as [[g t]|]; [|reflexivity]. cbn [bindop].
  rewrite (act_anti x y t C). destruct (act [y; x] t) as [[h u]|]; [|reflexivity]. cbn.
  f_equal. f_equal. destruct h, g; reflexivity.
Qed.

Lemma act_move x ys w s : Forall (compat x) ys ->
  act (x :: ys ++ w) s = flipo (Nat.odd (length ys)) (act (ys ++ x :: w) s).
Proof.
  induction ys as [|y ys IH]; intros F.
  - cbn [app length]. change (Nat.odd 0) with false. rewrite flipo_false. reflexivity.
  - inversion F as [|? ? C F']; subst. cbn [app]. rewrite act_swap by auto.
    rewrite (act_cons y (x :: ys ++ w)), IH by auto. rewrite bindop_flip, <- act_cons, flipo_flipo.
    cbn [length]. rewrite Nat.odd_succ, <- Nat.negb_odd. destruct (Nat.odd (length ys)); reflexivity.
Qed.

Lemma act_commute xs ys w s : (forall x y, In x xs -> In y ys -> compat x y) -> Nat.odd (length ys) = false ->
  act (xs ++ ys ++ w) s = act (ys ++ xs ++ w) s.
Proof.
  intros C E. induction xs as [|x xs IH]; [reflexivity|]. cbn [app].
  rewrite act_cons, IH by (intros; apply C; cbn; auto). rewrite <- act_cons.
  rewrite act_move, E, flipo_false; [reflexivity|]. apply Forall_forall. intros. apply C; cbn; auto.
Qed.

Lemma act_prefix p u v s : act u s = act v s -> act (p ++ u) s = act (p ++ v) s.
Proof. intros E. rewrite !act_app, E. reflexivity. Qed.

(** *** Operators that excite out of a reference *)
Definition good (ref : det) (o : op) : Prop :=
  match o with Cre p => occd ref p = false | Ann p => occd ref p = true end.

Lemma good_compat ref x y : good ref x -> good ref y -> compat x y.
Proof. destruct x, y; cbn; auto; congruence. Qed.

Lemma ndiff_put_out ref s p b : length s = length ref -> p < length s -> occd s p = occd ref p ->
  b = negb (occd ref p) -> ndiff ref (put p b s) = S (ndiff ref s).
Proof.
  revert s p. induction ref as [|x ref IH]; intros [|y s] p L Hp E B; cbn in L; try discriminate; [cbn in Hp; lia|].
  destruct p as [|p]; cbn in E, B |- *.
  - subst. destruct x; reflexivity.
  - rewrite IH by (auto; cbn in Hp; lia). lia.
Qed.

Lemma good_level ref ops : Forall (good ref) ops -> forall g t, act ops ref = Some (g, t) ->
  length t = length ref /\ ndiff ref t = length ops.
Proof.
  induction ops as [|o ops IH]; intros F g t E.
  - injection E as <- <-. split; [reflexivity|apply ndiff_refl].
  - inversion F as [|? ? Go F']; subst. rewrite act_cons in E.
    destruct (act ops ref) as [[g' s]|]; [|discriminate]. destruct (IH F' g' s eq_refl) as [L D].
    cbn [bindop] in E. rewrite act1_eq in E.
    destruct (Nat.ltb_spec (opi o) (length s)); [|discriminate].
    destruct (Bool.eqb (occd s (opi o)) (negb (opb o))) eqn:B; [|discriminate]. cbn [andb] in E.
    injection E as _ <-. rewrite put_length. split; [exact L|].
    apply eqb_prop in B.
    assert (R : occd ref (opi o) = negb (opb o)) by (destruct o; exact Go).
    rewrite ndiff_put_out; auto; [cbn; lia|congruence|]. rewrite R, negb_involutive. reflexivity.
Qed.

(** *** Sorting words *)
Fixpoint insert (x : nat) (l : list nat) : list nat :=
  match l with
  | [] => [x]
  | y :: l' => if Nat.leb x y then x :: l else y :: insert x l'
  end.
Fixpoint sort (l : list nat) : list nat := match l with [] => [] | x :: l' => insert x (sort l') end.
Lemma insert_perm x l : Permutation (x :: l) (insert x l).
Proof.
  induction l as [|y l IH]; [reflexivity|]. cbn. destruct (Nat.leb x y); [reflexivity|].
  rewrite perm_swap. constructor. exact IH.
Qed.
Lemma sort_perm l : Permutation l (sort l).
Proof. induction l as [|x l IH]; [constructor|]. cbn. rewrite <- insert_perm. constructor. exact IH. Qed.

Fixpoint add1 (w : list nat) (tl : list (nat * list nat)) : list (nat * list nat) :=
  match tl with
  | [] => [(1, w)]
  | (c, u) :: tl' => if list_eq_dec Nat.eq_dec u w then (S c, u) :: tl' else (c, u) :: add1 w tl'
  end.
Definition tally (l : list (list nat)) : list (nat * list nat) := fold_right add1 [] l.

Fixpoint words (cl : list nat) (k : nat) : list (list nat) :=
  match k with O => [[]] | S k' => flat_map (fun c => map (cons c) (words cl k')) cl end.
Definition wlev (lev : nat -> nat) (w : list nat) : nat := fold_right (fun c n => lev c + n) 0 w.

(** the products of k classes of level at most m, sorted and counted *)
Definition table (cl : list nat) (lev : nat -> nat) (m k : nat) : list (nat * list nat) :=
  tally (map sort (filter (fun w => Nat.leb (wlev lev w) m) (words cl k))).

Section Expand.
  Variable K : cring.
  Local Open Scope K_scope.
  Add Ring KrE : (c_th K).

  Lemma SL_add1 w tl (g : list nat -> K) :
    SL (add1 w tl) (fun cu => nK K (fst cu) * g (snd cu)) = g w + SL tl (fun cu => nK K (fst cu) * g (snd cu)).
  Proof.
    induction tl as [|[c u] tl IH]; cbn [add1].
    - unfold SL; cbn. ring.
    - destruct (list_eq_dec Nat.eq_dec u w) as [->|N]; rewrite !SL_cons; cbn [fst snd nK]; [ring|].
      rewrite IH. ring.
  Qed.
  Lemma SL_tally l (g : list nat -> K) : SL l g = SL (tally l) (fun cu => nK K (fst cu) * g (snd cu)).
  Proof.
    induction l as [|w l IH]; [reflexivity|]. cbn [tally fold_right]. fold (tally l).
    rewrite SL_add1, SL_cons, IH. reflexivity.
  Qed.

  Variables (ref J : det) (cl : list nat) (terms : nat -> list (K * list op)) (lev : nat -> nat).
  Hypothesis Good : forall c t, In t (terms c) -> Forall (good ref) (snd t) /\ length (snd t) = (2 * lev c)%nat.
  Hypothesis Lev : forall c, In c cl -> 0 < lev c.

  Definition Tall : list (K * list op) := flat_map terms cl.
  Fixpoint prodw (w : list nat) : list (K * list op) :=
    match w with [] => [(1, [])] | c :: w' => opmul (terms c) (prodw w') end.
  Definition ampg (p : list op) (X : list (K * list op)) : K :=
    SL X (fun u => fst u * braket J (p ++ snd u) ref).
  Definition P (w : list nat) : K := amp J (prodw w) ref.

  Lemma P_ampg w : P w = ampg [] (prodw w).
  Proof. reflexivity. Qed.

  Lemma ampg_opmul p A X : ampg p (opmul A X) = SL A (fun t => fst t * ampg (p ++ snd t) X).
  Proof.
    unfold ampg, opmul. rewrite SL_flat_map. apply SL_ext. intros t _. rewrite SL_map, <- SL_mul.
    apply SL_ext. intros u _. cbn [fst snd]. rewrite app_assoc. ring.
  Qed.

  Lemma ampg_opow p k : ampg p (opow Tall k) = SL (words cl k) (fun w => ampg p (prodw w)).
  Proof.
    revert p. induction k as [|k IH]; intros p.
    - cbn [opow words prodw]. rewrite SL_cons. unfold SL. cbn [map lsum]. set (x := ampg p _). clearbody x. ring.
    - cbn [opow words]. rewrite ampg_opmul, SL_flat_map. unfold Tall. rewrite SL_flat_map.
      apply SL_ext. intros c _. rewrite SL_map. cbn [prodw].
      rewrite (SL_ext K (words cl k) (fun w => ampg p (opmul (terms c) (prodw w)))
        (fun w => SL (terms c) (fun t => fst t * ampg (p ++ snd t) (prodw w)))) by (intros; apply ampg_opmul).
      rewrite SL_swap. apply SL_ext. intros t _. rewrite SL_mul, <- IH. reflexivity.
  Qed.

  Lemma braket_act bra ops1 ops2 ket : act ops1 ket = act ops2 ket -> braket (K:=K) bra ops1 ket = braket bra ops2 ket.
  Proof. unfold braket. intros ->. reflexivity. Qed.

  Lemma prodw_good w t : In t (prodw w) -> Forall (good ref) (snd t) /\ length (snd t) = (2 * wlev lev w)%nat.
  Proof.
    revert t. induction w as [|c w IH]; intros t.
    - cbn. intros [<-|[]]. split; [constructor|reflexivity].
    - cbn [prodw opmul]. unfold opmul. rewrite in_flat_map. intros (x & Ix & It). apply in_map_iff in It as (y & <- & Iy).
      destruct (Good c x Ix) as [F1 L1]. destruct (IH y Iy) as [F2 L2]. cbn [snd]. split.
      + apply Forall_app. auto.
      + rewrite app_length, L1, L2. cbn [wlev fold_right]. fold (wlev lev w). lia.
  Qed.

  Lemma ampg_perm w w' : Permutation w w' -> forall p, ampg p (prodw w) = ampg p (prodw w').
  Proof.
    induction 1 as [|c w w' _ IH|c d w|w1 w2 w3 _ IH1 _ IH2]; intros p.
    - reflexivity.
    - cbn [prodw]. rewrite !ampg_opmul. apply SL_ext. intros t _. rewrite IH. reflexivity.
    - cbn [prodw]. rewrite !ampg_opmul.
      rewrite (SL_ext K (terms d) _ (fun t => SL (terms c) (fun u => fst t * fst u * ampg (p ++ snd t ++ snd u) (prodw w)))).
      2:{ intros t _. rewrite ampg_opmul, <- SL_mul. apply SL_ext. intros u _. rewrite app_assoc. ring. }
      rewrite (SL_ext K (terms c) _ (fun t => SL (terms d) (fun u => fst t * fst u * ampg (p ++ snd t ++ snd u) (prodw w)))).
      2:{ intros t _. rewrite ampg_opmul, <- SL_mul. apply SL_ext. intros u _. rewrite app_assoc. ring. }
      rewrite SL_swap. apply SL_ext. intros t It. apply SL_ext. intros u Iu.
      assert (E : ampg (p ++ snd u ++ snd t) (prodw w) = ampg (p ++ snd t ++ snd u) (prodw w)).
      { unfold ampg. apply SL_ext. intros x _. f_equal. apply braket_act. rewrite <- !app_assoc.
        apply act_prefix. destruct (Good c t It) as [Ft Lt]. destruct (Good d u Iu) as [Fu Lu].
        rewrite Forall_forall in Ft, Fu. apply act_commute.
        - intros a b Ia Ib. eapply good_compat; eauto.
        - rewrite Lt. rewrite Nat.odd_mul. reflexivity. }
      rewrite E. ring.
    - rewrite IH1. apply IH2.
  Qed.

  Lemma P_sort w : P w = P (sort w).
  Proof. rewrite !P_ampg. apply ampg_perm, sort_perm. Qed.

  Lemma P_level w : ndiff ref J <> (2 * wlev lev w)%nat -> P w = 0.
  Proof.
    intros N. rewrite P_ampg. unfold ampg. apply SL_zero. intros t It. cbn [app].
    destruct (prodw_good w t It) as [F L]. rewrite braket_other; [ring|].
    intros g E. destruct (good_level ref (snd t) F g J E) as [_ D]. congruence.
  Qed.

  Lemma wlev_length w : (forall c, In c w -> In c cl) -> length w <= wlev lev w.
  Proof.
    induction w as [|c w IH]; intros I; [cbn; lia|]. cbn [length wlev fold_right]. fold (wlev lev w).
    specialize (IH (fun c' H => I c' (or_intror H))). specialize (Lev c (I c (or_introl eq_refl))). lia.
  Qed.
  Lemma words_In k w : In w (words cl k) -> length w = k /\ forall c, In c w -> In c cl.
  Proof.
    revert w. induction k as [|k IH]; intros w.
    - cbn. intros [<-|[]]. split; [reflexivity|intros c []].
    - cbn [words]. rewrite in_flat_map. intros (c & Ic & Iw). apply in_map_iff in Iw as (u & <- & Iu).
      destruct (IH u Iu) as [L S]. split; [cbn; lia|]. intros c' [<-|I]; auto.
  Qed.

  Variable inv : nat -> K.

  Lemma expand m M d : ndiff ref J = (2 * d)%nat -> d <= m -> m <= M ->
    exp_amp inv M J Tall ref
    = sumN (S m) (fun k => inv (fact k) * SL (table cl lev m k) (fun cu => nK K (fst cu) * P (snd cu))).
  Proof.
    intros D Dm Mm. unfold exp_amp.
    assert (Z : forall k, m < k -> amp J (opow Tall k) ref = 0).
    { intros k Hk. change (amp J (opow Tall k) ref) with (ampg [] (opow Tall k)). rewrite ampg_opow.
      apply SL_zero. intros w Iw. apply P_level. destruct (words_In k w Iw) as [L S].
      pose proof (wlev_length w S). lia. }
    replace (S M) with (S m + (M - m))%nat by lia. rewrite sumN_plus.
    rewrite (sumN_ext K (M - m) _ (fun _ => 0)), sumN_0.
    2:{ intros i _. rewrite Z by lia. ring. }
    match goal with |- ?a + 0 = ?b => replace (a + 0) with a by ring end.
    apply sumN_ext. intros k _. f_equal.
    change (amp J (opow Tall k) ref) with (ampg [] (opow Tall k)). rewrite ampg_opow.
    rewrite (SL_filter K (fun w => Nat.leb (wlev lev w) m)).
    2:{ intros w _ L. apply Nat.leb_gt in L. apply P_level. lia. }
    unfold table. rewrite <- SL_tally, SL_map. apply SL_ext. intros w _. apply P_sort.
  Qed.

  (** products of up to four classes as nested sums *)
  Lemma P1 c : P [c] = SL (terms c) (fun t => fst t * braket J (snd t) ref).
  Proof.
    rewrite P_ampg. cbn [prodw]. rewrite ampg_opmul. apply SL_ext. intros t _.
    unfold ampg, SL. cbn. rewrite app_nil_r. ring.
  Qed.
  Lemma P2 c d : P [c; d] = SL (terms c) (fun t => SL (terms d) (fun u => fst t * fst u * braket J (snd t ++ snd u) ref)).
  Proof.
    rewrite P_ampg. cbn [prodw]. rewrite ampg_opmul. apply SL_ext. intros t _. rewrite ampg_opmul, <- SL_mul.
    apply SL_ext. intros u _. unfold ampg, SL. cbn. rewrite app_nil_r. ring.
  Qed.
  Lemma P3 c d e : P [c; d; e] = SL (terms c) (fun t => SL (terms d) (fun u => SL (terms e) (fun v =>
      fst t * fst u * fst v * braket J (snd t ++ snd u ++ snd v) ref))).
  Proof.
    rewrite P_ampg. cbn [prodw]. rewrite ampg_opmul. apply SL_ext. intros t _. rewrite ampg_opmul, <- SL_mul.
    apply SL_ext. intros u _. rewrite ampg_opmul, <- !SL_mul. apply SL_ext. intros v _. unfold ampg, SL. cbn.
    rewrite app_nil_r, <- app_assoc. ring.
  Qed.
  Lemma P4 c d e f : P [c; d; e; f] = SL (terms c) (fun t => SL (terms d) (fun u => SL (terms e) (fun v => SL (terms f) (fun w =>
      fst t * fst u * fst v * fst w * braket J (snd t ++ snd u ++ snd v ++ snd w) ref)))).
  Proof.
    rewrite P_ampg. cbn [prodw]. rewrite ampg_opmul. apply SL_ext. intros t _. rewrite ampg_opmul, <- SL_mul.
    apply SL_ext. intros u _. rewrite ampg_opmul, <- !SL_mul. apply SL_ext. intros v _.
    rewrite ampg_opmul, <- !SL_mul. apply SL_ext. intros w _. unfold ampg, SL. cbn.
    rewrite app_nil_r, <- !app_assoc. ring.
  Qed.

  (** the same with the first class acting first *)
  Lemma P_perm w w' : Permutation w w' -> P w = P w'.
  Proof. intros H. rewrite !P_ampg. apply ampg_perm, H. Qed.
  Lemma P2a c d : P [c; d] = SL (terms c) (fun t => SL (terms d) (fun u =>
      fst t * fst u * braket J (snd u ++ snd t) ref)).
  Proof.
    rewrite (P_perm [c; d] [d; c]) by apply perm_swap. rewrite P2, SL_swap.
    apply SL_ext. intros t _. apply SL_ext. intros u _. ring.
  Qed.
  Lemma P3a c d e : P [c; d; e] = SL (terms c) (fun t => SL (terms d) (fun u => SL (terms e) (fun v =>
      fst t * fst u * fst v * braket J (snd v ++ snd u ++ snd t) ref))).
  Proof.
    rewrite (P_perm [c; d; e] [e; d; c]) by exact (Permutation_rev [c; d; e]).
    rewrite P3, (SL_ext K (terms e) _ (fun v => SL (terms c) (fun t => SL (terms d) (fun u =>
      fst t * fst u * fst v * braket J (snd v ++ snd u ++ snd t) ref)))).
    2:{ intros v _. rewrite SL_swap. apply SL_ext. intros t _. apply SL_ext. intros u _. ring. }
    rewrite SL_swap. apply SL_ext. intros t _. rewrite SL_swap. reflexivity.
  Qed.
  Lemma P4a c d e f : P [c; d; e; f] = SL (terms c) (fun t => SL (terms d) (fun u => SL (terms e) (fun v => SL (terms f) (fun w =>
      fst t * fst u * fst v * fst w * braket J (snd w ++ snd v ++ snd u ++ snd t) ref)))).
  Proof.
    rewrite (P_perm [c; d; e; f] [f; e; d; c]) by exact (Permutation_rev [c; d; e; f]).
    rewrite P4, (SL_ext K (terms f) _ (fun w => SL (terms c) (fun t => SL (terms d) (fun u => SL (terms e) (fun v =>
      fst t * fst u * fst v * fst w * braket J (snd w ++ snd v ++ snd u ++ snd t) ref))))).
    2:{ intros w _. rewrite (SL_ext K (terms e) _ (fun v => SL (terms c) (fun t => SL (terms d) (fun u =>
          fst t * fst u * fst v * fst w * braket J (snd w ++ snd v ++ snd u ++ snd t) ref)))).
        2:{ intros v _. rewrite SL_swap. apply SL_ext. intros t _. apply SL_ext. intros u _. ring. }
        rewrite SL_swap. apply SL_ext. intros t _. rewrite SL_swap. reflexivity. }
    rewrite SL_swap. apply SL_ext. intros t _. rewrite SL_swap. apply SL_ext. intros u _. rewrite SL_swap. reflexivity.
  Qed.
End Expand.

(** *** Orders of summation *)
Section Orders.
  Variable K : cring.
  Context {I1 I2 I3 I4 A1 A2 A3 A4 : Type}.
  Implicit Types (i : I1) (j : I2) (k : I3) (l : I4) (a : A1) (b : A2) (c : A3) (d : A4).

  Lemma ord11 I J A B (F : I1 -> I2 -> A1 -> A2 -> K) :
    SL I (fun i => SL J (fun j => SL A (fun a => SL B (fun b => F i j a b))))
    = SL I (fun i => SL A (fun a => SL J (fun j => SL B (fun b => F i j a b)))).
  Proof. apply SL_ext. intros i _. apply SL_swap. Qed.

  Lemma ord12 I J Kj A B C (F : I1 -> I2 -> I3 -> A1 -> A2 -> A3 -> K) :
    SL I (fun i => SL J (fun j => SL (Kj j) (fun k => SL A (fun a => SL B (fun b => SL (C b) (fun c => F i j k a b c))))))
    = SL I (fun i => SL A (fun a => SL J (fun j => SL (Kj j) (fun k => SL B (fun b => SL (C b) (fun c => F i j k a b c)))))).
  Proof.
    apply SL_ext. intros i _. rewrite (SL_swap K A J). apply SL_ext. intros j _. apply SL_swap.
  Qed.

  Lemma ord111 I J Kk A B C (F : I1 -> I2 -> I3 -> A1 -> A2 -> A3 -> K) :
    SL I (fun i => SL J (fun j => SL Kk (fun k => SL A (fun a => SL B (fun b => SL C (fun c => F i j k a b c))))))
    = SL I (fun i => SL A (fun a => SL J (fun j => SL B (fun b => SL Kk (fun k => SL C (fun c => F i j k a b c)))))).
  Proof.
    rewrite (ord12 I J (fun _ => Kk) A B (fun _ => C)). apply SL_ext. intros i _. apply SL_ext. intros a _.
    apply SL_ext. intros j _. apply SL_swap.
  Qed.

  Lemma ord22 I Ji Kk Lk A Ba C Dc (F : I1 -> I2 -> I3 -> I4 -> A1 -> A2 -> A3 -> A4 -> K) :
    SL I (fun i => SL (Ji i) (fun j => SL Kk (fun k => SL (Lk k) (fun l =>
      SL A (fun a => SL (Ba a) (fun b => SL C (fun c => SL (Dc c) (fun d => F i j k l a b c d))))))))
    = SL I (fun i => SL (Ji i) (fun j => SL A (fun a => SL (Ba a) (fun b =>
      SL Kk (fun k => SL (Lk k) (fun l => SL C (fun c => SL (Dc c) (fun d => F i j k l a b c d)))))))).
  Proof.
    apply SL_ext. intros i _. apply SL_ext. intros j _.
    rewrite (SL_ext K A _ (fun a => SL Kk (fun k => SL (Lk k) (fun l => SL (Ba a) (fun b =>
      SL C (fun c => SL (Dc c) (fun d => F i j k l a b c d))))))).
    2:{ intros a _. rewrite SL_swap. apply SL_ext. intros k _. rewrite SL_swap. reflexivity. }
    rewrite (SL_swap K A Kk). apply SL_ext. intros k _. apply SL_swap.
  Qed.

  Lemma ord112 I J Kk Lk A B C Dc (F : I1 -> I2 -> I3 -> I4 -> A1 -> A2 -> A3 -> A4 -> K) :
    SL I (fun i => SL J (fun j => SL Kk (fun k => SL (Lk k) (fun l =>
      SL A (fun a => SL B (fun b => SL C (fun c => SL (Dc c) (fun d => F i j k l a b c d))))))))
    = SL I (fun i => SL A (fun a => SL J (fun j => SL B (fun b =>
      SL Kk (fun k => SL (Lk k) (fun l => SL C (fun c => SL (Dc c) (fun d => F i j k l a b c d)))))))).
  Proof.
    rewrite (ord22 I (fun _ => J) Kk Lk A (fun _ => B) C Dc). apply SL_ext. intros i _. apply SL_swap.
  Qed.

  Lemma ord1111 I J Kk Ll A B C D (F : I1 -> I2 -> I3 -> I4 -> A1 -> A2 -> A3 -> A4 -> K) :
    SL I (fun i => SL J (fun j => SL Kk (fun k => SL Ll (fun l =>
      SL A (fun a => SL B (fun b => SL C (fun c => SL D (fun d => F i j k l a b c d))))))))
    = SL I (fun i => SL A (fun a => SL J (fun j => SL B (fun b =>
      SL Kk (fun k => SL C (fun c => SL Ll (fun l => SL D (fun d => F i j k l a b c d)))))))).
  Proof.
    rewrite (ord112 I J Kk (fun _ => Ll) A B C (fun _ => D)). do 4 (apply SL_ext; intros ? _).
    apply SL_ext. intros k _. apply SL_swap.
  Qed.
End Orders.

(** *** Equal operators *)
Section Eqv.
  Variable K : cring.
  Local Open Scope K_scope.
  Definition opeq (t u : K * list op) : Prop := fst t = fst u /\ forall s, act (snd t) s = act (snd u) s.

  Lemma opeq_map {A} (f g : A -> K * list op) l : (forall x, In x l -> opeq (f x) (g x)) -> Forall2 opeq (map f l) (map g l).
  Proof. induction l; intros H; cbn; constructor; [apply H; cbn; auto|]. apply IHl. intros; apply H; cbn; auto. Qed.
  Lemma opeq_flat {A} (f g : A -> list (K * list op)) l : (forall x, In x l -> Forall2 opeq (f x) (g x)) ->
    Forall2 opeq (flat_map f l) (flat_map g l).
  Proof.
    induction l; intros H; cbn; [constructor|]. apply Forall2_app; [apply H; cbn; auto|]. apply IHl. intros; apply H; cbn; auto.
  Qed.
  Lemma opeq_mul A B A' B' : Forall2 opeq A A' -> Forall2 opeq B B' -> Forall2 opeq (opmul A B) (opmul A' B').
  Proof.
    intros HA HB. unfold opmul. induction HA as [|t t' A A' [E1 E2] _ IH]; [constructor|]. cbn [flat_map].
    apply Forall2_app; [|exact IH]. clear IH. induction HB as [|u u' B B' [F1 F2] _ IH]; [constructor|].
    cbn [map]. constructor; [|exact IH]. split; cbn [fst snd]; [congruence|]. intros s.
    rewrite !act_app, F2. destruct (act (snd u') s) as [[g r]|]; [|reflexivity]. cbn [bindop]. rewrite E2. reflexivity.
  Qed.
  Lemma opeq_pow T T' k : Forall2 opeq T T' -> Forall2 opeq (opow T k) (opow T' k).
  Proof.
    intros H. induction k as [|k IH]; cbn [opow]; [constructor; [split; reflexivity|constructor]|].
    apply opeq_mul; auto.
  Qed.
  Lemma opeq_amp J T T' ref : Forall2 opeq T T' -> amp J T ref = amp J T' ref.
  Proof.
    unfold amp. induction 1 as [|t t' T T' [E1 E2] _ IH]; [reflexivity|]. cbn [map lsum]. rewrite IH, E1.
    f_equal. f_equal. unfold braket. rewrite E2. reflexivity.
  Qed.
  Lemma opeq_exp inv M J T T' ref : Forall2 opeq T T' -> exp_amp inv M J T ref = exp_amp inv M J T' ref.
  Proof.
    intros H. unfold exp_amp. apply sumN_ext. intros k _. f_equal. apply opeq_amp, opeq_pow, H.
  Qed.

  (** a+_a a+_b a_j a_i = (a+_b a_j)(a+_a a_i) *)
  Lemma pair_order a b i j s : b <> i -> a <> j -> a <> i -> b <> j ->
    act [Cre a; Cre b; Ann j; Ann i] s = act [Cre b; Ann j; Cre a; Ann i] s.
  Proof.
    intros N1 N2 N3 N4. change [Cre a; Cre b; Ann j; Ann i] with ([Cre a] ++ [Cre b; Ann j] ++ [Ann i]).
    change [Cre b; Ann j; Cre a; Ann i] with ([Cre b; Ann j] ++ [Cre a] ++ [Ann i]).
    apply act_commute; [|reflexivity].
    intros x y [<-|[]] [<-|[<-|[]]]; cbn; auto.
  Qed.
End Eqv.
