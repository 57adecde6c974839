(** Scalars of the NumPy model.

    cqcpy computes with float64/complex128 arrays.  The model replaces them by
    an arbitrary commutative ring with Leibniz equality that contains 1/2: all
    numeric literals of cc_energy.py and cc_equations.py are dyadic (0.25, 0.5,
    1.0, 2.0, ...), so no other division is needed there.  Rounding is not
    modelled. *)
From Coq Require Import ZArith List Ring Lia Permutation.
From Coq Require Import QArith.Qcanon.
Import ListNotations.

Record cring : Type := CRing {
  car :> Type;
  c0 : car;
  c1 : car;
  cadd : car -> car -> car;
  cmul : car -> car -> car;
  csub : car -> car -> car;
  copp : car -> car;
  chalf : car;
  c_th : ring_theory c0 c1 cadd cmul csub copp (@eq car);
  c_half : cadd chalf chalf = c1
}.

Arguments c0 {c}.
Arguments c1 {c}.
Arguments cadd {c} _ _.
Arguments cmul {c} _ _.
Arguments csub {c} _ _.
Arguments copp {c} _.
Arguments chalf {c}.

Declare Scope K_scope.
Delimit Scope K_scope with K.
Infix "+" := cadd : K_scope.
Infix "*" := cmul : K_scope.
Infix "-" := csub : K_scope.
Notation "- x" := (copp x) : K_scope.
Notation "0" := c0 : K_scope.
Notation "1" := c1 : K_scope.

(** Finite sum over 0 .. n-1 and over all index lists bounded by a list of
    dimensions (first dimension outermost). *)
Section Sums.
  Variable K : cring.
  Local Open Scope K_scope.

  Fixpoint sumN (n : nat) (f : nat -> K) : K :=
    match n with
    | O => 0
    | S m => sumN m f + f m
    end.

  Fixpoint sumL (ns : list nat) (f : list nat -> K) : K :=
    match ns with
    | [] => f []
    | n :: ns' => sumN n (fun i => sumL ns' (fun l => f (i :: l)))
    end.

  Fixpoint prodK (l : list K) : K :=
    match l with
    | [] => 1
    | x :: l' => x * prodK l'
    end.

  Fixpoint lsum (l : list K) : K :=
    match l with
    | [] => 0
    | x :: l' => x + lsum l'
    end.

  (** Numeric literals: [z] times one half to the power [k]. *)
  Fixpoint pK (p : positive) : K :=
    match p with
    | xH => 1
    | xO q => pK q + pK q
    | xI q => 1 + (pK q + pK q)
    end.

  Definition zK (z : Z) : K :=
    match z with
    | Z0 => 0
    | Zpos p => pK p
    | Zneg p => - pK p
    end.

  Fixpoint halfpow (k : nat) : K :=
    match k with
    | O => 1
    | S k' => chalf * halfpow k'
    end.

  Definition dyad (z : Z) (k : nat) : K := zK z * halfpow k.
End Sums.

Arguments sumN {K} n f.
Arguments sumL {K} ns f.
Arguments prodK {K} l.
Arguments lsum {K} l.
Arguments zK {K} z.
Arguments pK {K} p.
Arguments halfpow {K} k.
Arguments dyad {K} z k.

(** Lemmas about sums and literals. *)
Section SumLemmas.
  Variable K : cring.
  Local Open Scope K_scope.
  Add Ring Kr : (c_th K).

  Lemma sumN_ext n (f g : nat -> K) :
    (forall i, (i < n)%nat -> f i = g i) -> sumN n f = sumN n g.
  Proof.
    induction n; simpl; intros H; auto.
    rewrite IHn by (intros; apply H; lia). rewrite H by lia. reflexivity.
  Qed.

  Lemma sumN_0 n : sumN n (fun _ => 0 : K) = 0.
  Proof. induction n; simpl; auto. rewrite IHn. ring. Qed.

  Lemma sumN_add n (f g : nat -> K) :
    sumN n (fun i => f i + g i) = sumN n f + sumN n g.
  Proof. induction n; simpl; [ring|]. rewrite IHn. ring. Qed.

  Lemma sumN_mul_l n a (f : nat -> K) :
    sumN n (fun i => a * f i) = a * sumN n f.
  Proof. induction n; simpl; [ring|]. rewrite IHn. ring. Qed.

  Lemma sumN_mul_r n a (f : nat -> K) :
    sumN n (fun i => f i * a) = sumN n f * a.
  Proof. induction n; simpl; [ring|]. rewrite IHn. ring. Qed.

  Lemma sumN_opp n (f : nat -> K) :
    sumN n (fun i => - f i) = - sumN n f.
  Proof. induction n; simpl; [ring|]. rewrite IHn. ring. Qed.

  Lemma sumN_plus n m (f : nat -> K) :
    sumN (n + m) f = sumN n f + sumN m (fun i => f (n + i)%nat).
  Proof.
    induction m; simpl.
    - rewrite Nat.add_0_r. ring.
    - rewrite Nat.add_succ_r. simpl. rewrite IHm. ring.
  Qed.

  Lemma sumN_swap n m (f : nat -> nat -> K) :
    sumN n (fun i => sumN m (fun j => f i j)) =
    sumN m (fun j => sumN n (fun i => f i j)).
  Proof.
    induction n; simpl.
    - rewrite sumN_0. reflexivity.
    - rewrite IHn, <- sumN_add. reflexivity.
  Qed.

  Lemma sumL_ext ns (f g : list nat -> K) :
    (forall l, Forall2 lt l ns -> f l = g l) -> sumL ns f = sumL ns g.
  Proof.
    revert f g. induction ns as [|n ns IH]; simpl; intros f g H.
    - apply H. constructor.
    - apply sumN_ext. intros i Hi. apply IH. intros l Hl. apply H. constructor; auto.
  Qed.

  Lemma sumL_mul_l ns a (f : list nat -> K) :
    sumL ns (fun l => a * f l) = a * sumL ns f.
  Proof.
    revert f. induction ns as [|n ns IH]; simpl; intros f; auto.
    rewrite <- sumN_mul_l. apply sumN_ext. intros. apply IH.
  Qed.

  Lemma sumL_mul_r ns a (f : list nat -> K) :
    sumL ns (fun l => f l * a) = sumL ns f * a.
  Proof.
    revert f. induction ns as [|n ns IH]; simpl; intros f; auto.
    rewrite <- sumN_mul_r. apply sumN_ext. intros. apply IH.
  Qed.

  Lemma sumL_add ns (f g : list nat -> K) :
    sumL ns (fun l => f l + g l) = sumL ns f + sumL ns g.
  Proof.
    revert f g. induction ns as [|n ns IH]; simpl; intros f g; auto.
    rewrite <- sumN_add. apply sumN_ext. intros. apply IH.
  Qed.

  Lemma sumL_0 ns : sumL ns (fun _ => 0 : K) = 0.
  Proof.
    induction ns as [|n ns IH]; simpl; auto.
    rewrite (sumN_ext n _ (fun _ => 0)); auto. apply sumN_0.
  Qed.

  Lemma sumL_app ns ms (f : list nat -> K) :
    sumL (ns ++ ms) f = sumL ns (fun l => sumL ms (fun k => f (l ++ k))).
  Proof.
    revert f. induction ns as [|n ns IH]; simpl; intros f; auto.
    apply sumN_ext. intros i Hi. rewrite IH. reflexivity.
  Qed.

  Lemma sumL_prod ns ms (f g : list nat -> K) :
    sumL ns f * sumL ms g = sumL ns (fun l => sumL ms (fun k => f l * g k)).
  Proof.
    rewrite <- sumL_mul_r. apply sumL_ext. intros l _.
    symmetry. apply sumL_mul_l.
  Qed.

  Lemma prodK_app (l1 l2 : list K) : prodK (l1 ++ l2) = prodK l1 * prodK l2.
  Proof. induction l1; simpl; [ring|]. rewrite IHl1. ring. Qed.

  Lemma lsum_app (l1 l2 : list K) : lsum (l1 ++ l2) = lsum l1 + lsum l2.
  Proof. induction l1; simpl; [ring|]. rewrite IHl1. ring. Qed.

  Lemma lsum_perm (l1 l2 : list K) : Permutation l1 l2 -> lsum l1 = lsum l2.
  Proof. induction 1; simpl; try congruence; ring. Qed.

  Lemma prodK_perm (l1 l2 : list K) : Permutation l1 l2 -> prodK l1 = prodK l2.
  Proof. induction 1; simpl; try congruence; ring. Qed.

  Lemma lsum_mul_l a (l : list K) : lsum (map (fun x => a * x) l) = a * lsum l.
  Proof. induction l; simpl; [ring|]. rewrite IHl. ring. Qed.

  Lemma lsum_mul_r a (l : list K) : lsum (map (fun x => x * a) l) = lsum l * a.
  Proof. induction l; simpl; [ring|]. rewrite IHl. ring. Qed.

  Lemma sumL_lsum {A} ns (l : list A) (f : A -> list nat -> K) :
    sumL ns (fun i => lsum (map (fun a => f a i) l)) =
    lsum (map (fun a => sumL ns (f a)) l).
  Proof.
    induction l; simpl.
    - apply sumL_0.
    - rewrite sumL_add, IHl. reflexivity.
  Qed.

  (** All index lists below a shape, as a list. *)
  Fixpoint allidx (ns : list nat) : list (list nat) :=
    match ns with
    | [] => [[]]
    | n :: ns' => flat_map (fun i => map (cons i) (allidx ns')) (seq 0 n)
    end.

  Lemma lsum_flat_map {A} (g : A -> list K) (l : list A) :
    lsum (flat_map g l) = lsum (map (fun x => lsum (g x)) l).
  Proof. induction l; simpl; auto. rewrite lsum_app, IHl. reflexivity. Qed.

  Lemma sumN_lsum n (f : nat -> K) : sumN n f = lsum (map f (seq 0 n)).
  Proof.
    induction n; auto.
    change (sumN (S n) f) with (sumN n f + f n).
    rewrite seq_S, map_app, lsum_app, IHn. simpl. ring.
  Qed.

  Lemma map_flat_map' {A B C} (f : B -> C) (g : A -> list B) l :
    map f (flat_map g l) = flat_map (fun x => map f (g x)) l.
  Proof. induction l; simpl; auto. rewrite map_app, IHl. reflexivity. Qed.

  Lemma sumL_allidx ns (f : list nat -> K) : sumL ns f = lsum (map f (allidx ns)).
  Proof.
    revert f. induction ns as [|n ns IH]; intros f.
    - simpl. ring.
    - cbn [sumL allidx]. rewrite sumN_lsum, map_flat_map', lsum_flat_map.
      f_equal. apply map_ext. intros i. rewrite IH, map_map. reflexivity.
  Qed.

  Lemma In_allidx ns l : In l (allidx ns) <-> Forall2 lt l ns.
  Proof.
    revert l. induction ns as [|n ns IH]; intros l; simpl.
    - split.
      + intros [<-|[]]. constructor.
      + intros H. inversion H. auto.
    - rewrite in_flat_map. split.
      + intros (i & Hi & H). apply in_seq in Hi. apply in_map_iff in H.
        destruct H as (l' & <- & H'). constructor; [lia|]. now apply IH.
      + intros H. inversion H as [|i n' l' ns' H1 H2]; subst.
        exists i. split; [apply in_seq; lia|]. apply in_map. now apply IH.
  Qed.

  Lemma NoDup_app' {A} (l1 l2 : list A) :
    NoDup l1 -> NoDup l2 -> (forall x, In x l1 -> ~ In x l2) -> NoDup (l1 ++ l2).
  Proof.
    induction l1 as [|x l1 IH]; simpl; intros H1 H2 Hd; auto.
    inversion H1; subst. constructor.
    - rewrite in_app_iff. intros [H|H]; auto. apply (Hd x); auto.
    - apply IH; auto.
  Qed.

  Lemma NoDup_allidx ns : NoDup (allidx ns).
  Proof.
    induction ns as [|n ns IH]; simpl.
    - constructor; auto. constructor.
    - generalize (seq_NoDup n 0). generalize (seq 0 n).
      induction l as [|i l IHl]; simpl; intros Hl; [constructor|].
      inversion Hl; subst. apply NoDup_app'; auto.
      + apply FinFun.Injective_map_NoDup; auto. intros x y E. now inversion E.
      + intros x Hx Hx'. apply in_map_iff in Hx. destruct Hx as (t & <- & _).
        apply in_flat_map in Hx'. destruct Hx' as (j & Hj & Hx').
        apply in_map_iff in Hx'. destruct Hx' as (t' & E & _).
        inversion E; subst. contradiction.
  Qed.

  (** Re-indexing a multiple sum along a bijection of in-range index lists. *)
  Lemma sumL_reindex ns ms (p q : list nat -> list nat) (f : list nat -> K) :
    (forall l, Forall2 lt l ms -> Forall2 lt (p l) ns) ->
    (forall l, Forall2 lt l ns -> Forall2 lt (q l) ms) ->
    (forall l, Forall2 lt l ms -> q (p l) = l) ->
    (forall l, Forall2 lt l ns -> p (q l) = l) ->
    sumL ns f = sumL ms (fun l => f (p l)).
  Proof.
    intros Hp Hq Hqp Hpq. rewrite !sumL_allidx.
    rewrite <- (map_map p f). apply lsum_perm. apply Permutation_map.
    apply NoDup_Permutation.
    - apply NoDup_allidx.
    - assert (forall L, (forall l, In l L -> Forall2 lt l ms) -> NoDup L -> NoDup (map p L)).
      { induction L as [|x L IH]; simpl; intros HL HN; [constructor|].
        inversion HN; subst. constructor.
        - intros HI. apply in_map_iff in HI. destruct HI as (y & E & Hy).
          assert (y = x).
          { rewrite <- (Hqp y), <- (Hqp x) by (apply HL; auto). congruence. }
          subst. contradiction.
        - apply IH; auto. }
      apply H; [|apply NoDup_allidx]. intros l. apply In_allidx.
    - intros l. rewrite In_allidx, in_map_iff. split.
      + intros H. exists (q l). split; auto. apply In_allidx. auto.
      + intros (k & <- & H). apply In_allidx in H. auto.
  Qed.

  (** Literals. *)
  Fixpoint nK (n : nat) : K := match n with O => 0 | S m => 1 + nK m end.

  Lemma nK_add n m : nK (n + m) = nK n + nK m.
  Proof. induction n; simpl; [ring|]. rewrite IHn. ring. Qed.

  Lemma nK_mul n m : nK (n * m) = nK n * nK m.
  Proof. induction n; simpl; [ring|]. rewrite nK_add, IHn. ring. Qed.

  Lemma pK_nK p : pK p = nK (Pos.to_nat p).
  Proof.
    induction p; cbn [pK].
    - rewrite Pos2Nat.inj_xI. cbn [nK Nat.mul]. rewrite Nat.add_0_r, nK_add, IHp. reflexivity.
    - rewrite Pos2Nat.inj_xO. cbn [Nat.mul]. rewrite Nat.add_0_r, nK_add, IHp. reflexivity.
    - simpl. ring.
  Qed.

  Lemma pK_add p q : pK (p + q) = pK p + pK q :> K.
  Proof. rewrite !pK_nK, Pos2Nat.inj_add. apply nK_add. Qed.

  Lemma pK_mul p q : pK (p * q) = pK p * pK q :> K.
  Proof. rewrite !pK_nK, Pos2Nat.inj_mul. apply nK_mul. Qed.

  Lemma zK_opp z : @zK K (- z) = - zK z.
  Proof. destruct z; simpl; ring. Qed.

  Lemma zK_pos_sub p q : @zK K (Z.pos_sub p q) = pK p - pK q.
  Proof.
    rewrite Z.pos_sub_spec. destruct (Pos.compare_spec p q) as [E|E|E].
    - subst. simpl. ring.
    - simpl. rewrite <- (Pos.sub_add q p E) at 2.
      rewrite pK_add. ring.
    - simpl. rewrite <- (Pos.sub_add p q E) at 2. rewrite pK_add. ring.
  Qed.

  Lemma zK_add z w : @zK K (z + w) = zK z + zK w.
  Proof.
    destruct z, w; simpl; rewrite ?zK_pos_sub, ?pK_add; try ring.
  Qed.

  Lemma zK_mul z w : @zK K (z * w) = zK z * zK w.
  Proof. destruct z, w; simpl; rewrite ?pK_mul; ring. Qed.

  Lemma halfpow_add a b : @halfpow K (a + b) = halfpow a * halfpow b.
  Proof. induction a; simpl; [ring|]. rewrite IHa. ring. Qed.

  Lemma half_two : (1 + 1) * chalf = (1 : K).
  Proof. rewrite <- (c_half K) at 3. ring. Qed.

  Lemma two_halfpow k : zK (2 ^ Z.of_nat k) * halfpow k = (1 : K).
  Proof.
    induction k.
    - simpl. ring.
    - rewrite Nat2Z.inj_succ, Z.pow_succ_r by lia. rewrite zK_mul.
      simpl halfpow. change (@zK K 2) with ((1:K) + 1).
      transitivity (((1 + 1) * chalf) * (zK (2 ^ Z.of_nat k) * halfpow k) : K); [ring|].
      rewrite half_two, IHk. ring.
  Qed.

  Lemma dyad_mul z a w b : dyad (z * w) (a + b) = dyad z a * dyad w b :> K.
  Proof. unfold dyad. rewrite zK_mul, halfpow_add. ring. Qed.

  Lemma dyad_opp z a : dyad (- z) a = - dyad z a :> K.
  Proof. unfold dyad. rewrite zK_opp. ring. Qed.

  Lemma dyad_add z a w b : (a <= b)%nat ->
    dyad (z * 2 ^ Z.of_nat (b - a) + w) b = dyad z a + dyad w b :> K.
  Proof.
    intros H. unfold dyad. rewrite zK_add, zK_mul.
    assert (E : halfpow b = halfpow a * halfpow (b - a) :> K)
      by (rewrite <- halfpow_add; f_equal; lia).
    transitivity (zK z * halfpow a * (zK (2 ^ Z.of_nat (b - a)) * halfpow (b - a))
                  + zK w * halfpow b : K).
    - rewrite E. ring.
    - rewrite two_halfpow. ring.
  Qed.

  Lemma dyad_0 a : dyad 0 a = 0 :> K.
  Proof. unfold dyad. simpl. ring. Qed.

  (** x = -x implies x = 0, because 1/2 is available. *)
  Lemma self_opp_zero (x : K) : x = - x -> x = 0.
  Proof.
    intros H. assert (E : x + x = 0) by (rewrite H at 1; ring).
    transitivity (((1 + 1) * chalf) * x); [rewrite half_two; ring|].
    transitivity (chalf * (x + x)); [ring|]. rewrite E. ring.
  Qed.
End SumLemmas.

(** ** Instances: the claims about every [cring] are not empty. *)

(** Rationals (axiom free, computable: used in the examples). *)
Definition QcK : cring.
Proof.
  refine (CRing Qc (Q2Qc (QArith_base.Qmake 0 1)) (Q2Qc (QArith_base.Qmake 1 1)) Qcplus Qcmult Qcminus Qcopp (Q2Qc (QArith_base.Qmake 1 2)) Qcrt _).
  apply Qc_is_canon. reflexivity.
Defined.

(** Dual numbers a + b*eps with eps^2 = 0 over any such ring; used to speak of
    exact directional derivatives. *)
Section Dual.
  Variable K : cring.
  Add Ring Kr2 : (c_th K).
  Local Open Scope K_scope.

  Definition dual_mul (x y : K * K) : K * K :=
    (fst x * fst y, fst x * snd y + snd x * fst y).

  Definition DualK : cring.
  Proof.
    refine (CRing (K * K) (0, 0) (1, 0)
             (fun x y => (fst x + fst y, snd x + snd y)) dual_mul
             (fun x y => (fst x - fst y, snd x - snd y))
             (fun x => (- fst x, - snd x)) (chalf, 0) _ _).
    - constructor; unfold dual_mul; intros; repeat
        match goal with x : car K * car K |- _ => destruct x end; simpl;
        f_equal; ring.
    - simpl. rewrite (c_half K). f_equal. ring.
  Defined.

  (** Complex numbers a + b*i over any such ring. *)
  Definition cplx_mul (x y : K * K) : K * K :=
    (fst x * fst y - snd x * snd y, fst x * snd y + snd x * fst y).

  Definition CplxK : cring.
  Proof.
    refine (CRing (K * K) (0, 0) (1, 0)
             (fun x y => (fst x + fst y, snd x + snd y)) cplx_mul
             (fun x y => (fst x - fst y, snd x - snd y))
             (fun x => (- fst x, - snd x)) (chalf, 0) _ _).
    - constructor; unfold cplx_mul; intros; repeat
        match goal with x : car K * car K |- _ => destruct x end; simpl;
        f_equal; ring.
    - simpl. rewrite (c_half K). f_equal. ring.
  Defined.
End Dual.
