(** Signs and bounds of second order energies. *)
From Coq Require Import List Arith Lia Reals Lra Psatz.
From Verif Require Import Scalar Tensor RoundSpec NegSpec.
Import ListNotations.
Local Open Scope R_scope.

Lemma Sum_S n f : Sum (S n) f = Sum n f + f n.
Proof. reflexivity. Qed.
Lemma Sum_le n f g : (forall i, (i < n)%nat -> f i <= g i) -> Sum n f <= Sum n g.
Proof. induction n as [|n IH]; intros H; [unfold Sum; cbn; lra|]. rewrite !Sum_S. pose proof (IH ltac:(intros; apply H; lia)). pose proof (H n ltac:(lia)). lra. Qed.
Lemma Sum_0 n : Sum n (fun _ => 0) = 0.
Proof. induction n as [|n IH]; [reflexivity|]. rewrite Sum_S, IH. lra. Qed.
Lemma Sum_ext n f g : (forall i, (i < n)%nat -> f i = g i) -> Sum n f = Sum n g.
Proof. induction n as [|n IH]; intros H; [reflexivity|]. rewrite !Sum_S, IH, H by (intros; try apply H; lia). reflexivity. Qed.
Lemma Sum_neg n f : (forall i, (i < n)%nat -> f i <= 0) -> Sum n f <= 0.
Proof. intros H. rewrite <- (Sum_0 n). apply Sum_le. exact H. Qed.
Lemma Sum_zero n f : (forall i, (i < n)%nat -> f i <= 0) -> Sum n f = 0 -> forall i, (i < n)%nat -> f i = 0.
Proof.
  induction n as [|n IH]; intros H E i Hi; [lia|]. rewrite Sum_S in E. pose proof (Sum_neg n f ltac:(intros; apply H; lia)). pose proof (H n ltac:(lia)).
  destruct (Nat.eq_dec i n) as [->|N]; [lra|]. apply IH; [intros; apply H; lia|lra|lia].
Qed.
Lemma Sum_scale n c f : Sum n (fun i => c * f i) = c * Sum n f.
Proof. induction n as [|n IH]; [unfold Sum; cbn; lra|]. rewrite !Sum_S, IH. lra. Qed.
Lemma Sum_add n f g : Sum n (fun i => f i + g i) = Sum n f + Sum n g.
Proof. induction n as [|n IH]; [unfold Sum; cbn; lra|]. rewrite !Sum_S, IH. lra. Qed.
Lemma Sum_swap n m f : Sum n (fun i => Sum m (f i)) = Sum m (fun j => Sum n (fun i => f i j)).
Proof.
  induction n as [|n IH]; [unfold Sum at 1; cbn; symmetry; apply Sum_0|]. rewrite Sum_S, IH, <- Sum_add. reflexivity.
Qed.

Definition Sum2 n m (f : nat -> nat -> R) := Sum n (fun i => Sum m (fun a => f i a)).
Definition Sum4 n n' m m' (f : nat -> nat -> nat -> nat -> R) := Sum n (fun i => Sum n' (fun j => Sum m (fun a => Sum m' (fun b => f i j a b)))).

(** sums of terms between -c q^2 and 0 that vanish only with q *)
Definition fine (c q x : R) := x <= 0 /\ - (c * (q * q)) <= x /\ (x = 0 <-> q = 0).
Lemma fine2 n m c q f : (forall i a, (i < n)%nat -> (a < m)%nat -> fine c (q i a) (f i a)) ->
  Sum2 n m f <= 0 /\ - (c * Sum2 n m (fun i a => q i a * q i a)) <= Sum2 n m f /\
  (Sum2 n m f = 0 <-> forall i a, (i < n)%nat -> (a < m)%nat -> q i a = 0).
Proof.
  intros H. unfold Sum2. split; [|split].
  - apply Sum_neg. intros i Hi. apply Sum_neg. intros a Ha. apply (H i a Hi Ha).
  - rewrite <- Ropp_mult_distr_l_reverse. rewrite <- Sum_scale. apply Sum_le. intros i Hi. rewrite <- Sum_scale. apply Sum_le. intros a Ha.
    destruct (H i a Hi Ha) as (_ & X & _). lra.
  - split.
    + intros E i a Hi Ha. apply (H i a Hi Ha).
      assert (E1 := Sum_zero n _ (fun i Hi => Sum_neg m _ (fun a Ha => proj1 (H i a Hi Ha))) E i Hi). cbv beta in E1.
      exact (Sum_zero m _ (fun a Ha => proj1 (H i a Hi Ha)) E1 a Ha).
    + intros Z. rewrite <- (Sum_0 n). apply Sum_ext. intros i Hi. rewrite <- (Sum_0 m). apply Sum_ext. intros a Ha. apply (H i a Hi Ha), Z; assumption.
Qed.
Lemma fine4 n n' m m' c q f : (forall i j a b, (i < n)%nat -> (j < n')%nat -> (a < m)%nat -> (b < m')%nat -> fine c (q i j a b) (f i j a b)) ->
  Sum4 n n' m m' f <= 0 /\ - (c * Sum4 n n' m m' (fun i j a b => q i j a b * q i j a b)) <= Sum4 n n' m m' f /\
  (Sum4 n n' m m' f = 0 <-> forall i j a b, (i < n)%nat -> (j < n')%nat -> (a < m)%nat -> (b < m')%nat -> q i j a b = 0).
Proof.
  intros H. unfold Sum4.
  assert (I : forall i j, (i < n)%nat -> (j < n')%nat -> _) by (intros i j Hi Hj; exact (fine2 m m' c (q i j) (f i j) (fun a b => H i j a b Hi Hj))).
  unfold Sum2 in I. cbv beta in I. split; [|split].
  - apply Sum_neg. intros i Hi. apply Sum_neg. intros j Hj. apply (I i j Hi Hj).
  - rewrite <- Ropp_mult_distr_l_reverse. rewrite <- Sum_scale. apply Sum_le. intros i Hi. rewrite <- Sum_scale. apply Sum_le. intros j Hj.
    destruct (I i j Hi Hj) as (_ & X & _). lra.
  - split.
    + intros E i j a b Hi Hj. apply (I i j Hi Hj).
      assert (E1 := Sum_zero n _ (fun i Hi => Sum_neg n' _ (fun j Hj => proj1 (I i j Hi Hj))) E i Hi). cbv beta in E1.
      exact (Sum_zero n' _ (fun j Hj => proj1 (I i j Hi Hj)) E1 j Hj).
    + intros Z. rewrite <- (Sum_0 n). apply Sum_ext. intros i Hi. rewrite <- (Sum_0 n'). apply Sum_ext. intros j Hj. apply (I i j Hi Hj). intros a b. apply Z; assumption.
Qed.

(** one term: v t with t d = -v and d >= g > 0 *)
Lemma term g d v t : 0 < g -> g <= d -> t * d = - v -> fine (/ g) v (v * t).
Proof.
  intros Hg Hd E. assert (Et : t = - (v / d)) by (apply (Rmult_eq_reg_r d); [rewrite E; field; lra|lra]).
  assert (Ev : v * t = - (v * v / d)) by (rewrite Et; field; lra). pose proof (Rle_0_sqr v) as Sq. unfold Rsqr in Sq.
  assert (Id : 0 < / d) by (apply Rinv_0_lt_compat; lra). assert (Ig : / d <= / g) by (apply Rinv_le_contravar; lra).
  unfold fine. rewrite Ev. unfold Rdiv. split; [nra|]. split; [nra|]. split.
  - intros Z. assert (v * v = 0) by nra. destruct (Rmult_integral v v H); assumption.
  - intros ->. lra.
Qed.
(** two terms that an exchange maps to each other *)
Lemma pair_term g d x y t u : 0 < g -> g <= d -> t * d = - x -> u * d = - y ->
  let e := (2 * x - y) * t + (2 * y - x) * u in
  e <= 0 /\ - (3 * / g * (x * x + y * y)) <= e /\ (e = 0 <-> x = 0 /\ y = 0).
Proof.
  intros Hg Hd E1 E2 e. assert (Id : 0 < / d) by (apply Rinv_0_lt_compat; lra). assert (Ig : / d <= / g) by (apply Rinv_le_contravar; lra).
  assert (Et : t = - x * / d) by (apply (Rmult_eq_reg_r d); [rewrite E1; field; lra|lra]).
  assert (Eu : u = - y * / d) by (apply (Rmult_eq_reg_r d); [rewrite E2; field; lra|lra]).
  assert (Ee : e = - ((x * x + y * y + (x - y) * (x - y)) * / d)) by (unfold e; rewrite Et, Eu; ring).
  pose proof (Rle_0_sqr x) as S1. pose proof (Rle_0_sqr y) as S2. pose proof (Rle_0_sqr (x - y)) as S3. pose proof (Rle_0_sqr (x + y)) as S4. unfold Rsqr in *.
  rewrite Ee. split; [nra|]. split.
  - assert (x * x + y * y + (x - y) * (x - y) <= 3 * (x * x + y * y)) by lra.
    assert ((x * x + y * y + (x - y) * (x - y)) * / d <= 3 * (x * x + y * y) * / g); [|lra].
    apply Rmult_le_compat; lra.
  - split.
    + intros Z. assert (x * x + y * y + (x - y) * (x - y) = 0) by nra.
      split; [destruct (Rmult_integral x x ltac:(lra)); assumption|destruct (Rmult_integral y y ltac:(lra)); assumption].
    + intros [-> ->]. lra.
Qed.
(** the double sum over a and b of such terms *)
Lemma pair_sum nv g (d t x : nat -> nat -> R) :
  0 < g -> (forall a b, (a < nv)%nat -> (b < nv)%nat -> g <= d a b /\ d a b = d b a /\ t a b * d a b = - x a b) ->
  let E := Sum nv (fun a => Sum nv (fun b => (2 * x a b - x b a) * t a b)) in
  E <= 0 /\ - (3 * / g * Sum nv (fun a => Sum nv (fun b => x a b * x a b))) <= E /\
  (E = 0 <-> forall a b, (a < nv)%nat -> (b < nv)%nat -> x a b = 0).
Proof.
  intros Hg H E.
  assert (D : 2 * E = Sum2 nv nv (fun a b => (2 * x a b - x b a) * t a b + (2 * x b a - x a b) * t b a)).
  { unfold E, Sum2. rewrite (Sum_ext nv (fun i => Sum nv (fun a => (2 * x i a - x a i) * t i a + (2 * x a i - x i a) * t a i))
      (fun i => Sum nv (fun a => (2 * x i a - x a i) * t i a) + Sum nv (fun a => (2 * x a i - x i a) * t a i))) by (intros; apply Sum_add).
    rewrite Sum_add. rewrite (Sum_swap nv nv (fun i a => (2 * x a i - x i a) * t a i)). lra. }
  assert (P : forall a b, (a < nv)%nat -> (b < nv)%nat -> _) by (intros a b Ha Hb;
    exact (let '(conj A (conj B C)) := H a b Ha Hb in let '(conj A' (conj B' C')) := H b a Hb Ha in
      pair_term g (d a b) (x a b) (x b a) (t a b) (t b a) Hg A C (eq_trans (f_equal (Rmult (t b a)) B) C'))).
  cbv zeta in P.
  assert (N : Sum2 nv nv (fun a b => (2 * x a b - x b a) * t a b + (2 * x b a - x a b) * t b a) <= 0).
  { apply Sum_neg. intros a Ha. apply Sum_neg. intros b Hb. apply (P a b Ha Hb). }
  split; [lra|]. split.
  - assert (L : - (3 * / g * Sum2 nv nv (fun a b => x a b * x a b + x b a * x b a)) <= 2 * E).
    { rewrite D. unfold Sum2. rewrite <- Ropp_mult_distr_l_reverse, <- Sum_scale. apply Sum_le. intros a Ha. rewrite <- Sum_scale. apply Sum_le. intros b Hb.
      destruct (P a b Ha Hb) as (_ & X & _). lra. }
    unfold Sum2 in L. rewrite (Sum_ext nv (fun i => Sum nv (fun a => x i a * x i a + x a i * x a i))
      (fun i => Sum nv (fun a => x i a * x i a) + Sum nv (fun a => x a i * x a i))) in L by (intros; apply Sum_add).
    rewrite Sum_add in L. rewrite (Sum_swap nv nv (fun i a => x a i * x a i)) in L. lra.
  - split.
    + intros Z a b Ha Hb. rewrite Z, Rmult_0_r in D. symmetry in D.
      assert (E1 := Sum_zero nv _ (fun i Hi => Sum_neg nv _ (fun j Hj => proj1 (P i j Hi Hj))) D a Ha). cbv beta in E1.
      assert (E2 := Sum_zero nv _ (fun j Hj => proj1 (P a j Ha Hj)) E1 b Hb). apply (P a b Ha Hb) in E2. apply E2.
    + intros Z. assert (X : E = Sum nv (fun _ => Sum nv (fun _ => 0))).
      { unfold E. apply Sum_ext. intros a Ha. apply Sum_ext. intros b Hb. rewrite (Z a b Ha Hb), (Z b a Hb Ha). lra. }
      rewrite X. rewrite (Sum_ext nv _ (fun _ => 0)) by (intros; apply Sum_0). apply Sum_0.
Qed.
