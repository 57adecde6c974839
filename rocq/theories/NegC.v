(** Signs and bounds of second order energies, complex orbitals. *)
From Coq Require Import List Arith ZArith Lia Reals Lra Psatz.
From Verif Require Import Scalar Tensor RoundSpec NegSpec Neg NegCSpec RPTSpec.
Import ListNotations.
Local Open Scope R_scope.

Lemma fstS n (f : nat -> CK) : fst (sumN n f) = Sum n (fun i => fst (f i)).
Proof. induction n as [|n IH]; [reflexivity|]. rewrite Sum_S, <- IH. reflexivity. Qed.
Lemma sndS n (f : nat -> CK) : snd (sumN n f) = Sum n (fun i => snd (f i)).
Proof. induction n as [|n IH]; [reflexivity|]. rewrite Sum_S, <- IH. reflexivity. Qed.
Lemma m2_pos z : 0 <= modulus2 z.
Proof. unfold modulus2. pose proof (Rle_0_sqr (fst z)). pose proof (Rle_0_sqr (snd z)). unfold Rsqr in *. lra. Qed.
Lemma m2_sqrt z : sqrt (modulus2 z) * sqrt (modulus2 z) = modulus2 z.
Proof. apply sqrt_def, m2_pos. Qed.
Lemma m2_0 z : modulus2 z = 0 <-> z = (0, 0).
Proof.
  destruct z as [x y]. unfold modulus2. cbn [fst snd]. split; [|intros E; injection E as -> ->; ring]. intros E.
  pose proof (Rle_0_sqr x). pose proof (Rle_0_sqr y). unfold Rsqr in *.
  assert (x * x = 0) by lra. assert (y * y = 0) by lra.
  f_equal; [destruct (Rmult_integral x x H1)|destruct (Rmult_integral y y H2)]; assumption.
Qed.
Lemma sqrt_m2_0 z : sqrt (modulus2 z) = 0 <-> z = (0, 0).
Proof.
  rewrite <- m2_0. split; intros E; [rewrite <- m2_sqrt, E; ring|]. rewrite E. apply sqrt_0.
Qed.
Lemma m2_conj z : modulus2 (conj_of z) = modulus2 z.
Proof. unfold modulus2, conj_of. cbn [fst snd]. ring. Qed.
Lemma conj_0 z : conj_of z = (0, 0) <-> z = (0, 0).
Proof. rewrite <- !m2_0, m2_conj. reflexivity. Qed.

(** sums of complex terms *)
Definition fineC (c : R) (q x : CK) := snd x = 0 /\ fine c (sqrt (modulus2 q)) (fst x).
Lemma fineC2 n m c (q f : nat -> nat -> CK) : (forall i a, (i < n)%nat -> (a < m)%nat -> fineC c (q i a) (f i a)) ->
  let e : CK := sumN n (fun i => sumN m (fun a => f i a)) in
  snd e = 0 /\ fst e <= 0 /\ - (c * Sum2 n m (fun i a => modulus2 (q i a))) <= fst e /\
  (fst e = 0 <-> forall i a, (i < n)%nat -> (a < m)%nat -> q i a = (0, 0)).
Proof.
  intros H e.
  assert (F : fst e = Sum2 n m (fun i a => fst (f i a))).
  { unfold e, Sum2. rewrite fstS. apply Sum_ext. intros i Hi. apply fstS. }
  destruct (fine2 n m c (fun i a => sqrt (modulus2 (q i a))) (fun i a => fst (f i a)) (fun i a Hi Ha => proj2 (H i a Hi Ha))) as (A & B & C).
  rewrite F. split; [|split; [exact A|split]].
  - unfold e. rewrite sndS. transitivity (Sum n (fun _ => 0)); [|apply Sum_0]. apply Sum_ext. intros i Hi. rewrite sndS.
    transitivity (Sum m (fun _ => 0)); [|apply Sum_0]. apply Sum_ext. intros a Ha. apply (H i a Hi Ha).
  - replace (Sum2 n m (fun i a => modulus2 (q i a))) with (Sum2 n m (fun i a => sqrt (modulus2 (q i a)) * sqrt (modulus2 (q i a)))); [exact B|].
    unfold Sum2. apply Sum_ext. intros i _. apply Sum_ext. intros a _. apply m2_sqrt.
  - rewrite C. split; intros Z i a Hi Ha; apply sqrt_m2_0, Z; assumption.
Qed.
Lemma fineC4 n n' m m' c (q f : nat -> nat -> nat -> nat -> CK) :
  (forall i j a b, (i < n)%nat -> (j < n')%nat -> (a < m)%nat -> (b < m')%nat -> fineC c (q i j a b) (f i j a b)) ->
  let e : CK := sumN n (fun i => sumN n' (fun j => sumN m (fun a => sumN m' (fun b => f i j a b)))) in
  snd e = 0 /\ fst e <= 0 /\ - (c * Sum4 n n' m m' (fun i j a b => modulus2 (q i j a b))) <= fst e /\
  (fst e = 0 <-> forall i j a b, (i < n)%nat -> (j < n')%nat -> (a < m)%nat -> (b < m')%nat -> q i j a b = (0, 0)).
Proof.
  intros H e.
  assert (F : fst e = Sum4 n n' m m' (fun i j a b => fst (f i j a b))).
  { unfold e, Sum4. rewrite fstS. apply Sum_ext. intros i Hi. rewrite fstS. apply Sum_ext. intros j Hj. rewrite fstS. apply Sum_ext. intros a Ha. apply fstS. }
  destruct (fine4 n n' m m' c (fun i j a b => sqrt (modulus2 (q i j a b))) (fun i j a b => fst (f i j a b))
    (fun i j a b Hi Hj Ha Hb => proj2 (H i j a b Hi Hj Ha Hb))) as (A & B & C).
  rewrite F. split; [|split; [exact A|split]].
  - unfold e. rewrite sndS. transitivity (Sum n (fun _ => 0)); [|apply Sum_0]. apply Sum_ext. intros i Hi. rewrite sndS.
    transitivity (Sum n' (fun _ => 0)); [|apply Sum_0]. apply Sum_ext. intros j Hj. rewrite sndS.
    transitivity (Sum m (fun _ => 0)); [|apply Sum_0]. apply Sum_ext. intros a Ha. rewrite sndS.
    transitivity (Sum m' (fun _ => 0)); [|apply Sum_0]. apply Sum_ext. intros b Hb. apply (H i j a b Hi Hj Ha Hb).
  - replace (Sum4 n n' m m' (fun i j a b => modulus2 (q i j a b)))
      with (Sum4 n n' m m' (fun i j a b => sqrt (modulus2 (q i j a b)) * sqrt (modulus2 (q i j a b)))); [exact B|].
    unfold Sum4. apply Sum_ext. intros i _. apply Sum_ext. intros j _. apply Sum_ext. intros a _. apply Sum_ext. intros b _. apply m2_sqrt.
  - rewrite C. split; intros Z i j a b Hi Hj Ha Hb; apply sqrt_m2_0, Z; assumption.
Qed.

(** t d = - v with a real d *)
Lemma parts (d v t : CK) : snd d = 0 -> (t * d = - v)%K -> fst t * fst d = - fst v /\ snd t * fst d = - snd v.
Proof.
  destruct d as [d d'], v as [x y], t as [s r]. cbn [fst snd]. intros -> E. cbn in E. unfold cplx_mul in E. cbn in E.
  injection E as E1 E2. split; lra.
Qed.
Lemma termC g (d v t : CK) : 0 < g -> g <= fst d -> snd d = 0 -> (t * d = - v)%K -> fineC (/ g) v (conj_of v * t)%K.
Proof.
  intros Hg Hd D0 E. destruct (parts d v t D0 E) as [E1 E2].
  destruct (term g (fst d) (fst v) (fst t) Hg Hd E1) as (A1 & A2 & A3).
  destruct (term g (fst d) (snd v) (snd t) Hg Hd E2) as (B1 & B2 & B3).
  assert (F : fst (conj_of v * t)%K = fst v * fst t + snd v * snd t) by (cbn; ring).
  assert (S : snd (conj_of v * t)%K = fst v * snd t - snd v * fst t) by (cbn; ring).
  split.
  - rewrite S. apply (Rmult_eq_reg_r (fst d)); [|lra].
    transitivity (fst v * (snd t * fst d) - snd v * (fst t * fst d)); [ring|]. rewrite E1, E2. ring.
  - unfold fine. rewrite F, m2_sqrt, sqrt_m2_0. unfold modulus2. split; [lra|]. split; [lra|]. split.
    + intros Z. destruct v as [x y]. cbn [fst snd] in *. f_equal; [apply A3|apply B3]; lra.
    + intros Z. rewrite Z. cbn [fst snd]. ring.
Qed.

(** closed shells: the sum over a and b *)
Lemma pair_sumC nv g (d : nat -> nat -> R) (t x w : nat -> nat -> CK) : 0 < g ->
  (forall a b, (a < nv)%nat -> (b < nv)%nat -> g <= d a b /\ d a b = d b a /\
     fst (t a b) * d a b = - fst (x a b) /\ snd (t a b) * d a b = - snd (x a b) /\ w a b = conj_of (x a b)) ->
  let E : CK := sumN nv (fun a => sumN nv (fun b => ((1 + 1) * w a b - w b a) * t a b))%K in
  snd E = 0 /\ fst E <= 0 /\ - (3 * / g * Sum nv (fun a => Sum nv (fun b => modulus2 (x a b)))) <= fst E /\
  (fst E = 0 <-> forall a b, (a < nv)%nat -> (b < nv)%nat -> x a b = (0, 0)).
Proof.
  intros Hg H E.
  destruct (pair_sum nv g d (fun a b => fst (t a b)) (fun a b => fst (x a b)) Hg) as (A1 & A2 & A3).
  { intros a b Ha Hb. destruct (H a b Ha Hb) as (P & Q & R1 & R2 & _). auto. }
  destruct (pair_sum nv g d (fun a b => snd (t a b)) (fun a b => snd (x a b)) Hg) as (B1 & B2 & B3).
  { intros a b Ha Hb. destruct (H a b Ha Hb) as (P & Q & R1 & R2 & _). auto. }
  cbv beta in A1, A2, A3, B1, B2, B3.
  assert (F : fst E = Sum nv (fun a => Sum nv (fun b => (2 * fst (x a b) - fst (x b a)) * fst (t a b)))
    + Sum nv (fun a => Sum nv (fun b => (2 * snd (x a b) - snd (x b a)) * snd (t a b)))).
  { rewrite <- Sum_add. unfold E. rewrite fstS. apply Sum_ext. intros a Ha. rewrite <- Sum_add, fstS. apply Sum_ext. intros b Hb.
    destruct (H a b Ha Hb) as (_ & _ & _ & _ & ->). destruct (H b a Hb Ha) as (_ & _ & _ & _ & ->). cbn. ring. }
  assert (M : Sum nv (fun a => Sum nv (fun b => modulus2 (x a b)))
    = Sum nv (fun a => Sum nv (fun b => fst (x a b) * fst (x a b))) + Sum nv (fun a => Sum nv (fun b => snd (x a b) * snd (x a b)))).
  { rewrite <- Sum_add. apply Sum_ext. intros a _. rewrite <- Sum_add. reflexivity. }
  split; [|rewrite F; split; [lra|split; [rewrite M; lra|]]].
  - set (k := fun a b => (fst (x b a) * snd (x a b) - snd (x b a) * fst (x a b)) * / d a b).
    assert (S : snd E = Sum nv (fun a => Sum nv (fun b => k a b))).
    { unfold E. rewrite sndS. apply Sum_ext. intros a Ha. rewrite sndS. apply Sum_ext. intros b Hb.
      destruct (H a b Ha Hb) as (P & _ & R1 & R2 & ->). destruct (H b a Hb Ha) as (_ & _ & _ & _ & ->). unfold k.
      assert (T1 : fst (t a b) = - fst (x a b) * / d a b) by (apply (Rmult_eq_reg_r (d a b)); [rewrite R1; field; lra|lra]).
      assert (T2 : snd (t a b) = - snd (x a b) * / d a b) by (apply (Rmult_eq_reg_r (d a b)); [rewrite R2; field; lra|lra]).
      transitivity ((2 * fst (x a b) - fst (x b a)) * snd (t a b) - (2 * snd (x a b) - snd (x b a)) * fst (t a b)); [cbn; ring|].
      rewrite T1, T2. ring. }
    assert (N : snd E = - snd E); [|lra]. rewrite S at 1. etransitivity; [apply (Sum_swap nv nv k)|]. rewrite S.
    replace (- Sum nv (fun a => Sum nv (fun b => k a b))) with (-1 * Sum nv (fun a => Sum nv (fun b => k a b))) by ring.
    rewrite <- Sum_scale. apply Sum_ext. intros a Ha. rewrite <- Sum_scale. apply Sum_ext. intros b Hb. unfold k.
    destruct (H a b Ha Hb) as (_ & -> & _). ring.
  - split.
    + intros Z a b Ha Hb. apply injective_projections; cbn [fst snd]; [apply A3|apply B3]; trivial; lra.
    + intros Z. rewrite (proj2 A3), (proj2 B3) by (intros a b Ha Hb; rewrite Z by assumption; reflexivity). apply Rplus_0_l.
Qed.

Lemma pair_sumC4 no nv g (d : nat -> nat -> nat -> nat -> R) (t x w : nat -> nat -> nat -> nat -> CK) : 0 < g ->
  (forall i j a b, (i < no)%nat -> (j < no)%nat -> (a < nv)%nat -> (b < nv)%nat -> g <= d i j a b /\ d i j a b = d i j b a /\
     fst (t i j a b) * d i j a b = - fst (x i j a b) /\ snd (t i j a b) * d i j a b = - snd (x i j a b) /\ w i j a b = conj_of (x i j a b)) ->
  let E : CK := sumN no (fun i => sumN no (fun j => sumN nv (fun a => sumN nv (fun b => ((1 + 1) * w i j a b - w i j b a) * t i j a b))))%K in
  snd E = 0 /\ fst E <= 0 /\ - (3 * / g * Sum4 no no nv nv (fun i j a b => modulus2 (x i j a b))) <= fst E /\
  (fst E = 0 <-> forall i j a b, (i < no)%nat -> (j < no)%nat -> (a < nv)%nat -> (b < nv)%nat -> x i j a b = (0, 0)).
Proof.
  intros Hg H E.
  set (inn := fun i j => (sumN nv (fun a => sumN nv (fun b => ((1 + 1) * w i j a b - w i j b a) * t i j a b)))%K : CK).
  assert (P : forall i j, (i < no)%nat -> (j < no)%nat -> _) by (intros i j Hi Hj;
    exact (pair_sumC nv g (d i j) (t i j) (x i j) (w i j) Hg (fun a b Ha Hb => H i j a b Hi Hj Ha Hb))).
  cbv zeta in P.
  assert (F : fst E = Sum no (fun i => Sum no (fun j => fst (inn i j)))).
  { unfold E. rewrite fstS. apply Sum_ext. intros i Hi. apply fstS. }
  rewrite F. split; [|split; [|split]].
  - unfold E. rewrite sndS. transitivity (Sum no (fun _ => 0)); [|apply Sum_0]. apply Sum_ext. intros i Hi. rewrite sndS.
    transitivity (Sum no (fun _ => 0)); [|apply Sum_0]. apply Sum_ext. intros j Hj. apply (P i j Hi Hj).
  - apply Sum_neg. intros i Hi. apply Sum_neg. intros j Hj. apply (P i j Hi Hj).
  - unfold Sum4. rewrite <- Ropp_mult_distr_l_reverse, <- Sum_scale. apply Sum_le. intros i Hi. rewrite <- Sum_scale. apply Sum_le. intros j Hj.
    rewrite Ropp_mult_distr_l_reverse. apply (P i j Hi Hj).
  - split.
    + intros Z i j a b Hi Hj. apply (P i j Hi Hj).
      assert (E1 := Sum_zero no _ (fun i Hi => Sum_neg no _ (fun j Hj => proj1 (proj2 (P i j Hi Hj)))) Z i Hi). cbv beta in E1.
      exact (Sum_zero no _ (fun j Hj => proj1 (proj2 (P i j Hi Hj))) E1 j Hj).
    + intros Z. transitivity (Sum no (fun _ => 0)); [|apply Sum_0]. apply Sum_ext. intros i Hi.
      transitivity (Sum no (fun _ => 0)); [|apply Sum_0]. apply Sum_ext. intros j Hj. apply (P i j Hi Hj). intros a b Ha Hb. apply Z; assumption.
Qed.

(** the crystal *)
From Verif Require Import IntegralsModel IntegralsSpec KSpec KModel KFacts KProofs.
Section Crystal.
  Add Ring CrNC : (c_th CK).
  Lemma conj_add (x y : CK) : conj_of (x + y)%K = (conj_of x + conj_of y)%K.
  Proof. apply injective_projections; cbn; ring. Qed.
  Lemma conj_mul (x y : CK) : conj_of (x * y)%K = (conj_of x * conj_of y)%K.
  Proof. apply injective_projections; cbn; ring. Qed.
  Lemma conj_conj (x : CK) : conj_of (conj_of x) = x.
  Proof. apply injective_projections; [reflexivity|apply Ropp_involutive]. Qed.
  Lemma conj_sum n (h : nat -> CK) : conj_of (sumN n h) = sumN n (fun i => conj_of (h i)).
  Proof. induction n as [|n IH]; [apply injective_projections; [reflexivity|apply Ropp_0]|]. cbn [sumN]. rewrite conj_add, IH. reflexivity. Qed.
  Lemma conj_real (x : RK) : conj_of (of_real x) = of_real x.
  Proof. apply injective_projections; [reflexivity|apply Ropp_0]. Qed.

  Variable f : kscf CK.
  Hypothesis Herm : k_hermitian f.
  Hypothesis G : momentum_group f.
  Lemma kERI_conj k1 k2 k3 k4 c1 c2 c3 c4 : conj_of (kERI f k1 k2 k3 k4 c1 c2 c3 c4) = kERI f k2 k1 k4 k3 c2 c1 c4 c3.
  Proof.
    destruct Herm as [B E]. unfold kERI, ERI. cbn [nao bar eri].
    transitivity (sumN (k_nao f) (fun mu => sumN (k_nao f) (fun nu => sumN (k_nao f) (fun la => sumN (k_nao f) (fun si =>
      (k_bar f (c2 nu) * c1 mu * (k_bar f (c4 si) * c3 la) * k_eri f k2 k1 k4 k3 [nu; mu; si; la])%K))))).
    - rewrite conj_sum. apply sumN_ext. intros mu _. rewrite conj_sum. apply sumN_ext. intros nu _. rewrite conj_sum. apply sumN_ext. intros la _.
      rewrite conj_sum. apply sumN_ext. intros si _. rewrite !conj_mul, E, !B, !conj_conj. ring.
    - rewrite sumN_swap. apply sumN_ext. intros nu _. apply sumN_ext. intros mu _. rewrite sumN_swap. reflexivity.
  Qed.

  Variables nocc nvir : nat.
  Notation nk := (k_n f).
  Lemma mo_lt P : (P < nk * nocc + nk * nvir)%nat -> (momentum_of nk nocc nvir P < nk)%nat.
  Proof. intros L. apply (proj1 (KFacts.crystal_orbitals nk nocc nvir) P L). Qed.
  Lemma I_adjoint (w : RK) P Q S T : (P < nk * nocc + nk * nvir)%nat -> (Q < nk * nocc + nk * nvir)%nat ->
    (S < nk * nocc + nk * nvir)%nat -> (T < nk * nocc + nk * nvir)%nat ->
    crystal_I f (of_real w) nocc nvir P Q S T = conj_of (crystal_I f (of_real w) nocc nvir S T P Q).
  Proof.
    intros LP LQ LS LT. apply mo_lt in LP, LQ, LS, LT. unfold crystal_I.
    set (kP := momentum_of nk nocc nvir P) in *. set (kQ := momentum_of nk nocc nvir Q) in *.
    set (kS := momentum_of nk nocc nvir S) in *. set (kT := momentum_of nk nocc nvir T) in *.
    destruct (Nat.eqb (kconserv f kP kS kQ) kT) eqn:E.
    - apply Nat.eqb_eq in E. destruct (kc_cancel CK f G _ _ _ _ LP LS LQ LT E) as (E1 & _). rewrite E1, Nat.eqb_refl.
      rewrite conj_mul, conj_real, kERI_conj. reflexivity.
    - destruct (Nat.eqb (kconserv f kS kP kT) kQ) eqn:E2; [|symmetry; apply conj_0; reflexivity].
      apply Nat.eqb_eq in E2. apply Nat.eqb_neq in E. destruct (kc_cancel CK f G _ _ _ _ LS LP LT LQ E2) as (E1 & _). congruence.
  Qed.

  Variable e : nat -> nat -> R.
  Hypothesis Ok : kscf_ok f.
  Hypothesis M : k_nmo f = (nocc + nvir)%nat.
  Variable g : R.
  Hypothesis Hg : 0 < g.
  Hypothesis Gap : forall k l a i, (k < nk)%nat -> (l < nk)%nat -> (a < nvir)%nat -> (i < nocc)%nat -> e l i + g <= e k (nocc + a)%nat.
  Notation no := (nk * nocc)%nat.
  Notation nv := (nk * nvir)%nat.
  Notation w := (of_real (R := RK) (/ zK (K := RK) (Z.of_nat nk))).
  Notation I := (crystal_I f w nocc nvir).

  Definition cd (i j a b : nat) : R :=
    e (momentum_of nk nocc nvir (no + a)) (orbital_of nk nocc nvir (no + a)) + e (momentum_of nk nocc nvir (no + b)) (orbital_of nk nocc nvir (no + b))
    - e (momentum_of nk nocc nvir i) (orbital_of nk nocc nvir i) - e (momentum_of nk nocc nvir j) (orbital_of nk nocc nvir j).
  Lemma vir_part a : (a < nv)%nat -> exists k a', (k < nk)%nat /\ (a' < nvir)%nat /\ momentum_of nk nocc nvir (no + a) = k /\ orbital_of nk nocc nvir (no + a) = (nocc + a')%nat.
  Proof.
    intros L. destruct (proj1 (KFacts.crystal_orbitals nk nocc nvir) (no + a)%nat ltac:(lia)) as (A & B & C).
    exists (momentum_of nk nocc nvir (no + a)), (orbital_of nk nocc nvir (no + a) - nocc)%nat.
    assert (nocc <= orbital_of nk nocc nvir (no + a))%nat. { destruct (Nat.le_gt_cases nocc (orbital_of nk nocc nvir (no + a))) as [X|X]; [exact X|]. apply C in X. lia. }
    repeat split; lia.
  Qed.
  Lemma occ_part i : (i < no)%nat -> (momentum_of nk nocc nvir i < nk)%nat /\ (orbital_of nk nocc nvir i < nocc)%nat.
  Proof. intros L. destruct (proj1 (KFacts.crystal_orbitals nk nocc nvir) i ltac:(lia)) as (A & B & C). split; [exact A|]. apply C, L. Qed.

  Lemma crystal_sign :
    let E : CK := closed_pairs no nv I (t2 RK Rinv f e nocc nvir) in
    snd E = 0 /\ fst E <= 0 /\
    - (3 * / (2 * g) * Sum4 no no nv nv (fun i j a b => modulus2 (I i j (no + a)%nat (no + b)%nat))) <= fst E /\
    (fst E = 0 <-> forall i j a b, (i < no)%nat -> (j < no)%nat -> (a < nv)%nat -> (b < nv)%nat -> I i j (no + a)%nat (no + b)%nat = (0, 0)).
  Proof.
    intros E.
    destruct (pair_sumC4 no nv (2 * g) cd (fun i j a b => t2 RK Rinv f e nocc nvir a b i j) (fun i j a b => I (no + a)%nat (no + b)%nat i j)
      (fun i j a b => I i j (no + a)%nat (no + b)%nat)) as (A & B & C & D); [lra| |].
    - intros i j a b Li Lj La Lb.
      destruct (vir_part a La) as (ka & a' & Lka & La' & E1 & E2). destruct (vir_part b Lb) as (kb & b' & Lkb & Lb' & E3 & E4).
      destruct (occ_part i Li) as (Lki & Li'). destruct (occ_part j Lj) as (Lkj & Lj').
      assert (D2 : 2 * g <= cd i j a b).
      { unfold cd. rewrite E1, E2, E3, E4. pose proof (Gap _ _ _ _ Lka Lki La' Li'). pose proof (Gap _ _ _ _ Lkb Lkj Lb' Lj'). lra. }
      split; [exact D2|]. split; [unfold cd; ring|].
      assert (T : t2 RK Rinv f e nocc nvir a b i j = (- I (no + a)%nat (no + b)%nat i j * of_real (R := RK) (/ cd i j a b))%K) by reflexivity.
      rewrite T. set (v := I (no + a)%nat (no + b)%nat i j).
      split; [|split; [|apply I_adjoint; lia]].
      + transitivity (- fst v * (/ cd i j a b * cd i j a b)); [cbn; ring|]. rewrite Rinv_l by lra. ring.
      + transitivity (- snd v * (/ cd i j a b * cd i j a b)); [cbn; ring|]. rewrite Rinv_l by lra. ring.
    - split; [exact A|]. split; [exact B|]. split.
      + replace (Sum4 no no nv nv (fun i j a b => modulus2 (I i j (no + a)%nat (no + b)%nat)))
          with (Sum4 no no nv nv (fun i j a b => modulus2 (I (no + a)%nat (no + b)%nat i j))); [exact C|].
        unfold Sum4. apply Sum_ext. intros i Li. apply Sum_ext. intros j Lj. apply Sum_ext. intros a La. apply Sum_ext. intros b Lb.
        rewrite (I_adjoint _ i j (no + a) (no + b)) by lia. symmetry. apply m2_conj.
      + refine (iff_trans D _). clear - G Herm. split; intros Z i j a b Li Lj La Lb.
        * rewrite (I_adjoint _ i j (no + a) (no + b)) by lia. apply conj_0, Z; assumption.
        * rewrite (I_adjoint _ (no + a) (no + b) i j) by lia. apply conj_0, Z; assumption.
  Qed.
End Crystal.

Lemma pK_pos p : pK (K := RK) p = IZR (Zpos p).
Proof.
  induction p as [p IH|p IH|]; cbn [pK]; [| |reflexivity].
  - rewrite IH. rewrite (Pos2Z.inj_xI p), plus_IZR, mult_IZR. cbn. ring.
  - rewrite IH. rewrite (Pos2Z.inj_xO p), mult_IZR. cbn. ring.
Qed.
Lemma zK_INR n : zK (K := RK) (Z.of_nat n) = INR n.
Proof.
  rewrite INR_IZR_INZ. destruct (Z.of_nat n) eqn:E; cbn [zK]; [reflexivity|apply pK_pos|].
  pose proof (Zle_0_nat n). lia.
Qed.
