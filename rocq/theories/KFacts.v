(** Facts about the k-point calculations. *)
From Coq Require Import String.
From Coq Require Import List Bool Arith ZArith Lia Ring.
From Verif Require Import Scalar Tensor NpModel IntegralsModel IntegralsSpec IntegralsFacts IntegralsK
  CISpec CIExpSpec UFockSpec UFock ExSpec ExClosed KSpec KModel.
Import ListNotations.

Section Group.
  Variable K : cring.
  Variable f : kscf K.
  Hypothesis G : momentum_group f.
  Notation N := (k_n f).
  Notation kc := (kconserv f).
  Ltac ex_group := destruct G as (plus & opp & z & Hz & Hi & Hc & Ha & Hk);
    assert (Pl : forall a b, a < N -> b < N -> plus a b < N) by (intros; apply Hc; assumption);
    assert (Ol : forall a, a < N -> opp a < N) by (intros; apply Hi; assumption);
    assert (Cm : forall a b, a < N -> b < N -> plus a b = plus b a) by (intros; apply Hc; assumption);
    assert (Iv : forall a, a < N -> plus a (opp a) = z) by (intros; apply Hi; assumption);
    assert (Id : forall a, a < N -> plus z a = a) by (intros; apply Hi; assumption).

  Lemma kc_lt a b c : a < N -> b < N -> c < N -> kc a b c < N.
  Proof. intros A B C. ex_group. rewrite Hk by assumption. auto. Qed.
  Lemma kc_right a b : a < N -> b < N -> kc a b b = a.
  Proof.
    intros A B. ex_group. rewrite Hk by assumption. rewrite <- Ha by auto. rewrite (Cm (opp b) b) by auto. rewrite Iv, Cm, Id by auto. reflexivity.
  Qed.
  Lemma kc_left a b : a < N -> b < N -> kc a a b = b.
  Proof. intros A B. ex_group. rewrite Hk by assumption. rewrite Iv, Id by auto. reflexivity. Qed.
  Lemma kc_cancel a b c d : a < N -> b < N -> c < N -> d < N -> kc a b c = d -> kc b a d = c /\ kc b c d = a /\ kc a d c = b /\ kc c d a = b.
  Proof.
    intros A B C D E. ex_group. rewrite Hk in E by assumption. subst d.
    assert (O2 : forall a, a < N -> opp (opp a) = a).
    { intros x X. rewrite <- (Id (opp (opp x))) by auto. rewrite <- (Iv x X), <- Ha, Iv, Cm, Id by auto. reflexivity. }
    assert (OP : forall a b, a < N -> b < N -> opp (plus a b) = plus (opp a) (opp b)).
    { intros x y X Y. transitivity (plus (plus (plus x y) (plus (opp x) (opp y))) (opp (plus x y))).
      - replace (plus (plus x y) (plus (opp x) (opp y))) with z; [rewrite Id by auto; reflexivity|].
        rewrite (Cm x y), <- Ha by auto. rewrite (Ha x) by auto. rewrite Iv, Id, Iv by auto. reflexivity.
      - rewrite (Cm (plus x y)) by auto. rewrite <- Ha, Iv, Cm, Id by auto. reflexivity. }
    assert (X1 : forall x y, x < N -> y < N -> plus (plus x (opp y)) y = x).
    { intros x y X Y. rewrite <- Ha, (Cm (opp y)), Iv, Cm, Id by auto. reflexivity. }
    assert (X2 : forall x y, x < N -> y < N -> plus x (plus (opp x) y) = y).
    { intros x y X Y. rewrite Ha, Iv, Id by auto. reflexivity. }
    rewrite !Hk by auto. repeat split.
    - rewrite (Ha (plus b (opp a)) (plus a (opp b)) c) by auto. rewrite (Ha (plus b (opp a)) a (opp b)) by auto. rewrite X1, Iv, Id by auto. reflexivity.
    - rewrite (Cm (plus a (opp b)) c) by auto. rewrite (Ha (plus b (opp c)) c (plus a (opp b))) by auto. rewrite X1, (Cm a), X2 by auto. reflexivity.
    - rewrite !OP, O2 by auto. rewrite (Ha a (plus (opp a) b) (opp c)) by auto. rewrite X2, X1 by auto. reflexivity.
    - rewrite !OP, O2 by auto. rewrite (Cm (plus (opp a) b) (opp c)) by auto. rewrite X2, (Cm (opp a)), X1 by auto. reflexivity.
  Qed.
  Lemma group_table : momentum_table f.
  Proof.
    intros a b c A B C. cbv zeta. pose proof (kc_lt a b c A B C) as D. destruct (kc_cancel a b c _ A B C D eq_refl) as (_ & _ & E1 & E2). auto.
  Qed.
End Group.

Section Sums.
  Variable K : cring.
  Local Open Scope K_scope.
  Add Ring KrKF : (c_th K).
  Lemma for_range_ext {A} n (s s' : nat -> A -> A) x : (forall k a, (k < n)%nat -> s k a = s' k a) -> for_range n s x = for_range n s' x.
  Proof.
    intros E. unfold for_range. assert (G : forall l y, (forall k, In k l -> (k < n)%nat) -> fold_left (fun a k => s k a) l y = fold_left (fun a k => s' k a) l y).
    { induction l as [|k l IH]; intros y L; [reflexivity|]. cbn. rewrite E by (apply L; left; reflexivity). apply IH. intros; apply L; right; assumption. }
    apply G. intros k I. apply in_seq in I. lia.
  Qed.
  Lemma for_range_sum n (g : nat -> K) x : for_range n (fun k acc => acc + g k) x = x + sumN n g.
  Proof.
    unfold for_range. induction n as [|n IH]; [cbn; ring|]. rewrite seq_S, fold_left_app. cbn [fold_left Nat.add].
    rewrite IH. cbn [sumN]. ring.
  Qed.
  Lemma sum_blocks nk m (F : nat -> K) : sumN (nk * m) F = sumN nk (fun k => sumN m (fun i => F (k * m + i)%nat)).
  Proof.
    induction nk as [|nk IH]; [reflexivity|]. cbn [sumN]. rewrite <- IH. rewrite Nat.mul_succ_l, sumN_plus. ring.
  Qed.
  Lemma sumN_pick m j (g : nat -> K) : (j < m)%nat -> sumN m (fun k => if Nat.eqb j k then g k else 0) = g j.
  Proof.
    revert j. induction m as [|m IH]; intros j L; [lia|]. cbn [sumN]. destruct (Nat.eq_dec j m) as [->|Ne].
    - rewrite Nat.eqb_refl. rewrite (sumN_ext K m _ (fun _ => 0)), sumN_0; [ring|].
      intros i Li. rewrite (proj2 (Nat.eqb_neq m i)) by lia. reflexivity.
    - rewrite IH by lia. rewrite (proj2 (Nat.eqb_neq j m)) by exact Ne. ring.
  Qed.
End Sums.

Section Index.
  Variables nk nocc nvir : nat.
  Notation mo := (momentum_of nk nocc nvir).
  Notation ob := (orbital_of nk nocc nvir).
  Lemma in_block k m i nn : k < nn -> i < m -> k * m + i < nn * m.
  Proof. intros. nia. Qed.
  Lemma div_block k m i : i < m -> (k * m + i) / m = k /\ (k * m + i) mod m = i.
  Proof.
    intros L. rewrite Nat.add_comm. rewrite Nat.div_add, Nat.mod_add by lia. rewrite Nat.div_small, Nat.mod_small by lia. split; reflexivity.
  Qed.
  Lemma occ_at k i : k < nk -> i < nocc -> mo (k * nocc + i) = k /\ ob (k * nocc + i) = i.
  Proof.
    intros A B. unfold momentum_of, orbital_of. rewrite (proj2 (Nat.ltb_lt _ _) (in_block k nocc i nk A B)). apply div_block; exact B.
  Qed.
  Lemma vir_at k a : k < nk -> a < nvir -> mo (nk * nocc + (k * nvir + a)) = k /\ ob (nk * nocc + (k * nvir + a)) = nocc + a.
  Proof.
    intros A B. unfold momentum_of, orbital_of. rewrite (proj2 (Nat.ltb_ge _ _)) by lia.
    replace (nk * nocc + (k * nvir + a) - nk * nocc) with (k * nvir + a) by lia. destruct (div_block k nvir a B) as [-> ->]. split; reflexivity.
  Qed.
  Lemma split_block m P : P < nk * m -> exists k i, k < nk /\ i < m /\ P = k * m + i.
  Proof.
    intros L. assert (m <> 0) by (intros ->; lia). exists (P / m), (P mod m). split; [apply Nat.div_lt_upper_bound; [assumption|lia]|].
    split; [apply Nat.mod_upper_bound; assumption|]. rewrite (Nat.div_mod P m) at 1 by assumption. lia.
  Qed.
  Lemma mo_lt P : P < nk * nocc + nk * nvir -> mo P < nk.
  Proof.
    intros L. destruct (Nat.ltb P (nk * nocc)) eqn:E.
    - apply Nat.ltb_lt in E. destruct (split_block nocc P E) as (k & i & A & B & ->). rewrite (proj1 (occ_at k i A B)). exact A.
    - apply Nat.ltb_ge in E. destruct (split_block nvir (P - nk * nocc)) as (k & a & A & B & Q); [lia|].
      replace P with (nk * nocc + (k * nvir + a)) by lia. rewrite (proj1 (vir_at k a A B)). exact A.
  Qed.
End Index.

Section Crystal.
  Variable K : cring.
  Local Open Scope K_scope.
  Add Ring KrCr : (c_th K).
  Variable f : kscf K.
  Variable w : K.
  Variables nocc nvir : nat.
  Hypothesis G : momentum_group f.
  Hypothesis X : k_exchangeable f.
  Notation nk := (k_n f).
  Notation no := (nk * nocc)%nat.
  Notation nv := (nk * nvir)%nat.
  Notation h := (crystal_h f nocc nvir).
  Notation I := (crystal_I f w nocc nvir).
  Notation mo := (momentum_of nk nocc nvir).
  Notation u := (korb f).

  Lemma crystal_pair : pair_symmetric (no + nv) I.
  Proof.
    intros P Q R S LP LQ LR LS. unfold crystal_I. cbv zeta.
    pose proof (mo_lt nk nocc nvir P LP) as A. pose proof (mo_lt nk nocc nvir Q LQ) as B.
    pose proof (mo_lt nk nocc nvir R LR) as C. pose proof (mo_lt nk nocc nvir S LS) as D.
    destruct (Nat.eqb (kconserv f (mo P) (mo R) (mo Q)) (mo S)) eqn:E1.
    - apply Nat.eqb_eq in E1. destruct (kc_cancel K f G _ _ _ _ A C B D E1) as (_ & _ & _ & E2). rewrite E2, Nat.eqb_refl.
      rewrite kERI_pair by exact X. reflexivity.
    - destruct (Nat.eqb (kconserv f (mo Q) (mo S) (mo P)) (mo R)) eqn:E2; [|reflexivity].
      apply Nat.eqb_eq in E2. apply Nat.eqb_neq in E1. destruct (kc_cancel K f G _ _ _ _ B D A C E2) as (_ & _ & _ & E3). congruence.
  Qed.

  Notation O k i := (k * nocc + i)%nat.
  Notation V k a := (no + (k * nvir + a))%nat.
  Lemma I_oooo k1 i1 k2 i2 k3 i3 k4 i4 : (k1 < nk)%nat -> (k2 < nk)%nat -> (k3 < nk)%nat -> (k4 < nk)%nat ->
    (i1 < nocc)%nat -> (i2 < nocc)%nat -> (i3 < nocc)%nat -> (i4 < nocc)%nat ->
    I (O k1 i1) (O k2 i2) (O k3 i3) (O k4 i4) =
    if Nat.eqb (kconserv f k1 k3 k2) k4 then w * kERI f k1 k3 k2 k4 (u k1 i1) (u k3 i3) (u k2 i2) (u k4 i4) else 0.
  Proof.
    intros. unfold crystal_I. cbv zeta. destruct (occ_at nk nocc nvir k1 i1) as [-> ->]; [assumption..|]. destruct (occ_at nk nocc nvir k2 i2) as [-> ->]; [assumption..|].
    destruct (occ_at nk nocc nvir k3 i3) as [-> ->]; [assumption..|]. destruct (occ_at nk nocc nvir k4 i4) as [-> ->]; [assumption..|]. reflexivity.
  Qed.
  Lemma I_oovv k1 i1 k2 i2 k3 i3 k4 i4 : (k1 < nk)%nat -> (k2 < nk)%nat -> (k3 < nk)%nat -> (k4 < nk)%nat ->
    (i1 < nocc)%nat -> (i2 < nocc)%nat -> (i3 < nvir)%nat -> (i4 < nvir)%nat ->
    I (O k1 i1) (O k2 i2) (V k3 i3) (V k4 i4) =
    if Nat.eqb (kconserv f k1 k3 k2) k4 then w * kERI f k1 k3 k2 k4 (u k1 i1) (u k3 (nocc + i3)%nat) (u k2 i2) (u k4 (nocc + i4)%nat) else 0.
  Proof.
    intros. unfold crystal_I. cbv zeta. destruct (occ_at nk nocc nvir k1 i1) as [-> ->]; [assumption..|]. destruct (occ_at nk nocc nvir k2 i2) as [-> ->]; [assumption..|].
    destruct (vir_at nk nocc nvir k3 i3) as [-> ->]; [assumption..|]. destruct (vir_at nk nocc nvir k4 i4) as [-> ->]; [assumption..|]. reflexivity.
  Qed.
  Lemma I_vvoo k1 i1 k2 i2 k3 i3 k4 i4 : (k1 < nk)%nat -> (k2 < nk)%nat -> (k3 < nk)%nat -> (k4 < nk)%nat ->
    (i1 < nvir)%nat -> (i2 < nvir)%nat -> (i3 < nocc)%nat -> (i4 < nocc)%nat ->
    I (V k1 i1) (V k2 i2) (O k3 i3) (O k4 i4) =
    if Nat.eqb (kconserv f k1 k3 k2) k4 then w * kERI f k1 k3 k2 k4 (u k1 (nocc + i1)%nat) (u k3 i3) (u k2 (nocc + i2)%nat) (u k4 i4) else 0.
  Proof.
    intros. unfold crystal_I. cbv zeta. destruct (vir_at nk nocc nvir k1 i1) as [-> ->]; [assumption..|]. destruct (vir_at nk nocc nvir k2 i2) as [-> ->]; [assumption..|].
    destruct (occ_at nk nocc nvir k3 i3) as [-> ->]; [assumption..|]. destruct (occ_at nk nocc nvir k4 i4) as [-> ->]; [assumption..|]. reflexivity.
  Qed.
  Lemma I_vooo' k1 i1 k2 i2 k3 i3 k4 i4 : (k1 < nk)%nat -> (k2 < nk)%nat -> (k3 < nk)%nat -> (k4 < nk)%nat ->
    (i1 < nvir)%nat -> (i2 < nocc)%nat -> (i3 < nocc)%nat -> (i4 < nocc)%nat ->
    I (V k1 i1) (O k2 i2) (O k3 i3) (O k4 i4) =
    if Nat.eqb (kconserv f k1 k3 k2) k4 then w * kERI f k1 k3 k2 k4 (u k1 (nocc + i1)%nat) (u k3 i3) (u k2 i2) (u k4 i4) else 0.
  Proof.
    intros. unfold crystal_I. cbv zeta. destruct (vir_at nk nocc nvir k1 i1) as [-> ->]; [assumption..|]. destruct (occ_at nk nocc nvir k2 i2) as [-> ->]; [assumption..|].
    destruct (occ_at nk nocc nvir k3 i3) as [-> ->]; [assumption..|]. destruct (occ_at nk nocc nvir k4 i4) as [-> ->]; [assumption..|]. reflexivity.
  Qed.

  (** momentum conservation leaves the Fock matrix of the crystal with one block per k-point *)
  Lemma crystal_fock k a l i : (k < nk)%nat -> (l < nk)%nat -> (a < nvir)%nat -> (i < nocc)%nat ->
    closed_fock no h I (V k a) (O l i) = if Nat.eqb k l then k_fock f w nocc k (nocc + a) i else 0.
  Proof.
    intros Lk Ll La Li. unfold closed_fock.
    assert (Hh : h (V k a) (O l i) = if Nat.eqb k l then k_core f k (nocc + a) i else 0).
    { unfold crystal_h. cbv zeta. destruct (vir_at nk nocc nvir k a) as [-> ->]; [assumption..|]. destruct (occ_at nk nocc nvir l i) as [-> ->]; [assumption..|]. reflexivity. }
    rewrite Hh, sum_blocks.
    destruct (Nat.eqb k l) eqn:E.
    - apply Nat.eqb_eq in E. subst l. unfold k_fock. f_equal. rewrite <- sumN_mul_l. apply sumN_ext. intros m Lm. rewrite <- sumN_mul_l.
      apply sumN_ext. intros j Lj. rewrite !I_vooo' by assumption. rewrite kc_left, kc_right by assumption. rewrite !Nat.eqb_refl. ring.
    - apply Nat.eqb_neq in E. rewrite (sumN_ext K nk _ (fun _ => 0)); [rewrite sumN_0; ring|]. intros m Lm.
      rewrite (sumN_ext K nocc _ (fun _ => 0)); [apply sumN_0|]. intros j Lj. rewrite !I_vooo' by assumption. rewrite kc_right by assumption.
      rewrite (proj2 (Nat.eqb_neq k l) E). replace (Nat.eqb (kconserv f k l m) m) with false; [ring|].
      symmetry. apply Nat.eqb_neq. intros Q. destruct (kc_cancel K f G k l m m Lk Ll Lm Lm Q) as (_ & Q2 & _). rewrite kc_right in Q2 by assumption. congruence.
  Qed.

  Lemma crystal_energy : closed_energy no h I = (1 + 1) * sumN nk (fun k => sumN nocc (fun i => k_core f k i i)) +
    sumN nk (fun k => sumN nk (fun l => sumN nocc (fun i => sumN nocc (fun j =>
      (1 + 1) * (w * kERI f k k l l (u k i) (u k i) (u l j) (u l j)) - w * kERI f k l l k (u k i) (u l j) (u l j) (u k i))))).
  Proof.
    unfold closed_energy. rewrite !sum_blocks. f_equal.
    - f_equal. apply sumN_ext. intros k Lk. apply sumN_ext. intros i Li. unfold crystal_h. cbv zeta.
      destruct (occ_at nk nocc nvir k i) as [-> ->]; [assumption..|]. rewrite Nat.eqb_refl. reflexivity.
    - apply sumN_ext. intros k Lk. rewrite sumN_swap. etransitivity; [|apply sumN_swap]. rewrite sumN_swap. apply sumN_ext. intros i Li. rewrite sum_blocks.
      apply sumN_ext. intros l Ll. apply sumN_ext. intros j Lj. rewrite !I_oooo by assumption. rewrite kc_left, kc_right by assumption. rewrite !Nat.eqb_refl. reflexivity.
  Qed.
End Crystal.

Lemma crystal_orbitals nk nocc nvir :
  (forall P, P < nk * nocc + nk * nvir -> momentum_of nk nocc nvir P < nk /\ orbital_of nk nocc nvir P < nocc + nvir /\
     (P < nk * nocc <-> orbital_of nk nocc nvir P < nocc)) /\
  (forall k p, k < nk -> p < nocc + nvir -> exists P, P < nk * nocc + nk * nvir /\
     momentum_of nk nocc nvir P = k /\ orbital_of nk nocc nvir P = p) /\
  (forall P Q, P < nk * nocc + nk * nvir -> Q < nk * nocc + nk * nvir -> momentum_of nk nocc nvir P = momentum_of nk nocc nvir Q ->
     orbital_of nk nocc nvir P = orbital_of nk nocc nvir Q -> P = Q).
Proof.
  assert (Sp : forall P, P < nk * nocc + nk * nvir -> exists k i, k < nk /\
    ((i < nocc /\ P = k * nocc + i) \/ (i < nvir /\ P = nk * nocc + (k * nvir + i)))).
  { intros P L. destruct (Nat.lt_ge_cases P (nk * nocc)) as [E|E].
    - destruct (split_block nk nocc P E) as (k & i & A & B & Q). exists k, i. auto.
    - destruct (split_block nk nvir (P - nk * nocc)) as (k & i & A & B & Q); [lia|]. exists k, i. split; [exact A|]. right. split; [exact B|lia]. }
  split; [|split].
  - intros P L. destruct (Sp P L) as (k & i & A & [[B ->]|[B ->]]).
    + destruct (occ_at nk nocc nvir k i A B) as [-> ->]. split; [exact A|]. split; [lia|]. split; [intros _; exact B|]. intros _. apply in_block; assumption.
    + destruct (vir_at nk nocc nvir k i A B) as [-> ->]. split; [exact A|]. split; lia.
  - intros k p A B. destruct (Nat.lt_ge_cases p nocc) as [E|E].
    + exists (k * nocc + p). pose proof (in_block k nocc p nk A E). split; [lia|]. apply occ_at; assumption.
    + exists (nk * nocc + (k * nvir + (p - nocc))). pose proof (in_block k nvir (p - nocc) nk A ltac:(lia)). split; [lia|].
      destruct (vir_at nk nocc nvir k (p - nocc) A ltac:(lia)) as [-> ->]. split; [reflexivity|lia].
  - intros P Q LP LQ. destruct (Sp P LP) as (k & i & A & [[B ->]|[B ->]]); destruct (Sp Q LQ) as (l & j & A' & [[B' ->]|[B' ->]]).
    + destruct (occ_at nk nocc nvir k i A B) as [-> ->]. destruct (occ_at nk nocc nvir l j A' B') as [-> ->]. congruence.
    + destruct (occ_at nk nocc nvir k i A B) as [-> ->]. destruct (vir_at nk nocc nvir l j A' B') as [-> ->]. lia.
    + destruct (vir_at nk nocc nvir k i A B) as [-> ->]. destruct (occ_at nk nocc nvir l j A' B') as [-> ->]. lia.
    + destruct (vir_at nk nocc nvir k i A B) as [-> ->]. destruct (vir_at nk nocc nvir l j A' B') as [-> ->]. intros. assert (i = j) by lia. congruence.
Qed.
