(** Closed shells: singlet and triplet excitations. *)
From Coq Require Import List Bool Arith Lia Ring.
From Verif Require Import Scalar Tensor CIFock UFockSpec ExSpec.
Import ListNotations.

Section Closed.
  Variable K : cring.
  Local Open Scope K_scope.
  Add Ring KrCl : (c_th K).
  Variables n no nv : nat.
  Hypothesis N : (no + nv)%nat = n.
  Variable h : nat -> nat -> K.
  Variable I : nat -> nat -> nat -> nat -> K.
  Hypothesis S : pair_symmetric n I.
  Notation F := (closed_fock no h I).

  Lemma half_two (x : K) : chalf * (x + x) = x.
  Proof. transitivity ((chalf + chalf) * x); [ring|]. rewrite (c_half K). ring. Qed.
  Lemma fock_a p q : fock_alpha no no h I I p q = F p q.
  Proof.
    unfold fock_alpha, closed_fock, anti.
    rewrite (sumN_ext K no (fun i => (1 + 1) * I p i q i - I p i i q) (fun i => (I p i q i - I p i i q) + I p i q i)) by (intros; ring).
    rewrite sumN_add. ring.
  Qed.
  Lemma fock_b p q : (p < n)%nat -> (q < n)%nat -> fock_beta no no h I I p q = F p q.
  Proof.
    intros Lp Lq. rewrite <- fock_a. unfold fock_alpha, fock_beta. f_equal. apply sumN_ext. intros i Li. apply S; lia.
  Qed.
  Lemma energy_closed : u_energy no no h h I I I = closed_energy no h I.
  Proof.
    unfold u_energy, closed_energy.
    set (A := sumN no (fun i => sumN no (fun j => anti I i j i j))). set (B := sumN no (fun i => sumN no (fun j => I i j i j))).
    assert (E : sumN no (fun i => sumN no (fun j => (1 + 1) * I i j i j - I i j j i)) = A + B).
    { unfold A, B. rewrite <- sumN_add. apply sumN_ext. intros i _. rewrite <- sumN_add. apply sumN_ext. intros j _. unfold anti. ring. }
    rewrite E. transitivity ((1 + 1) * sumN no (fun i => h i i) + chalf * (A + A) + B); [ring|]. rewrite half_two. ring.
  Qed.

  Variables ta tb : nat -> nat -> K.
  Notation sum_t := (fun a i => ta a i + tb a i).
  Notation dif_t := (fun a i => ta a i - tb a i).
  Notation ca := (cis_alpha no nv no nv (fock_alpha no no h I I) I I ta tb).
  Notation cb := (cis_beta no nv no nv (fock_beta no no h I I) I I ta tb).

  Lemma sum2_add m1 m2 (f g : nat -> nat -> K) : sumN m1 (fun b => sumN m2 (fun j => f b j + g b j))
    = sumN m1 (fun b => sumN m2 (f b)) + sumN m1 (fun b => sumN m2 (g b)).
  Proof. rewrite <- sumN_add. apply sumN_ext. intros b _. apply sumN_add. Qed.
  Lemma sumN_opp m (f : nat -> K) : sumN m (fun b => - f b) = - sumN m f.
  Proof. transitivity (sumN m (fun b => - (1) * f b)); [apply sumN_ext; intros; ring|]. rewrite sumN_mul_l. ring. Qed.
  Lemma sum2_opp m1 m2 (f : nat -> nat -> K) : sumN m1 (fun b => sumN m2 (fun j => - f b j)) = - sumN m1 (fun b => sumN m2 (f b)).
  Proof. rewrite <- sumN_opp. apply sumN_ext. intros b _. apply sumN_opp. Qed.

  Lemma alpha_at a i : ca a i = sumN nv (fun b => F (no + a)%nat (no + b)%nat * ta b i) - sumN no (fun j => F j i * ta a j)
      + sumN nv (fun b => sumN no (fun j => anti I (no + a) j i (no + b) * ta b j))
      + sumN nv (fun b => sumN no (fun j => I (no + a)%nat j i (no + b)%nat * tb b j)).
  Proof.
    unfold cis_alpha.
    rewrite (sumN_ext K nv (fun b => fock_alpha no no h I I _ _ * _) (fun b => F (no + a)%nat (no + b)%nat * ta b i)) by (intros; rewrite fock_a; reflexivity).
    rewrite (sumN_ext K no (fun j => fock_alpha no no h I I _ _ * _) (fun j => F j i * ta a j)) by (intros; rewrite fock_a; reflexivity).
    reflexivity.
  Qed.
  Lemma beta_at a i : (a < nv)%nat -> (i < no)%nat ->
    cb a i = sumN nv (fun b => F (no + a)%nat (no + b)%nat * tb b i) - sumN no (fun j => F j i * tb a j)
      + sumN nv (fun b => sumN no (fun j => anti I (no + a) j i (no + b) * tb b j))
      + sumN nv (fun b => sumN no (fun j => I (no + a)%nat j i (no + b)%nat * ta b j)).
  Proof.
    intros La Li. unfold cis_beta.
    rewrite (sumN_ext K nv (fun b => fock_beta no no h I I _ _ * _) (fun b => F (no + a)%nat (no + b)%nat * tb b i)) by (intros; rewrite fock_b by lia; reflexivity).
    rewrite (sumN_ext K no (fun j => fock_beta no no h I I _ _ * _) (fun j => F j i * tb a j)) by (intros; rewrite fock_b by lia; reflexivity).
    rewrite (sumN_ext K nv (fun b => sumN no (fun j => I j (no + a)%nat (no + b)%nat i * ta b j)) (fun b => sumN no (fun j => I (no + a)%nat j i (no + b)%nat * ta b j)))
      by (intros b Lb; apply sumN_ext; intros j Lj; rewrite (S j (no + a)%nat (no + b)%nat i) by lia; reflexivity).
    reflexivity.
  Qed.

  Lemma plus_at a i : (a < nv)%nat -> (i < no)%nat -> ca a i + cb a i = tda_singlet no nv F I sum_t a i.
  Proof.
    intros La Li. rewrite alpha_at, beta_at by assumption. unfold tda_singlet, cis_closed.
    rewrite (sumN_ext K nv (fun b => F (no + a)%nat (no + b)%nat * (ta b i + tb b i)) (fun b => F (no + a)%nat (no + b)%nat * ta b i + F (no + a)%nat (no + b)%nat * tb b i)) by (intros; ring).
    rewrite (sumN_ext K no (fun j => F j i * (ta a j + tb a j)) (fun j => F j i * ta a j + F j i * tb a j)) by (intros; ring).
    rewrite (sumN_ext K nv (fun b => sumN no (fun j => _ * (ta b j + tb b j)))
      (fun b => sumN no (fun j => (anti I (no + a) j i (no + b) * ta b j + I (no + a)%nat j i (no + b)%nat * tb b j)
        + (anti I (no + a) j i (no + b) * tb b j + I (no + a)%nat j i (no + b)%nat * ta b j))))
      by (intros b _; apply sumN_ext; intros j _; unfold anti; ring).
    rewrite !sumN_add, !sum2_add. ring.
  Qed.
  Lemma minus_at a i : (a < nv)%nat -> (i < no)%nat -> ca a i - cb a i = tda_triplet no nv F I dif_t a i.
  Proof.
    intros La Li. rewrite alpha_at, beta_at by assumption. unfold tda_triplet, cis_closed.
    rewrite (sumN_ext K nv (fun b => F (no + a)%nat (no + b)%nat * (ta b i - tb b i)) (fun b => F (no + a)%nat (no + b)%nat * ta b i + - (F (no + a)%nat (no + b)%nat * tb b i))) by (intros; ring).
    rewrite (sumN_ext K no (fun j => F j i * (ta a j - tb a j)) (fun j => F j i * ta a j + - (F j i * tb a j))) by (intros; ring).
    rewrite (sumN_ext K nv (fun b => sumN no (fun j => _ * (ta b j - tb b j)))
      (fun b => sumN no (fun j => (anti I (no + a) j i (no + b) * ta b j + I (no + a)%nat j i (no + b)%nat * tb b j)
        + - (anti I (no + a) j i (no + b) * tb b j + I (no + a)%nat j i (no + b)%nat * ta b j))))
      by (intros b _; apply sumN_ext; intros j _; unfold anti; ring).
    rewrite !sumN_add, !sum2_add, !sum2_opp, !sum2_add, !sumN_opp. ring.
  Qed.

  Lemma closed_iff w :
    ((forall a i, (a < nv)%nat -> (i < no)%nat -> ca a i = w * ta a i) /\
     (forall a i, (a < nv)%nat -> (i < no)%nat -> cb a i = w * tb a i)) <->
    solves nv no (tda_singlet no nv F I) sum_t w /\ solves nv no (tda_triplet no nv F I) dif_t w.
  Proof.
    unfold solves. split.
    - intros [QA QB]. split; intros a i La Li.
      + rewrite <- plus_at, QA, QB by assumption. ring.
      + rewrite <- minus_at, QA, QB by assumption. ring.
    - intros [QA QB]. split; intros a i La Li; specialize (QA a i La Li); specialize (QB a i La Li);
        rewrite <- plus_at in QA by assumption; rewrite <- minus_at in QB by assumption.
      + rewrite <- (half_two (ca a i)). transitivity (chalf * ((ca a i + cb a i) + (ca a i - cb a i))); [f_equal; ring|].
        rewrite QA, QB. transitivity (chalf * ((w * ta a i) + (w * ta a i))); [f_equal; ring|]. apply half_two.
      + rewrite <- (half_two (cb a i)). transitivity (chalf * ((ca a i + cb a i) - (ca a i - cb a i))); [f_equal; ring|].
        rewrite QA, QB. transitivity (chalf * ((w * tb a i) + (w * tb a i))); [f_equal; ring|]. apply half_two.
  Qed.
End Closed.
