(** The exponential of an excitation operator and similarity transformation. *)
From Coq Require Import List Bool Arith ZArith Lia Ring Factorial.
From Verif Require Import Scalar CISpec CIFacts CIFock CIMatrix CIVec CIExpSpec CIExp Tensor CCSpec CCFockSpec FockStates.
Import ListNotations.
Local Open Scope list_scope.

Section ExpLemmas.
  Variable K : cring.
  Local Open Scope K_scope.
  Add Ring KrFE : (c_th K).
  Notation opsum := (list (K * list op)).

  Lemma eos_opscale c (A : opsum) psi t : eos (opscale c A) psi t = c * eos A psi t.
  Proof.
    unfold eos, opscale. rewrite SL_map, <- SL_mul. apply SL_ext. intros a _. cbn [fst snd]. ring.
  Qed.

  Lemma eos_nil psi t : eos (K := K) [] psi t = 0.
  Proof. reflexivity. Qed.

  Lemma eos_pow0 (T : opsum) psi t : eos (opow T 0) psi t = psi t.
  Proof. cbn. unfold eos, SL. cbn. ring. Qed.
  Lemma eos_powS (T : opsum) k psi t : eos (opow T (S k)) psi t = eos T (eos (opow T k) psi) t.
  Proof. apply eos_opmul. Qed.

  Lemma eos_exp inv M (T : opsum) psi t :
    eos (opexp inv M T) psi t = sumN (S M) (fun k => inv (fact k) * eos (opow T k) psi t).
  Proof.
    rewrite sumN_lsum. unfold opexp. unfold eos at 1. rewrite SL_flat_map. fold (SL (seq 0 (S M)) (fun k => inv (fact k) * eos (opow T k) psi t)).
    apply SL_ext. intros k _. apply eos_opscale.
  Qed.

  Lemma eos_sumN A n (f : nat -> state K) t :
    eos A (fun u => sumN n (fun k => f k u)) t = sumN n (fun k => eos A (f k) t).
  Proof.
    transitivity (eos A (fun u => SL (seq 0 n) (fun k => f k u)) t).
    - apply eos_ext. intros u _. rewrite sumN_lsum. reflexivity.
    - rewrite eos_SL, sumN_lsum. reflexivity.
  Qed.
  Lemma eo_sumN o n (f : nat -> state K) t :
    eo o (fun u => sumN n (fun k => f k u)) t = sumN n (fun k => eo o (f k) t).
  Proof.
    transitivity (eo o (fun u => SL (seq 0 n) (fun k => f k u)) t).
    - apply eo_ext. intros u _. rewrite sumN_lsum. reflexivity.
    - rewrite eo_SL, sumN_lsum. reflexivity.
  Qed.

  Lemma sumN_1 (f : nat -> K) : sumN 1 f = f 0%nat.
  Proof. cbn. ring. Qed.

  (** Cauchy products with a vanishing tail *)
  Lemma cauchy N (g : nat -> nat -> K) : (forall j k, (N <= j + k)%nat -> g j k = 0) ->
    sumN N (fun j => sumN N (fun k => g j k)) = sumN N (fun m => sumN (S m) (fun j => g j (m - j)%nat)).
  Proof.
    intros Z.
    transitivity (sumN N (fun j => sumN N (fun m => if Nat.leb j m then g j (m - j)%nat else 0))).
    - apply sumN_ext. intros j Hj.
      replace N with (j + (N - j))%nat at 2 by lia. rewrite sumN_plus.
      rewrite (sumN_ext K j _ (fun _ => 0)), sumN_0.
      2:{ intros m Hm. destruct (Nat.leb_spec j m); [lia|reflexivity]. }
      replace N with ((N - j) + j)%nat at 1 by lia. rewrite sumN_plus.
      rewrite (sumN_ext K j _ (fun _ => 0)), sumN_0 by (intros; apply Z; lia).
      rewrite (sumN_ext K (N - j) (fun i => if Nat.leb j (j + i) then g j (j + i - j)%nat else 0) (fun i => g j i)); [ring|].
      intros i Hi. destruct (Nat.leb_spec j (j + i)); [|lia]. f_equal. lia.
    - rewrite sumN_swap. apply sumN_ext. intros m Hm.
      replace N with (S m + (N - S m))%nat by lia. rewrite sumN_plus.
      rewrite (sumN_ext K (N - S m) _ (fun _ => 0)), sumN_0.
      2:{ intros j Hj. destruct (Nat.leb_spec (S m + j) m); [lia|reflexivity]. }
      rewrite (sumN_ext K (S m) (fun j => if Nat.leb j m then g j (m - j)%nat else 0) (fun j => g j (m - j)%nat)); [ring|].
      intros j Hj. destruct (Nat.leb_spec j m); [reflexivity|lia].
  Qed.

  Variable inv : nat -> K.
  Variable M : nat.
  Hypothesis Inv : inverts inv M.

  Lemma inv_fact k : (S k <= M)%nat -> inv (fact (S k)) * nK K (S k) = inv (fact k).
  Proof.
    intros L. pose proof (Inv (S k) L) as H1. pose proof (Inv k ltac:(lia)) as H2.
    change (fact (S k)) with (S k * fact k)%nat in *. rewrite nK_mul in H1.
    transitivity (inv (S k * fact k)%nat * nK K (S k) * (nK K (fact k) * inv (fact k))); [rewrite H2; ring|].
    transitivity ((nK K (S k) * nK K (fact k) * inv (S k * fact k)%nat) * inv (fact k)); [ring|]. rewrite H1. ring.
  Qed.

  Fixpoint alt_sign (j : nat) : K := match j with O => 1 | S j' => - alt_sign j' end.

  (** the coefficients of exp(-x) exp(x) *)
  Lemma exp_inverse m : (S m <= M)%nat ->
    sumN (S (S m)) (fun j => alt_sign j * inv (fact j) * inv (fact (S m - j))) = 0.
  Proof.
    intros L.
    set (f := fun j => alt_sign j * inv (fact j) * inv (fact (S m - j))).
    assert (E : nK K (S m) * sumN (S (S m)) f = 0).
    { rewrite <- sumN_mul_l.
      rewrite (sumN_ext K _ _ (fun j => nK K j * f j + nK K (S m - j) * f j)).
      2:{ intros j Hj. replace (S m) with (j + (S m - j))%nat at 1 by lia. rewrite nK_add. ring. }
      rewrite sumN_add.
      assert (A : sumN (S (S m)) (fun j => nK K j * f j)
                  = - sumN (S m) (fun j => alt_sign j * inv (fact j) * inv (fact (m - j)))).
      { change (S (S m)) with (1 + S m)%nat. rewrite sumN_plus, sumN_1.
        rewrite <- sumN_opp. cbn [nK]. rewrite (sumN_ext K (S m) _ (fun j => - (alt_sign j * inv (fact j) * inv (fact (m - j))))); [ring|].
        intros j Hj. unfold f. cbn [Nat.add]. change (S m - S j)%nat with (m - j)%nat. change (alt_sign (S j)) with (- alt_sign j).
        rewrite <- (inv_fact j) by lia. ring. }
      assert (B : sumN (S (S m)) (fun j => nK K (S m - j) * f j)
                  = sumN (S m) (fun j => alt_sign j * inv (fact j) * inv (fact (m - j)))).
      { replace (S (S m)) with (S m + 1)%nat by lia. rewrite sumN_plus.
        rewrite (sumN_ext K (S m) _ (fun j => alt_sign j * inv (fact j) * inv (fact (m - j)))).
        2:{ intros j Hj. unfold f. replace (S m - j)%nat with (S (m - j)) by lia. rewrite <- (inv_fact (m - j)) by lia. ring. }
        rewrite sumN_1, Nat.add_0_r, Nat.sub_diag. cbn [nK]. ring. }
      rewrite A, B. ring. }
    transitivity (inv (fact (S m)) * nK K (fact m) * (nK K (S m) * sumN (S (S m)) f)).
    - transitivity ((nK K (fact (S m)) * inv (fact (S m))) * sumN (S (S m)) f).
      + rewrite Inv by lia. unfold f. ring.
      + change (fact (S m)) with (S m * fact m)%nat. rewrite nK_mul. ring.
    - rewrite E. ring.
  Qed.

  (** *** The exponential of a nilpotent operator *)
  Variable n : nat.
  Variable T : opsum.
  Hypothesis Nil : forall k psi t, (M <= k)%nat -> length t = n -> eos (opow T k) psi t = 0.

  Notation P := (fun k psi => eos (opow T k) psi).

  Lemma pow_add j k psi t : eos (opow T j) (eos (opow T k) psi) t = eos (opow T (j + k)) psi t.
  Proof.
    revert t. induction j as [|j IH]; intros t; [apply eos_pow0|].
    cbn [Nat.add]. rewrite !eos_powS. apply eos_ext. intros. apply IH.
  Qed.
  Lemma pow_opp j psi t : eos (opow (opscale (- (1)) T) j) psi t = alt_sign j * eos (opow T j) psi t.
  Proof.
    revert t. induction j as [|j IH]; intros t.
    - rewrite !eos_pow0. cbn. ring.
    - rewrite !eos_powS. rewrite (eos_ext K _ _ (fun u => alt_sign j * eos (opow T j) psi u)) by (intros; apply IH).
      rewrite eos_mul, eos_opscale. cbn. ring.
  Qed.

  Lemma exp_opp psi t : length t = n ->
    eos (opexp inv M (opscale (- (1)) T)) (eos (opexp inv M T) psi) t = psi t.
  Proof.
    intros L. rewrite eos_exp.
    rewrite (sumN_ext K (S M) _ (fun j => sumN (S M) (fun k =>
      alt_sign j * inv (fact j) * inv (fact k) * eos (opow T (j + k)) psi t))).
    2:{ intros j Hj. rewrite (eos_ext K _ _ (fun u => sumN (S M) (fun k => inv (fact k) * eos (opow T k) psi u)))
          by (intros; apply eos_exp).
        rewrite eos_sumN, <- sumN_mul_l. apply sumN_ext. intros k Hk. rewrite eos_mul, pow_opp, pow_add. ring. }
    rewrite cauchy by (intros j k H; rewrite (Nil (j + k)) by (auto; lia); ring).
    change (S M) with (1 + M)%nat. rewrite sumN_plus.
    rewrite (sumN_ext K M _ (fun _ => 0)), sumN_0.
    - rewrite !sumN_1. cbn [Nat.add Nat.sub alt_sign]. change (fact 0%nat) with 1%nat. rewrite eos_pow0.
      pose proof (Inv 0%nat ltac:(lia)) as H. change (fact 0%nat) with 1%nat in H. cbn [nK] in H.
      assert (I1 : inv 1%nat = 1) by (transitivity ((1 + 0) * inv 1%nat); [ring|exact H]). rewrite I1. ring.
    - intros m Hm. cbn [Nat.add].
      rewrite (sumN_ext K (S (S m)) _ (fun j => (alt_sign j * inv (fact j) * inv (fact (S m - j))) * eos (opow T (S m)) psi t)).
      2:{ intros j Hj. do 3 f_equal. lia. }
      rewrite sumN_mul_r, exp_inverse by lia. ring.
  Qed.

  (** an operator whose commutator with T commutes with T *)
  Variable o : op.
  Variable B : opsum.
  Hypothesis Comm : forall psi t, length t = n -> eo o (eos T psi) t = eos T (eo o psi) t + eos B psi t.
  Hypothesis CommB : forall psi t, length t = n -> eos B (eos T psi) t = eos T (eos B psi) t.

  Lemma B_pow k psi t : length t = n -> eos B (eos (opow T k) psi) t = eos (opow T k) (eos B psi) t.
  Proof.
    revert t. induction k as [|k IH]; intros t L.
    - rewrite eos_pow0. apply eos_ext. intros. apply eos_pow0.
    - rewrite eos_powS. rewrite (eos_ext K B _ (eos T (eos (opow T k) psi))) by (intros; apply eos_powS).
      rewrite CommB by auto. apply eos_ext. intros u Lu. apply IH. congruence.
  Qed.

  Lemma o_pow k psi t : length t = n ->
    eo o (eos (opow T (S k)) psi) t
    = eos (opow T (S k)) (eo o psi) t + nK K (S k) * eos (opow T k) (eos B psi) t.
  Proof.
    revert t. induction k as [|k IH]; intros t L.
    - rewrite (eo_ext K o _ (eos T psi)).
      2:{ intros. rewrite eos_powS. apply eos_ext. intros. apply eos_pow0. }
      rewrite Comm by auto. rewrite eos_powS, eos_pow0. cbn [nK].
      rewrite (eos_ext K T (eos (opow T 0) (eo o psi)) (eo o psi)) by (intros; apply eos_pow0). ring.
    - rewrite (eo_ext K o _ (eos T (eos (opow T (S k)) psi))) by (intros; apply eos_powS).
      rewrite Comm by auto. rewrite B_pow by auto.
      rewrite (eos_ext K T _ (fun u => eos (opow T (S k)) (eo o psi) u + nK K (S k) * eos (opow T k) (eos B psi) u))
        by (intros u Lu; apply IH; congruence).
      rewrite eos_add, eos_mul, <- !eos_powS. change (nK K (S (S k))) with (1 + nK K (S k)). ring.
  Qed.

  Lemma o_exp psi t : length t = n ->
    eo o (eos (opexp inv M T) psi) t = eos (opexp inv M T) (fun u => eo o psi u + eos B psi u) t.
  Proof.
    intros L.
    rewrite (eo_ext K o _ (fun u => sumN (S M) (fun k => inv (fact k) * eos (opow T k) psi u))) by (intros; apply eos_exp).
    rewrite eo_sumN, eos_add, !eos_exp.
    change (S M) with (1 + M)%nat. rewrite (sumN_plus K 1 M (fun k => eo o _ t)), (sumN_plus K 1 M (fun k => inv (fact k) * eos (opow T k) (eo o psi) t)).
    rewrite (sumN_ext K M _ (fun k => inv (fact (1 + k)) * eos (opow T (1 + k)) (eo o psi) t + inv (fact k) * eos (opow T k) (eos B psi) t)).
    2:{ intros k Hk. rewrite eo_mul. cbn [Nat.add]. rewrite o_pow by auto. rewrite <- (inv_fact k) by lia. ring. }
    rewrite sumN_add. replace (1 + M)%nat with (M + 1)%nat by lia.
    rewrite (sumN_plus K M 1 (fun k => inv (fact k) * eos (opow T k) (eos B psi) t)).
    rewrite !sumN_1, Nat.add_0_r. rewrite (Nil M (eos B psi)) by (auto; lia).
    rewrite eo_mul. rewrite (eo_ext K o (eos (opow T 0) psi) psi) by (intros; apply eos_pow0). rewrite eos_pow0. ring.
  Qed.
End ExpLemmas.
