(** Rounding errors: arithmetics that meet the assumptions. *)
From Coq Require Import List Bool Arith Ascii String ZArith Reals Permutation Lia Lra.
From Flocq Require Import Core.
From Flocq.Prop Require Import Relative.
From Verif Require Import Scalar Tensor PySyntax PySem SymSound RoundSpec RoundCC RoundRun.
Import ListNotations.

(** *** einsum by nested loops *)
Section Seq.
  Variable K : cring.
  Variable nrm : K -> R.
  Variable u : R.
  Variables add mul : K -> K -> K.
  Hypothesis Hadd : forall x y, is_sum K nrm u (add x y) x y.
  Hypothesis Hmul : forall x y, is_product K nrm u (mul x y) x y.

  Fixpoint mul_scheme {L} (s : scheme L) (p : list L) : scheme L :=
    match p with [] => s | l :: p' => mul_scheme (Mul s (Leaf l)) p' end.
  Lemma mul_scheme_computes {L} (x : L -> K) p : forall s a, computes K nrm u x s a ->
    computes K nrm u x (mul_scheme s p) (fold_left (fun acc l => mul acc (x l)) p a).
  Proof.
    induction p as [|l p IH]; intros s a H; cbn; [exact H|]. apply IH. eapply c_mul; [exact H|apply c_leaf|apply Hmul].
  Qed.
  Lemma mul_scheme_expand {L} (p : list L) : forall s q, expand s = [q] -> expand (mul_scheme s p) = [q ++ p].
  Proof.
    induction p as [|l p IH]; intros s q H; cbn; [rewrite app_nil_r; exact H|].
    rewrite (IH _ (q ++ [l])); [rewrite <- app_assoc; reflexivity|]. cbn. rewrite H. reflexivity.
  Qed.
  Definition prod_scheme {L} (p : list L) (l0 : L) : scheme L :=
    match p with [] => Leaf l0 | l :: p' => mul_scheme (Leaf l) p' end.
  Fixpoint add_scheme {L} (l0 : L) (s : scheme L) (ps : list (list L)) : scheme L :=
    match ps with [] => s | p :: ps' => add_scheme l0 (Add s (prod_scheme p l0)) ps' end.

  Lemma prod_scheme_computes {L} (x : L -> K) p l0 : p <> [] -> computes K nrm u x (prod_scheme p l0) (seq_product K mul x p).
  Proof. destruct p as [|l p]; [congruence|]. intros _. cbn. apply mul_scheme_computes, c_leaf. Qed.
  Lemma prod_scheme_expand {L} (p : list L) l0 : p <> [] -> expand (prod_scheme p l0) = [p].
  Proof. destruct p as [|l p]; [congruence|]. intros _. cbn. apply (mul_scheme_expand p (Leaf l) [l]). reflexivity. Qed.
  Lemma add_scheme_computes {L} (x : L -> K) l0 ps : Forall (fun p => p <> []) ps -> forall s a, computes K nrm u x s a ->
    computes K nrm u x (add_scheme l0 s ps) (fold_left (fun acc q => add acc (seq_product K mul x q)) ps a).
  Proof.
    induction 1 as [|p ps Hp H IH]; intros s a C; cbn; [exact C|]. apply IH. eapply c_add; [exact C|apply prod_scheme_computes, Hp|apply Hadd].
  Qed.
  Lemma add_scheme_expand {L} (l0 : L) ps : Forall (fun p => p <> []) ps -> forall s, expand (add_scheme l0 s ps) = expand s ++ ps.
  Proof.
    induction 1 as [|p ps Hp H IH]; intros s; cbn; [rewrite app_nil_r; reflexivity|].
    rewrite IH. cbn. rewrite prod_scheme_expand, <- app_assoc by exact Hp. reflexivity.
  Qed.
  Lemma seq_sum_computes {L} (x : L -> K) ps : Forall (fun p => p <> []) ps -> computes_sum K nrm u x ps (seq_sum K add mul x ps).
  Proof.
    intros H. destruct ps as [|p ps]; [reflexivity|]. inversion H as [|? ? Hp Hps]; subst. destruct p as [|l p]; [congruence|].
    exists (add_scheme l (prod_scheme (l :: p) l) ps). split.
    - rewrite add_scheme_expand, prod_scheme_expand by auto. exists ((l :: p) :: ps). split; [apply Permutation_refl|].
      clear. induction ((l :: p) :: ps); constructor; auto.
    - apply add_scheme_computes; auto. apply prod_scheme_computes. auto.
  Qed.

  Theorem seq_einsum_ok : is_einsum K nrm u (seq_einsum K add mul).
  Proof.
    intros ins out ts sh f Hin H. unfold seq_einsum. rewrite H.
    assert (G : forall idx, inrange sh idx -> Forall (fun p => p <> []) (f idx)).
    { intros idx Hi. apply Forall_forall. intros p Hp E. subst p. destruct (ein_terms_spec _ _ _ _ _ H idx Hi _ Hp) as (L & _).
      destruct ins; [congruence|discriminate]. }
    destruct out as [|c out].
    - eexists. split; [reflexivity|]. apply seq_sum_computes, G.
      unfold ein_terms in H. destruct (bind_all _ _ _ _); [|discriminate]. cbn in H. destruct (dims_of _ _); [|discriminate].
      injection H as <- _. constructor.
    - eexists. split; [reflexivity|]. split; [reflexivity|]. intros idx Hi. apply seq_sum_computes, G, Hi.
  Qed.
End Seq.

(** *** Real numbers, rounded to 53 bits *)
Local Open Scope R_scope.
Lemma Rabs_norm : is_norm RK Rabs.
Proof.
  repeat split.
  - apply Rabs_R0.
  - apply Rabs_R1.
  - intros x. apply Rabs_pos.
  - intros x. apply Rabs_Ropp.
  - intros x y. apply Rabs_triang.
  - intros x y. cbn. rewrite Rabs_mult. lra.
Qed.

Lemma round53_err x : Rabs (round53 x - x) <= / 2 ^ 53 * Rabs x.
Proof.
  pose proof (relative_error_N_FLX radix2 53 ltac:(lia) (fun z => negb (Z.even z)) x) as H.
  unfold round53. fold ZnearestE in H. eapply Rle_trans; [exact H|]. apply Rmult_le_compat_r; [apply Rabs_pos|].
  replace (bpow radix2 (- (53) + 1)) with (/ 2 ^ 52); [lra|]. cbn. lra.
Qed.
Lemma round53_arithmetic : is_arithmetic RK Rabs (/ 2 ^ 53) (fun x y => round53 (x + y)) (fun x y => round53 (x * y))
  (seq_einsum RK (fun x y => round53 (x + y)) (fun x y => round53 (x * y))).
Proof.
  assert (U : 0 <= / 2 ^ 53) by lra.
  assert (A : forall x y, is_sum RK Rabs (/ 2 ^ 53) (round53 (x + y)) x y).
  { intros x y. unfold is_sum, dist. cbn -[pow]. eapply Rle_trans; [apply round53_err|]. apply Rmult_le_compat_l; [lra|apply Rabs_triang]. }
  assert (M : forall x y, is_product RK Rabs (/ 2 ^ 53) (round53 (x * y)) x y).
  { intros x y. unfold is_product, dist. cbn -[pow]. eapply Rle_trans; [apply round53_err|]. rewrite Rabs_mult. lra. }
  repeat split; auto. apply seq_einsum_ok; auto.
Qed.

(** *** Complex numbers *)
Section Cplx.
  Lemma l1_norm_ok : is_norm (CplxK RK) l1_norm.
  Proof.
    unfold l1_norm. repeat split; cbn; intros.
    - rewrite Rabs_R0. lra.
    - rewrite Rabs_R0, Rabs_R1. lra.
    - pose proof (Rabs_pos (fst x)). pose proof (Rabs_pos (snd x)). lra.
    - rewrite !Rabs_Ropp. lra.
    - pose proof (Rabs_triang (fst x) (fst y)). pose proof (Rabs_triang (snd x) (snd y)). lra.
    - pose proof (Rabs_triang (fst x * fst y) (- (snd x * snd y))) as A. pose proof (Rabs_triang (fst x * snd y) (snd x * fst y)) as B.
      rewrite Rabs_Ropp in A. rewrite !Rabs_mult in A, B. unfold Rminus. lra.
  Qed.
  Variable u : R.
  Variables add mul : R -> R -> R.
  Hypothesis U0 : 0 <= u.
  Hypothesis Hadd : forall x y, Rabs (add x y - (x + y)) <= u * Rabs (x + y).
  Hypothesis Hmul : forall x y, Rabs (mul x y - x * y) <= u * Rabs (x * y).
  Let u' := 2 * u + u * u.

  Lemma cplx_sum_ok x y : is_sum (CplxK RK) l1_norm u' (cplx_add add x y) x y.
  Proof.
    destruct x as [a b], y as [c d]. unfold is_sum, dist, l1_norm, cplx_add. cbn.
    pose proof (Hadd a c) as A. pose proof (Hadd b d) as B. pose proof (Rabs_triang a c) as A1. pose proof (Rabs_triang b d) as B1.
    set (S := Rabs a + Rabs b + (Rabs c + Rabs d)).
    assert (S0 : 0 <= S) by (unfold S; pose proof (Rabs_pos a); pose proof (Rabs_pos b); pose proof (Rabs_pos c); pose proof (Rabs_pos d); lra).
    assert (T : Rabs (a + c) + Rabs (b + d) <= S) by (unfold S; lra).
    assert (u * (Rabs (a + c) + Rabs (b + d)) <= u * S) by (apply Rmult_le_compat_l; lra). 
    assert (0 <= u * S) by (apply Rmult_le_pos; lra). assert (0 <= u * u * S) by (apply Rmult_le_pos; [apply Rmult_le_pos; lra|lra]).
    unfold u'. lra.
  Qed.
  (** one component *)
  Lemma pair_ok s x y z w : s = 1 \/ s = -1 -> Rabs (add (mul x y) (s * mul z w) - (x * y + s * (z * w))) <= u' * (Rabs x * Rabs y + Rabs z * Rabs w).
  Proof.
    intros Hs. rewrite <- !Rabs_mult. pose proof (Hmul x y) as P. pose proof (Hmul z w) as Q.
    pose proof (Hadd (mul x y) (s * mul z w)) as A.
    assert (As : Rabs s = 1) by (destruct Hs as [-> | ->]; [apply Rabs_R1|rewrite Rabs_left; lra]).
    set (p := x * y) in *. set (q := z * w) in *. set (p' := mul x y) in *. set (q' := mul z w) in *.
    assert (P1 : Rabs p' <= (1 + u) * Rabs p).
    { pose proof (Rabs_triang (p' - p) p) as T. replace (p' - p + p) with p' in T by ring. lra. }
    assert (Q1 : Rabs q' <= (1 + u) * Rabs q).
    { pose proof (Rabs_triang (q' - q) q) as T. replace (q' - q + q) with q' in T by ring. lra. }
    pose proof (Rabs_triang p' (s * q')) as T1. rewrite Rabs_mult, As in T1.
    pose proof (Rabs_triang (add p' (s * q') - (p' + s * q')) ((p' - p) + s * (q' - q))) as T2.
    replace (add p' (s * q') - (p' + s * q') + ((p' - p) + s * (q' - q))) with (add p' (s * q') - (p + s * q)) in T2 by ring.
    pose proof (Rabs_triang (p' - p) (s * (q' - q))) as T3. rewrite Rabs_mult, As in T3.
    assert (u * Rabs (p' + s * q') <= u * ((1 + u) * Rabs p + (1 + u) * Rabs q)) by (apply Rmult_le_compat_l; lra).
    unfold u'. nra.
  Qed.
  Lemma cplx_product_ok x y : is_product (CplxK RK) l1_norm u' (cplx_product add mul x y) x y.
  Proof.
    destruct x as [a b], y as [c d]. unfold is_product, dist, l1_norm, cplx_product. cbn.
    pose proof (pair_ok (-1) a c b d (or_intror eq_refl)) as A. pose proof (pair_ok 1 a d b c (or_introl eq_refl)) as B.
    replace (-1 * mul b d) with (- mul b d) in A by ring. replace (1 * mul b c) with (mul b c) in B by ring.
    replace (a * c + -1 * (b * d)) with (a * c - b * d) in A by ring. replace (a * d + 1 * (b * c)) with (a * d + b * c) in B by ring.
    nra.
  Qed.
  Theorem cplx_arithmetic : is_arithmetic (CplxK RK) l1_norm u' (cplx_add add) (cplx_product add mul)
    (seq_einsum (CplxK RK) (cplx_add add) (cplx_product add mul)).
  Proof.
    split; [unfold u'; nra|]. split; [apply cplx_sum_ok|]. split; [apply cplx_product_ok|].
    apply (seq_einsum_ok (CplxK RK)); [apply cplx_sum_ok|apply cplx_product_ok].
  Qed.
End Cplx.
