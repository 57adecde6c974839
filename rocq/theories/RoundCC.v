(** Rounding errors of the coupled cluster functions: proofs. *)
From Coq Require Import List Bool Arith String ZArith Reals Permutation Lia Lra Ring.
From Verif Require Import Scalar Tensor PySyntax PySem PySim Sym SymSound RoundSpec.
Import ListNotations.

Section Basic.
  Variable K : cring.
  Add Ring KrRd : (c_th K).
  Local Open Scope R_scope.
  Variable nrm : K -> R.
  Variable u : R.
  Hypothesis HN : is_norm K nrm.
  Hypothesis U0 : 0 <= u.
  Notation within := (within K nrm u).
  Notation dist := (dist K nrm).

  Lemma nrm0 : nrm c0 = 0. Proof. apply HN. Qed.
  Lemma nrm1 : nrm c1 = 1. Proof. apply HN. Qed.
  Lemma nrm_pos x : 0 <= nrm x. Proof. apply HN. Qed.
  Lemma nrm_opp x : nrm (copp x) = nrm x. Proof. apply HN. Qed.
  Lemma nrm_add x y : nrm (cadd x y) <= nrm x + nrm y. Proof. apply HN. Qed.
  Lemma nrm_mul x y : nrm (cmul x y) <= nrm x * nrm y. Proof. apply HN. Qed.

  Lemma pow1 d : 1 <= (1 + u) ^ d.
  Proof. apply pow_R1_Rle. lra. Qed.
  Lemma pow_mono d e : (d <= e)%nat -> (1 + u) ^ d <= (1 + u) ^ e.
  Proof. intros L. apply Rle_pow; [lra|exact L]. Qed.

  Lemma within_pos x v m d : within x v m d -> 0 <= m.
  Proof. intros [A _]. pose proof (nrm_pos v). lra. Qed.
  Lemma within_mono x v m d e : (d <= e)%nat -> within x v m d -> within x v m e.
  Proof.
    intros L W. pose proof (within_pos _ _ _ _ W) as P. destruct W as [A B]. split; [exact A|].
    eapply Rle_trans; [exact B|]. apply Rmult_le_compat_r; [exact P|]. pose proof (pow_mono _ _ L). lra.
  Qed.
  Lemma within_size x v m d : within x v m d -> nrm x <= (1 + u) ^ d * m.
  Proof.
    intros [A B]. unfold RoundSpec.dist in B.
    pose proof (nrm_add (csub x v) v) as T. replace (cadd (csub x v) v) with x in T by ring. lra.
  Qed.
  Lemma within_exact v d : within v v (nrm v) d.
  Proof.
    split; [lra|]. unfold RoundSpec.dist. replace (csub v v) with (c0 : K) by ring. rewrite nrm0.
    apply Rmult_le_pos; [pose proof (pow1 d); lra|apply nrm_pos].
  Qed.
  Lemma within_opp x v m d : within x v m d -> within (copp x) (copp v) m d.
  Proof.
    intros [A B]. split; [rewrite nrm_opp; exact A|]. unfold RoundSpec.dist in *.
    replace (csub (copp x) (copp v)) with (copp (csub x v)) by ring. rewrite nrm_opp. exact B.
  Qed.
  Lemma dist3 x y z : dist x z <= dist x y + dist y z.
  Proof. unfold RoundSpec.dist. replace (csub x z) with (cadd (csub x y) (csub y z)) by ring. apply nrm_add. Qed.

  Lemma sum_err x v m d x' v' m' d' : within x v m d -> within x' v' m' d' ->
    dist (cadd x x') (cadd v v') <= ((1 + u) ^ d - 1) * m + ((1 + u) ^ d' - 1) * m'.
  Proof.
    intros [_ B] [_ B']. unfold RoundSpec.dist in *.
    replace (csub (cadd x x') (cadd v v')) with (cadd (csub x v) (csub x' v')) by ring.
    eapply Rle_trans; [apply nrm_add|]. lra.
  Qed.
  Lemma prod_err x v m d x' v' m' d' : within x v m d -> within x' v' m' d' ->
    dist (cmul x x') (cmul v v') <= ((1 + u) ^ (d + d') - 1) * (m * m').
  Proof.
    intros W W'. pose proof (within_pos _ _ _ _ W) as P. pose proof (within_pos _ _ _ _ W') as P'.
    pose proof (within_size _ _ _ _ W') as S'. destruct W as [A B], W' as [A' B']. unfold RoundSpec.dist in *.
    replace (csub (cmul x x') (cmul v v')) with (cadd (cmul (csub x v) x') (cmul v (csub x' v'))) by ring.
    rewrite pow_add. set (c := (1 + u) ^ d) in *. set (c' := (1 + u) ^ d') in *.
    pose proof (pow1 d) as C. fold c in C. pose proof (pow1 d') as C'. fold c' in C'.
    assert (X1 : nrm (cmul (csub x v) x') <= (c - 1) * m * (c' * m')).
    { eapply Rle_trans; [apply nrm_mul|]. apply Rmult_le_compat; auto using nrm_pos. }
    assert (X2 : nrm (cmul v (csub x' v')) <= m * ((c' - 1) * m')).
    { eapply Rle_trans; [apply nrm_mul|]. apply Rmult_le_compat; auto using nrm_pos. }
    eapply Rle_trans; [apply nrm_add|].
    replace ((c * c' - 1) * (m * m')) with ((c - 1) * m * (c' * m') + m * ((c' - 1) * m')) by ring. lra.
  Qed.

  Lemma within_add x v m d x' v' m' d' w : within x v m d -> within x' v' m' d' -> is_sum K nrm u w x x' ->
    within w (cadd v v') (m + m') (S (Nat.max d d')).
  Proof.
    intros W W' E.
    apply (within_mono _ _ _ _ (Nat.max d d') (Nat.le_max_l _ _)) in W.
    apply (within_mono _ _ _ _ (Nat.max d d') (Nat.le_max_r _ _)) in W'.
    set (D := Nat.max d d') in *. pose proof (sum_err _ _ _ _ _ _ _ _ W W') as T.
    pose proof (within_size _ _ _ _ W). pose proof (within_size _ _ _ _ W').
    split.
    - destruct W as [A _], W' as [A' _]. eapply Rle_trans; [apply nrm_add|]. lra.
    - eapply Rle_trans; [apply (dist3 _ (cadd x x'))|]. unfold is_sum in E. cbn [pow].
      assert (u * (nrm x + nrm x') <= u * ((1 + u) ^ D * m + (1 + u) ^ D * m')) by (apply Rmult_le_compat_l; lra). nra.
  Qed.
  Lemma within_mul x v m d x' v' m' d' w : within x v m d -> within x' v' m' d' -> is_product K nrm u w x x' ->
    within w (cmul v v') (m * m') (S (d + d')).
  Proof.
    intros W W' E. pose proof (prod_err _ _ _ _ _ _ _ _ W W') as T.
    pose proof (within_pos _ _ _ _ W) as P. pose proof (within_pos _ _ _ _ W') as P'.
    pose proof (within_size _ _ _ _ W) as S1. pose proof (within_size _ _ _ _ W') as S2.
    split.
    - destruct W as [A _], W' as [A' _]. eapply Rle_trans; [apply nrm_mul|]. apply Rmult_le_compat; auto using nrm_pos.
    - eapply Rle_trans; [apply (dist3 _ (cmul x x'))|]. unfold is_product in E. cbn [pow].
      assert (X : nrm x * nrm x' <= ((1 + u) ^ d * m) * ((1 + u) ^ d' * m')) by (apply Rmult_le_compat; auto using nrm_pos).
      assert (Y : u * (nrm x * nrm x') <= u * (((1 + u) ^ d * m) * ((1 + u) ^ d' * m'))) by (apply Rmult_le_compat_l; auto).
      rewrite pow_add in *. 
      replace (((1 + u) * ((1 + u) ^ d * (1 + u) ^ d') - 1) * (m * m'))
        with (u * (((1 + u) ^ d * m) * ((1 + u) ^ d' * m')) + ((1 + u) ^ d * (1 + u) ^ d' - 1) * (m * m')) by ring. lra.
  Qed.
  Lemma within_fma x v m d x' v' m' d' x2 v2 m2 d2 w : within x v m d -> within x' v' m' d' -> within x2 v2 m2 d2 ->
    is_fma K nrm u w x x' x2 -> within w (cadd (cmul v v') v2) (m * m' + m2) (S (Nat.max (d + d') d2)).
  Proof.
    intros W W' W2 E.
    assert (WP : within (cmul x x') (cmul v v') (m * m') (d + d')).
    { split; [|apply prod_err; auto]. destruct W as [A _], W' as [A' _].
      eapply Rle_trans; [apply nrm_mul|]. apply Rmult_le_compat; auto using nrm_pos. }
    pose proof (within_pos _ _ _ _ W) as P. pose proof (within_pos _ _ _ _ W') as P'.
    assert (X : nrm x * nrm x' <= (1 + u) ^ (d + d') * (m * m')).
    { rewrite pow_add. replace ((1 + u) ^ d * (1 + u) ^ d' * (m * m')) with (((1 + u) ^ d * m) * ((1 + u) ^ d' * m')) by ring.
      apply Rmult_le_compat; eauto using nrm_pos, within_size. }
    set (D := Nat.max (d + d') d2) in *.
    assert (X' : nrm x * nrm x' <= (1 + u) ^ D * (m * m')).
    { eapply Rle_trans; [exact X|]. apply Rmult_le_compat_r; [apply Rmult_le_pos; auto|]. apply pow_mono. unfold D. lia. }
    apply (within_mono _ _ _ _ D (Nat.le_max_l _ _)) in WP.
    apply (within_mono _ _ _ _ D (Nat.le_max_r _ _)) in W2.
    pose proof (sum_err _ _ _ _ _ _ _ _ WP W2) as T. pose proof (within_size _ _ _ _ W2).
    split.
    - destruct WP as [A _], W2 as [A' _]. eapply Rle_trans; [apply nrm_add|]. lra.
    - eapply Rle_trans; [apply (dist3 _ (cadd (cmul x x') x2))|]. unfold is_fma in E. cbn [pow].
      assert (u * (nrm x * nrm x' + nrm x2) <= u * ((1 + u) ^ D * (m * m') + (1 + u) ^ D * m2)) by (apply Rmult_le_compat_l; lra). nra.
  Qed.
End Basic.

(** *** Schemes *)
Fixpoint leaves {L} (s : scheme L) : list L :=
  match s with
  | Leaf l => [l]
  | Add s t | Mul s t => leaves s ++ leaves t
  | Fma s t w => leaves s ++ leaves t ++ leaves w
  end.
Fixpoint sval (K : cring) {L} (x : L -> K) (s : scheme L) : K :=
  match s with
  | Leaf l => x l
  | Add s t => cadd (sval K x s) (sval K x t)
  | Mul s t => cmul (sval K x s) (sval K x t)
  | Fma s t w => cadd (cmul (sval K x s) (sval K x t)) (sval K x w)
  end.
Fixpoint sdepth {L} (d : L -> nat) (s : scheme L) : nat :=
  match s with
  | Leaf l => d l
  | Add s t => S (Nat.max (sdepth d s) (sdepth d t))
  | Mul s t => S (sdepth d s + sdepth d t)
  | Fma s t w => S (Nat.max (sdepth d s + sdepth d t) (sdepth d w))
  end.

Definition cross {L} (a b : list (list L)) : list (list L) := flat_map (fun p => map (fun q => p ++ q) b) a.
Lemma cross_in {L} (a b : list (list L)) p q : In p a -> In q b -> In (p ++ q) (cross a b).
Proof. intros A B. apply in_flat_map. exists p. split; auto. apply in_map_iff. exists q. auto. Qed.
Lemma cross_length {L} (a b : list (list L)) : List.length (cross a b) = List.length a * List.length b.
Proof.
  unfold cross. induction a as [|p a IH]; [reflexivity|]. cbn [flat_map]. rewrite app_length, map_length, IH. cbn. lia.
Qed.
Lemma expand_in {L} (s : scheme L) : exists p, In p (expand s).
Proof.
  induction s as [l|s [p Hp] t _|s [p Hp] t [q Hq]|s [p Hp] t [q Hq] w _]; cbn.
  - eauto.
  - exists p. apply in_or_app. auto.
  - exists (p ++ q). apply cross_in; auto.
  - exists (p ++ q). apply in_or_app. left. apply cross_in; auto.
Qed.
Lemma leaves_expand {L} (s : scheme L) l : In l (leaves s) -> exists p, In p (expand s) /\ In l p.
Proof.
  induction s as [l'|s IHs t IHt|s IHs t IHt|s IHs t IHt w IHw]; cbn; intros H.
  - exists [l']. cbn. auto.
  - apply in_app_or in H as [H|H]; [destruct (IHs H) as (p & P & Q)|destruct (IHt H) as (p & P & Q)]; exists p; split; auto; apply in_or_app; auto.
  - destruct (expand_in s) as (p0 & P0), (expand_in t) as (q0 & Q0).
    apply in_app_or in H as [H|H]; [destruct (IHs H) as (p & P & Q)|destruct (IHt H) as (p & P & Q)].
    + exists (p ++ q0). split; [apply cross_in; auto|apply in_or_app; auto].
    + exists (p0 ++ p). split; [apply cross_in; auto|apply in_or_app; auto].
  - destruct (expand_in s) as (p0 & P0), (expand_in t) as (q0 & Q0).
    apply in_app_or in H as [H|H]; [destruct (IHs H) as (p & P & Q)|apply in_app_or in H as [H|H]; [destruct (IHt H) as (p & P & Q)|destruct (IHw H) as (p & P & Q)]].
    + exists (p ++ q0). split; [apply in_or_app; left; apply cross_in; auto|apply in_or_app; auto].
    + exists (p0 ++ p). split; [apply in_or_app; left; apply cross_in; auto|apply in_or_app; auto].
    + exists p. split; [apply in_or_app; right; exact P|exact Q].
Qed.
Lemma depth_bound {L} (d : L -> nat) (s : scheme L) : exists p, In p (expand s) /\
  (sdepth d s + 2 <= List.length (expand s) + list_sum (map (fun l => S (d l)) p))%nat.
Proof.
  assert (NZ : forall s : scheme L, (1 <= List.length (expand s))%nat).
  { intros s'. destruct (expand_in s') as (p & P). destruct (expand s'); [destruct P|cbn; lia]. }
  induction s as [l|s (p & P & Hp) t (q & Q & Hq)|s (p & P & Hp) t (q & Q & Hq)|s (p & P & Hp) t (q & Q & Hq) w (r & R & Hr)]; cbn [expand sdepth].
  - exists [l]. cbn. split; [auto|lia].
  - pose proof (NZ s). pose proof (NZ t). rewrite app_length.
    destruct (Nat.le_gt_cases (sdepth d t) (sdepth d s)).
    + exists p. split; [apply in_or_app; auto|]. lia.
    + exists q. split; [apply in_or_app; auto|]. lia.
  - pose proof (NZ s). pose proof (NZ t). exists (p ++ q). split; [apply cross_in; auto|].
    change (flat_map _ _) with (cross (expand s) (expand t)). rewrite cross_length, map_app, list_sum_app. nia.
  - pose proof (NZ s). pose proof (NZ t). pose proof (NZ w).
    change (flat_map _ _) with (cross (expand s) (expand t)). rewrite app_length, cross_length.
    destruct (Nat.le_gt_cases (sdepth d w) (sdepth d s + sdepth d t)).
    + exists (p ++ q). split; [apply in_or_app; left; apply cross_in; auto|]. rewrite map_app, list_sum_app. nia.
    + exists r. split; [apply in_or_app; auto|]. nia.
Qed.

Section Values.
  Variable K : cring.
  Add Ring KrRv : (c_th K).
  Local Open Scope K_scope.
  Definition psum {L} (x : L -> K) (ps : list (list L)) : K := lsum (map (fun p => prodK (map x p)) ps).
  Lemma psum_app {L} (x : L -> K) a b : psum x (a ++ b) = psum x a + psum x b.
  Proof. unfold psum. induction a as [|p a IH]; cbn; [ring|]. rewrite IH. ring. Qed.
  Lemma psum_cross {L} (x : L -> K) a b : psum x (cross a b) = psum x a * psum x b.
  Proof.
    induction a as [|p a IH]; [unfold psum; cbn; ring|].
    change (cross (p :: a) b) with (map (fun q => p ++ q) b ++ cross a b). rewrite psum_app, IH.
    assert (E : psum x (map (fun q => p ++ q) b) = prodK (map x p) * psum x b).
    { clear. unfold psum. induction b as [|q b IH]; cbn; [ring|]. rewrite IH, map_app, prodK_app. ring. }
    rewrite E. unfold psum. cbn. ring.
  Qed.
  Lemma sval_expand {L} (x : L -> K) s : sval K x s = psum x (expand s).
  Proof.
    induction s as [l|s IHs t IHt|s IHs t IHt|s IHs t IHt w IHw]; cbn [sval expand].
    - unfold psum. cbn. ring.
    - rewrite psum_app, IHs, IHt. reflexivity.
    - change (flat_map _ _) with (cross (expand s) (expand t)). rewrite psum_cross, IHs, IHt. reflexivity.
    - change (flat_map _ _) with (cross (expand s) (expand t)). rewrite psum_app, psum_cross, IHs, IHt, IHw. reflexivity.
  Qed.
  Lemma lsum_perm' (a b : list K) : Permutation a b -> lsum a = lsum b.
  Proof. induction 1; cbn; try ring; [rewrite IHPermutation; ring|congruence]. Qed.
  Lemma prodK_perm' (a b : list K) : Permutation a b -> prodK a = prodK b.
  Proof. induction 1; cbn; try ring; [rewrite IHPermutation; ring|congruence]. Qed.
  Lemma psum_same {L} (x : L -> K) a b : same_products a b -> psum x a = psum x b.
  Proof.
    intros (c & P & Q). unfold psum. etransitivity; [apply lsum_perm', Permutation_map, P|].
    clear P a. induction Q as [|p q c b Hp Q IH]; cbn; [reflexivity|]. rewrite IH. f_equal. apply prodK_perm', Permutation_map, Hp.
  Qed.
End Values.

Lemma same_in {L} (a b : list (list L)) p : same_products a b -> In p a -> exists q, In q b /\ Permutation p q.
Proof.
  intros (c & P & Q) H. apply (Permutation_in p P) in H. clear P a.
  induction Q as [|x y c b Hx Q IH]; [destruct H|]. destruct H as [->|H]; [exists y; cbn; auto|].
  destruct (IH H) as (q & A & B). exists q. cbn. auto.
Qed.
Lemma same_length {L} (a b : list (list L)) : same_products a b -> List.length a = List.length b.
Proof. intros (c & P & Q). rewrite (Permutation_length P). clear P a. induction Q; cbn; congruence. Qed.

Section Schemes.
  Variable K : cring.
  Local Open Scope R_scope.
  Variable nrm : K -> R.
  Variable u : R.
  Hypothesis HN : is_norm K nrm.
  Hypothesis U0 : 0 <= u.
  Notation within := (within K nrm u).

  Lemma computes_within {L} (x v : L -> K) (m : L -> R) (d : L -> nat) s w : computes K nrm u x s w ->
    (forall l, In l (leaves s) -> within (x l) (v l) (m l) (d l)) ->
    within w (sval K v s) (sval RK m s) (sdepth d s).
  Proof.
    induction 1 as [l|s t a b w Hs IHs Ht IHt E|s t a b w Hs IHs Ht IHt E|s t z a b c w Hs IHs Ht IHt Hz IHz E]; intros HL; cbn [leaves sval sdepth] in *.
    - apply HL. cbn. auto.
    - eapply (within_add K nrm u HN U0); [apply IHs|apply IHt|exact E]; intros l Hl; apply HL; apply in_or_app; auto.
    - eapply (within_mul K nrm u HN U0); [apply IHs|apply IHt|exact E]; intros l Hl; apply HL; apply in_or_app; auto.
    - eapply (within_fma K nrm u HN U0); [apply IHs|apply IHt|apply IHz|exact E]; intros l Hl; apply HL; apply in_or_app; auto;
        right; apply in_or_app; auto.
  Qed.

  (** a computed sum of products *)
  Lemma computes_sum_within {L} (x v : L -> K) (m : L -> R) (d : L -> nat) ps w D k : computes_sum K nrm u x ps w ->
    (forall p l, In p ps -> In l p -> within (x l) (v l) (m l) (d l)) ->
    (forall p, In p ps -> list_sum (map d p) = D /\ List.length p = k) ->
    within w (psum K v ps) (psum RK m ps) (D + (List.length ps + k - 2)).
  Proof.
    intros C HL HD. unfold computes_sum in C. destruct ps as [|p0 ps'].
    { subst w. cbn. pose proof (within_exact K nrm u HN U0 c0 (D + (0 + k - 2))) as W. rewrite (nrm0 K nrm HN) in W. exact W. }
    set (ps := p0 :: ps') in *. destruct C as (s & SP & C).
    rewrite <- (psum_same K v _ _ SP), <- (psum_same RK m _ _ SP), <- !sval_expand.
    assert (W : within w (sval K v s) (sval RK m s) (sdepth d s)).
    { eapply computes_within; [exact C|]. intros l Hl. destruct (leaves_expand s l Hl) as (p & P & Q).
      destruct (same_in _ _ p SP P) as (q & A & B). apply (HL q l A). eapply Permutation_in; eauto. }
    eapply (within_mono K nrm u HN U0); [|exact W].
    destruct (depth_bound d s) as (p & P & B). destruct (same_in _ _ p SP P) as (q & A & PQ).
    destruct (HD q A) as [H1 H2]. rewrite (same_length _ _ SP) in B.
    assert (X : forall l : list L, list_sum (map (fun l => S (d l)) l) = (list_sum (map d l) + List.length l)%nat).
    { induction l as [|y l IH]; [reflexivity|]. cbn [map list_sum fold_right List.length] in *. unfold list_sum in *. cbn. lia. }
    rewrite X in B. rewrite (Permutation_length PQ) in B.
    assert (Y : list_sum (map d p) = list_sum (map d q)).
    { clear -PQ. induction PQ; cbn in *; unfold list_sum in *; cbn in *; lia. }
    lia.
  Qed.
End Schemes.
