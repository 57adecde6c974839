(** Fixed points of contractions in the maximum norm. *)
From Coq Require Import List Arith Lia Reals Lra.
Local Open Scope R_scope.

Section Contraction.
  Variable P : Type.
  Variable ok : (P -> R) -> Prop.
  Variable Phi : (P -> R) -> (P -> R).
  Definition ball (B : R) (x : P -> R) : Prop := forall p, Rabs (x p) <= B.
  Definition dist (d : R) (x y : P -> R) : Prop := forall p, Rabs (x p - y p) <= d.
  Hypothesis ok0 : ok (fun _ => 0).
  Hypothesis ok_lim : forall (y : nat -> P -> R) x, (forall k, ok (y k)) -> (forall p, Un_cv (fun k => y k p) (x p)) -> ok x.
  Hypothesis Phi_ok : forall x, ok x -> ball 1 x -> ok (Phi x) /\ ball (1 / 2) (Phi x).
  Hypothesis Phi_half : forall x y d, ok x -> ok y -> ball 1 x -> ball 1 y -> 0 <= d -> dist d x y -> dist (d / 2) (Phi x) (Phi y).

  Fixpoint iter (k : nat) : P -> R := match k with O => fun _ => 0 | S k => Phi (iter k) end.
  Lemma half_pos k : 0 < (1 / 2) ^ k. Proof. apply pow_lt. lra. Qed.
  Lemma iter_ok k : ok (iter k) /\ ball (1 / 2) (iter k).
  Proof.
    induction k as [|k (O1 & B1)]; cbn [iter].
    - split; [exact ok0|]. intros p. rewrite Rabs_R0. lra.
    - apply Phi_ok; [exact O1|]. intros p. specialize (B1 p). lra.
  Qed.
  Lemma iter_ball k : ball 1 (iter k).
  Proof. intros p. pose proof (proj2 (iter_ok k) p). lra. Qed.
  Lemma iter_near k : forall m, dist ((1 / 2) ^ k) (iter (k + m)) (iter k).
  Proof.
    induction k as [|k IH]; intros m.
    - intros p. cbn [iter pow plus]. replace (iter m p - 0) with (iter m p) by ring. apply iter_ball.
    - cbn [plus iter]. replace ((1 / 2) ^ S k) with ((1 / 2) ^ k / 2) by (cbn [pow]; field).
      apply Phi_half; try apply iter_ok; try apply iter_ball; [apply Rlt_le, half_pos|apply IH].
  Qed.
  Lemma half_small eps : 0 < eps -> exists k, (1 / 2) ^ k < eps.
  Proof.
    intros He. destruct (pow_lt_1_zero (1 / 2) ltac:(rewrite Rabs_pos_eq; lra) eps He) as (N & H).
    exists N. specialize (H N (le_n N)). rewrite Rabs_pos_eq in H; [exact H|apply Rlt_le, half_pos].
  Qed.
  Lemma cauchy p : Cauchy_crit (fun k => iter k p).
  Proof.
    intros eps He. destruct (half_small (eps / 2) ltac:(lra)) as (N & HN). exists N. intros k m Hk Hm. unfold R_dist.
    pose proof (iter_near N (k - N) p) as A. pose proof (iter_near N (m - N) p) as B.
    replace (N + (k - N))%nat with k in A by lia. replace (N + (m - N))%nat with m in B by lia.
    replace (iter k p - iter m p) with ((iter k p - iter N p) - (iter m p - iter N p)) by ring.
    eapply Rle_lt_trans; [apply Rabs_triang|]. rewrite Rabs_Ropp. lra.
  Qed.
  Definition lim (p : P) : R := proj1_sig (R_complete _ (cauchy p)).
  Lemma lim_cv p : Un_cv (fun k => iter k p) (lim p).
  Proof. exact (proj2_sig (R_complete _ (cauchy p))). Qed.
  Lemma cv_le (U : nat -> R) l c b N : Un_cv U l -> (forall m, Rabs (U (N + m)%nat - c) <= b) -> Rabs (l - c) <= b.
  Proof.
    intros Hc H. apply Rnot_lt_le. intros L. destruct (Hc (Rabs (l - c) - b) ltac:(lra)) as (M & HM).
    specialize (HM (N + M)%nat ltac:(lia)). unfold R_dist in HM. specialize (H M).
    pose proof (Rabs_triang (l - U (N + M)%nat) (U (N + M)%nat - c)) as T.
    replace (l - U (N + M)%nat + (U (N + M)%nat - c)) with (l - c) in T by ring.
    rewrite (Rabs_minus_sym l (U (N + M)%nat)) in T. lra.
  Qed.
  Lemma lim_ok : ok lim.
  Proof. apply (ok_lim iter); [intros k; apply iter_ok|exact lim_cv]. Qed.
  Lemma lim_ball : ball (1 / 2) lim.
  Proof.
    intros p. replace (lim p) with (lim p - 0) by ring. apply (cv_le _ _ _ _ 0 (lim_cv p)). intros m. cbn [plus].
    replace (iter m p - 0) with (iter m p) by ring. apply iter_ok.
  Qed.
  Lemma ball1 x : ball (1 / 2) x -> ball 1 x.
  Proof. intros H p. specialize (H p). lra. Qed.
  Lemma lim_near k : dist ((1 / 2) ^ k) (iter k) lim.
  Proof. intros p. rewrite Rabs_minus_sym. apply (cv_le _ _ _ _ k (lim_cv p)). intros m. apply iter_near. Qed.
  Lemma zero_of x c : 0 <= c -> (forall k, Rabs x <= c * (1 / 2) ^ k) -> x = 0.
  Proof.
    intros Hc H. destruct (Req_dec x 0) as [E|E]; [exact E|exfalso]. apply Rabs_pos_lt in E.
    destruct (half_small (Rabs x / (c + 1))) as (k & Hk); [apply Rdiv_lt_0_compat; lra|].
    specialize (H k). pose proof (half_pos k).
    apply Rmult_lt_compat_r with (r := c + 1) in Hk; [|lra]. unfold Rdiv in Hk.
    rewrite Rmult_assoc, Rinv_l in Hk by lra. nra.
  Qed.
  Lemma fixed_near z : ok z -> ball 1 z -> (forall p, Phi z p = z p) -> forall k, dist ((1 / 2) ^ k) (iter k) z.
  Proof.
    intros Oz Bz Fz. induction k as [|k IH]; intros p; cbn [iter pow].
    - rewrite Rabs_minus_sym. replace (z p - 0) with (z p) by ring. apply Bz.
    - rewrite <- Fz. replace (1 / 2 * (1 / 2) ^ k) with ((1 / 2) ^ k / 2) by field.
      apply Phi_half; try assumption; [apply iter_ok|apply iter_ball|apply Rlt_le, half_pos].
  Qed.
  Lemma lim_unique z : ok z -> ball 1 z -> (forall p, Phi z p = z p) -> forall p, z p = lim p.
  Proof.
    intros Oz Bz Fz p. apply Rminus_diag_uniq, (zero_of _ 2); [lra|]. intros k.
    pose proof (fixed_near z Oz Bz Fz k p) as A. pose proof (lim_near k p) as C. rewrite Rabs_minus_sym in A.
    replace (z p - lim p) with ((z p - iter k p) + (iter k p - lim p)) by ring.
    eapply Rle_trans; [apply Rabs_triang|]. lra.
  Qed.
  Lemma lim_fixed p : Phi lim p = lim p.
  Proof.
    apply Rminus_diag_uniq, (zero_of _ 1); [lra|]. intros k. rewrite Rmult_1_l.
    pose proof (lim_near (S k) p) as A. cbn [iter] in A.
    pose proof (Phi_half lim (iter k) ((1 / 2) ^ k) lim_ok (proj1 (iter_ok k)) (ball1 _ lim_ball) (iter_ball k) (Rlt_le _ _ (half_pos k))) as B.
    specialize (B ltac:(intros q; rewrite Rabs_minus_sym; apply lim_near) p).
    replace (Phi lim p - lim p) with ((Phi lim p - Phi (iter k) p) + (Phi (iter k) p - lim p)) by ring.
    eapply Rle_trans; [apply Rabs_triang|]. cbn [pow] in A. lra.
  Qed.
End Contraction.
