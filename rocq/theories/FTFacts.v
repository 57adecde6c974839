(** Facts about the model of ft_utils.py. *)
From Coq Require Import Reals List Lra Lia.
From Verif Require Import FTModel.
Import ListNotations.
Local Open Scope R_scope.

(** *** exp and ln *)
Lemma exp1_pos x : 0 < exp x + 1. Proof. pose proof (exp_pos x); lra. Qed.

Lemma ln1_upper u : 0 < u -> ln (1 + u) < u.
Proof.
  intros H. apply Rlt_le_trans with (ln (exp u)).
  - apply ln_increasing; [lra|]. apply exp_ineq1; lra.
  - rewrite ln_exp. lra.
Qed.

Lemma ln1_lower u : 0 < u -> u - u * u / (1 + u) < ln (1 + u).
Proof.
  intros H. assert (P : 0 < 1 + u) by lra.
  replace (u - u * u / (1 + u)) with (u / (1 + u)) by (field; lra).
  assert (Q : 0 < / (1 + u)) by (apply Rinv_0_lt_compat; lra).
  assert (E : ln (1 + u) = - ln (/ (1 + u))) by (rewrite ln_Rinv; lra).
  rewrite E. assert (ln (/ (1 + u)) < - (u / (1 + u))); [|lra].
  apply Rlt_le_trans with (ln (exp (- (u / (1 + u))))).
  - apply ln_increasing; [lra|].
    replace (/ (1 + u)) with (1 + - (u / (1 + u))) by (field; lra).
    apply exp_ineq1. unfold Rdiv. apply Rlt_not_eq. apply Ropp_lt_gt_0_contravar.
    apply Rmult_lt_0_compat; lra.
  - rewrite ln_exp. lra.
Qed.

Lemma exp_sq x : exp x * exp x = exp (2 * x).
Proof. rewrite <- exp_plus. f_equal. ring. Qed.

(** *** Fermi functions *)
Section Fermi.
  Variables beta epsilon mu : R.
  Notation x := (beta * (epsilon - mu)).

  Lemma fermi_mid : -30 <= x <= 30 -> fermi_function beta epsilon mu = 1 / (exp x + 1).
  Proof.
    intros [A B]. unfold fermi_function. destruct (Rlt_dec x (-30)); [lra|]. destruct (Rlt_dec 30 x); [lra|]. reflexivity.
  Qed.
  Lemma fermi_low : x < -30 -> fermi_function beta epsilon mu = 1 - exp x.
  Proof. intros A. unfold fermi_function. destruct (Rlt_dec x (-30)); [reflexivity|lra]. Qed.
  Lemma fermi_high : 30 < x -> fermi_function beta epsilon mu = exp (- x).
  Proof.
    intros A. unfold fermi_function. destruct (Rlt_dec x (-30)); [lra|]. destruct (Rlt_dec 30 x); [reflexivity|lra].
  Qed.
  Lemma vfermi_mid : -30 <= x <= 30 -> vfermi_function beta epsilon mu = exp x / (exp x + 1).
  Proof.
    intros [A B]. unfold vfermi_function. destruct (Rlt_dec 30 x); [lra|]. destruct (Rlt_dec x (-30)); [lra|]. reflexivity.
  Qed.
  Lemma vfermi_low : x < -30 -> vfermi_function beta epsilon mu = exp x.
  Proof.
    intros A. unfold vfermi_function. destruct (Rlt_dec 30 x); [lra|]. destruct (Rlt_dec x (-30)); [reflexivity|lra].
  Qed.
  Lemma vfermi_high : 30 < x -> vfermi_function beta epsilon mu = 1 - exp (- x).
  Proof. intros A. unfold vfermi_function. destruct (Rlt_dec 30 x); [reflexivity|lra]. Qed.

  Lemma branches : x < -30 \/ 30 < x \/ -30 <= x <= 30. Proof. lra. Qed.

  Lemma fermi_sum : fermi_function beta epsilon mu + vfermi_function beta epsilon mu = 1.
  Proof.
    destruct branches as [H|[H|H]].
    - rewrite fermi_low, vfermi_low by assumption. ring.
    - rewrite fermi_high, vfermi_high by assumption. ring.
    - rewrite fermi_mid, vfermi_mid by assumption. pose proof (exp1_pos x). field. lra.
  Qed.

  Lemma exp_neg_lt1 y : y < 0 -> exp y < 1.
  Proof. intros. rewrite <- exp_0. apply exp_increasing. assumption. Qed.

  Lemma fermi_range : 0 < fermi_function beta epsilon mu < 1.
  Proof.
    destruct branches as [H|[H|H]].
    - rewrite fermi_low by assumption. pose proof (exp_pos x). pose proof (exp_neg_lt1 x). lra.
    - rewrite fermi_high by assumption. pose proof (exp_pos (- x)). pose proof (exp_neg_lt1 (- x)). lra.
    - rewrite fermi_mid by assumption. pose proof (exp_pos x). split.
      + apply Rdiv_lt_0_compat; lra.
      + apply Rmult_lt_reg_r with (exp x + 1); [lra|]. field_simplify; lra.
  Qed.

  Lemma vfermi_range : 0 < vfermi_function beta epsilon mu < 1.
  Proof. pose proof fermi_sum. pose proof fermi_range. lra. Qed.

  Lemma reflect_x : beta * (2 * mu - epsilon - mu) = - x. Proof. ring. Qed.
End Fermi.

Lemma fermi_reflect beta epsilon mu :
  vfermi_function beta epsilon mu = fermi_function beta (2 * mu - epsilon) mu.
Proof.
  pose proof (reflect_x beta epsilon mu) as E.
  destruct (branches beta epsilon mu) as [H|[H|H]].
  - rewrite vfermi_low, fermi_high by (rewrite ?E; lra). rewrite E. f_equal. ring.
  - rewrite vfermi_high, fermi_low by (rewrite ?E; lra). rewrite E. reflexivity.
  - rewrite vfermi_mid, fermi_mid by (rewrite ?E; lra). rewrite E, exp_Ropp.
    pose proof (exp_pos (beta * (epsilon - mu))). field. lra.
Qed.

(** the exact error in the two outer branches *)
Lemma fermi_high_err beta epsilon mu : let x := beta * (epsilon - mu) in
  30 < x -> fermi_function beta epsilon mu - 1 / (exp x + 1) = exp (- x) * (1 / (exp x + 1)).
Proof.
  intros x H. rewrite fermi_high by assumption. fold x. rewrite exp_Ropp. pose proof (exp_pos x). field. lra.
Qed.
Lemma fermi_low_err beta epsilon mu : let x := beta * (epsilon - mu) in
  x < -30 -> 1 / (exp x + 1) - fermi_function beta epsilon mu = exp x * (exp x / (exp x + 1)).
Proof.
  intros x H. rewrite fermi_low by assumption. fold x. pose proof (exp_pos x). field. lra.
Qed.

Lemma logistic_small y : 0 < exp y / (exp y + 1) < exp y.
Proof.
  pose proof (exp_pos y). split; [apply Rdiv_lt_0_compat; lra|].
  apply Rmult_lt_reg_r with (exp y + 1); [lra|]. unfold Rdiv. rewrite Rmult_assoc, Rinv_l by lra. nra.
Qed.
Lemma logistic_neg y : 1 / (exp y + 1) = exp (- y) / (exp (- y) + 1).
Proof. rewrite exp_Ropp. pose proof (exp_pos y). field. lra. Qed.

Lemma fermi_error beta epsilon mu : let x := beta * (epsilon - mu) in
  30 < Rabs x -> Rabs (fermi_function beta epsilon mu - 1 / (exp x + 1)) < exp (- (2 * Rabs x)).
Proof.
  intros x H. unfold Rabs in H at 1. destruct (Rcase_abs x) as [L|L].
  - assert (Hx : x < -30) by lra. pose proof (fermi_low_err beta epsilon mu) as EE; cbv zeta in EE; fold x in EE; rewrite Rabs_minus_sym, EE by assumption; clear EE.
    rewrite (Rabs_left x) by lra. replace (- (2 * - x)) with (2 * x) by ring. rewrite <- exp_sq.
    pose proof (logistic_small x). pose proof (exp_pos x).
    rewrite Rabs_right by (apply Rle_ge, Rmult_le_pos; lra). nra.
  - pose proof (fermi_high_err beta epsilon mu) as EE; cbv zeta in EE; fold x in EE; rewrite EE by assumption; clear EE.
    rewrite (Rabs_right x) by lra. replace (- (2 * x)) with (2 * - x) by ring. rewrite <- exp_sq, logistic_neg.
    pose proof (logistic_small (- x)). pose proof (exp_pos (- x)).
    rewrite Rabs_right by (apply Rle_ge, Rmult_le_pos; lra). nra.
Qed.

Lemma fermi_bound beta epsilon mu : let x := beta * (epsilon - mu) in
  Rabs (fermi_function beta epsilon mu - 1 / (exp x + 1)) < exp (-60).
Proof.
  intros x. destruct (Rlt_dec 30 (Rabs x)) as [H|H].
  - eapply Rlt_trans; [apply fermi_error; assumption|]. apply exp_increasing. fold x. lra.
  - rewrite fermi_mid.
    + fold x. replace (_ - _) with 0 by ring. rewrite Rabs_R0. apply exp_pos.
    + fold x. unfold Rabs in H. destruct (Rcase_abs x); lra.
Qed.

(** relative error *)
Lemma fermi_relative beta epsilon mu : let x := beta * (epsilon - mu) in
  Rabs (fermi_function beta epsilon mu - 1 / (exp x + 1)) <= exp (-30) * (1 / (exp x + 1)).
Proof.
  intros x. assert (P : 0 < 1 / (exp x + 1)) by (apply Rdiv_lt_0_compat; [lra|apply exp1_pos]).
  destruct (branches beta epsilon mu) as [H|[H|H]]; fold x in H.
  - pose proof (fermi_low_err beta epsilon mu) as EE; cbv zeta in EE; fold x in EE; rewrite Rabs_minus_sym, EE by assumption; clear EE.
    pose proof (exp_pos x). pose proof (logistic_small x).
    rewrite Rabs_right by (apply Rle_ge, Rmult_le_pos; lra).
    assert (exp x < exp (-30)) by (apply exp_increasing; lra).
    assert (exp x < 1) by (apply exp_neg_lt1; lra).
    assert (exp x / (exp x + 1) <= 1 / (exp x + 1)).
    { unfold Rdiv. apply Rmult_le_compat_r; [|lra]. left. apply Rinv_0_lt_compat, exp1_pos. }
    apply Rmult_le_compat; lra.
  - pose proof (fermi_high_err beta epsilon mu) as EE; cbv zeta in EE; fold x in EE; rewrite EE by assumption; clear EE. pose proof (exp_pos (- x)).
    rewrite Rabs_right by (apply Rle_ge, Rmult_le_pos; lra).
    apply Rmult_le_compat_r; [lra|]. left. apply exp_increasing. lra.
  - rewrite fermi_mid by assumption. fold x. replace (_ - _) with 0 by ring. rewrite Rabs_R0.
    apply Rmult_le_pos; [left; apply exp_pos|lra].
Qed.

(** monotone within each branch *)
Definition same_branch (x y : R) : Prop :=
  (x < -30 /\ y < -30) \/ (30 < x /\ 30 < y) \/ (-30 <= x <= 30 /\ -30 <= y <= 30).

Lemma fermi_decreasing beta e1 e2 mu :
  same_branch (beta * (e1 - mu)) (beta * (e2 - mu)) ->
  beta * (e1 - mu) < beta * (e2 - mu) ->
  fermi_function beta e2 mu < fermi_function beta e1 mu.
Proof.
  intros [[A B]|[[A B]|[A B]]] L.
  - rewrite !fermi_low by assumption. pose proof (exp_increasing _ _ L). lra.
  - rewrite !fermi_high by assumption. apply exp_increasing. lra.
  - rewrite !fermi_mid by assumption. pose proof (exp_increasing _ _ L).
    pose proof (exp1_pos (beta * (e1 - mu))). pose proof (exp1_pos (beta * (e2 - mu))).
    unfold Rdiv. rewrite !Rmult_1_l. apply Rinv_lt_contravar; [apply Rmult_lt_0_compat; lra|lra].
Qed.

Lemma fermi_not_monotone : exists e1 e2, e1 < e2 /\ fermi_function 1 e1 0 < fermi_function 1 e2 0.
Proof.
  exists 30, (ln (exp 30 + 1 / 2)). pose proof (exp_pos 30) as P.
  assert (L : 30 < ln (exp 30 + 1 / 2)).
  { rewrite <- (ln_exp 30) at 1. apply ln_increasing; lra. }
  split; [exact L|]. rewrite fermi_mid by lra. rewrite fermi_high by lra.
  replace (1 * (30 - 0)) with 30 by ring. replace (1 * (ln (exp 30 + 1 / 2) - 0)) with (ln (exp 30 + 1 / 2)) by ring.
  rewrite exp_Ropp, exp_ln by lra. unfold Rdiv. rewrite !Rmult_1_l.
  apply Rinv_lt_contravar; [apply Rmult_lt_0_compat; lra|lra].
Qed.

(** *** the grand potential *)
(** -(1/beta) ln(1 + exp(-x)) *)
Definition gp (b e m : R) : R := - ln (1 + exp (- (b * (e - m)))) / b.

Lemma gp_shift b e m : b <> 0 -> gp b e m = (e - m) - ln (1 + exp (b * (e - m))) / b.
Proof.
  intros Hb. unfold gp. set (x := b * (e - m)).
  assert (E : ln (1 + exp x) = x + ln (1 + exp (- x))).
  { rewrite <- (ln_exp x) at 2. rewrite <- ln_mult by (pose proof (exp_pos x); pose proof (exp_pos (- x)); lra).
    f_equal. rewrite Rmult_plus_distr_l, <- exp_plus, Rplus_opp_r, exp_0. ring. }
  rewrite E. unfold x. field. assumption.
Qed.

Lemma ln_fermi_mid b e m : -30 <= b * (e - m) <= 30 -> ln (fermi_function b e m) = - ln (1 + exp (b * (e - m))).
Proof.
  intros H. rewrite fermi_mid by assumption. unfold Rdiv. rewrite Rmult_1_l, ln_Rinv by apply exp1_pos.
  f_equal. f_equal. ring.
Qed.

Lemma gp_mid b e m : b <> 0 -> -20 <= b * (e - m) <= 20 -> grand_potential0 b e m = gp b e m.
Proof.
  intros Hb H. unfold grand_potential0.
  destruct (Rlt_dec _ (-20)); [lra|]. destruct (Rlt_dec 20 _); [lra|].
  rewrite ln_fermi_mid by lra. rewrite gp_shift by assumption. unfold Rdiv. ring.
Qed.

Lemma ln1_err y : 0 < exp y - ln (1 + exp y) < exp (2 * y).
Proof.
  pose proof (exp_pos y) as P. pose proof (ln1_upper _ P). pose proof (ln1_lower _ P). split; [lra|].
  rewrite <- exp_sq. assert (exp y * exp y / (1 + exp y) < exp y * exp y); [|lra].
  assert (Q : 0 < exp y * exp y) by nra.
  apply Rmult_lt_reg_r with (1 + exp y); [lra|]. unfold Rdiv. rewrite Rmult_assoc, Rinv_l by lra. nra.
Qed.

Lemma Rabs_div a b : b <> 0 -> Rabs (a / b) = Rabs a / Rabs b.
Proof. intros. unfold Rdiv. rewrite Rabs_mult, Rabs_inv. reflexivity. Qed.

Lemma gp_err b e m : b <> 0 -> 20 < Rabs (b * (e - m)) ->
  Rabs (grand_potential0 b e m - gp b e m) < exp (- (2 * Rabs (b * (e - m)))) / Rabs b.
Proof.
  intros Hb H. pose proof (Rabs_pos_lt _ Hb) as Pb. set (x := b * (e - m)) in *.
  assert (G : exists y, Rabs x = - y /\ Rabs (grand_potential0 b e m - gp b e m) = Rabs ((exp y - ln (1 + exp y)) / b)).
  { unfold Rabs in H. destruct (Rcase_abs x) as [L|L].
    - exists x. split; [rewrite Rabs_left; lra|]. unfold grand_potential0. fold x.
      destruct (Rlt_dec x (-20)); [|lra]. rewrite gp_shift by assumption. fold x.
      rewrite <- Rabs_Ropp. f_equal. unfold Rdiv. ring.
    - exists (- x). split; [rewrite Rabs_right; lra|]. unfold grand_potential0. fold x.
      destruct (Rlt_dec x (-20)); [lra|]. destruct (Rlt_dec 20 x); [|lra]. unfold gp. fold x.
      rewrite <- Rabs_Ropp. f_equal. unfold Rdiv. ring. }
  destruct G as (y & E1 & E2). rewrite E2, E1, Rabs_div by assumption.
  unfold Rdiv. apply Rmult_lt_compat_r; [apply Rinv_0_lt_compat; assumption|].
  pose proof (ln1_err y). rewrite Rabs_right by lra. replace (- (2 * - y)) with (2 * y) by ring. lra.
Qed.

Lemma gp_bound b e m : b <> 0 -> Rabs (grand_potential0 b e m - gp b e m) < exp (-40) / Rabs b.
Proof.
  intros Hb. pose proof (Rabs_pos_lt _ Hb) as Pb. destruct (Rlt_dec 20 (Rabs (b * (e - m)))) as [H|H].
  - eapply Rlt_trans; [apply gp_err; assumption|]. unfold Rdiv. apply Rmult_lt_compat_r; [apply Rinv_0_lt_compat; assumption|].
    apply exp_increasing. lra.
  - rewrite gp_mid; [|assumption|unfold Rabs in H; destruct (Rcase_abs (b * (e - m))); lra].
    replace (_ - _) with 0 by ring. rewrite Rabs_R0. apply Rdiv_lt_0_compat; [apply exp_pos|assumption].
Qed.

(** *** derivatives *)
Lemma dlim_local (f g : R -> R) x l :
  (exists d, 0 < d /\ forall y, Rabs (y - x) < d -> f y = g y) ->
  derivable_pt_lim f x l -> derivable_pt_lim g x l.
Proof.
  intros (d & Hd & E) D eps He. destruct (D eps He) as [d' H].
  assert (Hm : 0 < Rmin d (pos d')) by (apply Rmin_pos; [assumption|apply cond_pos]).
  exists (mkposreal _ Hm). intros h Hh Hlt. simpl in Hlt.
  rewrite <- !E.
  - apply H; [assumption|]. eapply Rlt_le_trans; [exact Hlt|apply Rmin_r].
  - replace (x - x) with 0 by ring. rewrite Rabs_R0. assumption.
  - replace (x + h - x) with h by ring. eapply Rlt_le_trans; [exact Hlt|apply Rmin_l].
Qed.

Lemma dlim_eq (f : R -> R) x l l' : l = l' -> derivable_pt_lim f x l -> derivable_pt_lim f x l'.
Proof. intros <-. auto. Qed.

(** near b, y*c stays on the same side of k *)
Lemma near (b c : R) (P : R -> Prop) :
  (exists g, 0 < g /\ forall z, Rabs (z - b * c) < g -> P z) ->
  exists d, 0 < d /\ forall y, Rabs (y - b) < d -> P (y * c).
Proof.
  intros (g & Hg & HP). exists (g / (Rabs c + 1)). pose proof (Rabs_pos c).
  split; [apply Rdiv_lt_0_compat; lra|]. intros y Hy. apply HP.
  replace (y * c - b * c) with ((y - b) * c) by ring. rewrite Rabs_mult.
  apply Rle_lt_trans with (Rabs (y - b) * (Rabs c + 1)).
  - apply Rmult_le_compat_l; [apply Rabs_pos|lra].
  - apply Rmult_lt_reg_r with (/ (Rabs c + 1)); [apply Rinv_0_lt_compat; lra|].
    rewrite Rmult_assoc, Rinv_r by lra. unfold Rdiv in Hy. lra.
Qed.
Lemma open_lt (x k : R) : x < k -> exists g, 0 < g /\ forall z, Rabs (z - x) < g -> z < k.
Proof. intros. exists (k - x). split; [lra|]. intros z Hz. apply Rabs_def2 in Hz. lra. Qed.
Lemma open_gt (x k : R) : k < x -> exists g, 0 < g /\ forall z, Rabs (z - x) < g -> k < z.
Proof. intros. exists (x - k). split; [lra|]. intros z Hz. apply Rabs_def2 in Hz. lra. Qed.
Lemma open_between (x k l : R) : k < x < l -> exists g, 0 < g /\ forall z, Rabs (z - x) < g -> k < z < l.
Proof.
  intros. exists (Rmin (x - k) (l - x)). split; [apply Rmin_pos; lra|]. intros z Hz.
  pose proof (Rmin_l (x - k) (l - x)). pose proof (Rmin_r (x - k) (l - x)). apply Rabs_def2 in Hz. lra.
Qed.

Lemma d_lin c b : derivable_pt_lim (fun y => y * c) b c.
Proof.
  apply dlim_eq with (1 * c + b * 0); [ring|].
  exact (derivable_pt_lim_mult id (fct_cte c) b 1 0 (derivable_pt_lim_id b) (derivable_pt_lim_const c b)).
Qed.
Lemma d_exp f b l : derivable_pt_lim f b l -> derivable_pt_lim (fun y => exp (f y)) b (exp (f b) * l).
Proof. intros H. exact (derivable_pt_lim_comp f exp b l _ H (derivable_pt_lim_exp (f b))). Qed.
Lemma d_ln f b l : derivable_pt_lim f b l -> 0 < f b -> derivable_pt_lim (fun y => ln (f y)) b (/ f b * l).
Proof. intros H P. exact (derivable_pt_lim_comp f ln b l _ H (derivable_pt_lim_ln (f b) P)). Qed.
Lemma d_opp f b l : derivable_pt_lim f b l -> derivable_pt_lim (fun y => - f y) b (- l).
Proof. exact (derivable_pt_lim_opp f b l). Qed.
Lemma d_plus f g b l k : derivable_pt_lim f b l -> derivable_pt_lim g b k -> derivable_pt_lim (fun y => f y + g y) b (l + k).
Proof. exact (derivable_pt_lim_plus f g b l k). Qed.
Lemma d_const c b : derivable_pt_lim (fun _ => c) b 0.
Proof. exact (derivable_pt_lim_const c b). Qed.
Lemma d_id b : derivable_pt_lim (fun y => y) b 1.
Proof. exact (derivable_pt_lim_id b). Qed.
Lemma d_divid f b l : derivable_pt_lim f b l -> b <> 0 -> derivable_pt_lim (fun y => f y / y) b ((l * b - 1 * f b) / Rsqr b).
Proof. intros H P. exact (derivable_pt_lim_div f id b l 1 H (derivable_pt_lim_id b) P). Qed.

(** derivative of the exact grand potential *)
Definition dgp (b e m : R) : R :=
  ln (1 + exp (- (b * (e - m)))) / (b * b) + (e - m) * (1 / (exp (b * (e - m)) + 1)) / b.

Lemma gp_deriv b e m : b <> 0 -> derivable_pt_lim (fun y => gp y e m) b (dgp b e m).
Proof.
  intros Hb. unfold gp. eapply dlim_eq; cycle 1.
  - apply d_divid; [|assumption]. apply d_opp. apply d_ln; [|pose proof (exp_pos (- (b * (e - m)))); lra].
    apply d_plus; [apply d_const|]. apply d_exp, d_opp, d_lin.
  - unfold dgp. set (x := b * (e - m)). unfold Rsqr. rewrite exp_Ropp. pose proof (exp_pos x).
    set (L := ln (1 + / exp x)). field. repeat split; lra.
Qed.

Lemma ln1_neg x : ln (1 + exp x) = x + ln (1 + exp (- x)).
Proof.
  rewrite <- (ln_exp x) at 2. rewrite <- ln_mult by (pose proof (exp_pos x); pose proof (exp_pos (- x)); lra).
  f_equal. rewrite Rmult_plus_distr_l, <- exp_plus, Rplus_opp_r, exp_0. ring.
Qed.

(** the code's derivative is the exact one in the middle *)
Lemma dgp_mid b e m : b <> 0 -> -20 <= b * (e - m) <= 20 -> dgrand_potential0 b e m = dgp b e m.
Proof.
  intros Hb H. unfold dgrand_potential0. destruct (Rlt_dec _ (-20)); [lra|]. destruct (Rlt_dec 20 _); [lra|].
  rewrite ln_fermi_mid, vfermi_mid by lra. unfold dgp. rewrite ln1_neg. set (x := b * (e - m)).
  assert (E : e - m = x / b) by (unfold x; field; assumption). rewrite E. pose proof (exp_pos x).
  set (L := ln (1 + exp (- x))). field. lra.
Qed.

Lemma d_mid b e m : b <> 0 -> -20 < b * (e - m) < 20 ->
  derivable_pt_lim (fun y => grand_potential0 y e m) b (dgrand_potential0 b e m).
Proof.
  intros Hb H. rewrite dgp_mid by (assumption || lra).
  apply dlim_local with (fun y => gp y e m); [|apply gp_deriv; assumption].
  destruct (near b (e - m) (fun z => -20 < z < 20) (open_between _ _ _ H)) as (d & Hd & N).
  exists (Rmin d (Rabs b)). split; [apply Rmin_pos; [assumption|apply Rabs_pos_lt; assumption]|].
  intros y Hy. symmetry. apply gp_mid.
  - intros ->. pose proof (Rmin_r d (Rabs b)). rewrite Rminus_0_l, Rabs_Ropp in Hy. lra.
  - assert (Q : Rabs (y - b) < d) by (eapply Rlt_le_trans; [exact Hy|apply Rmin_l]). specialize (N y Q). cbv beta in N. lra.
Qed.

(** the derivative of what the code computes in the outer branches *)
Lemma d_low b e m : b <> 0 -> b * (e - m) < -20 ->
  derivable_pt_lim (fun y => grand_potential0 y e m) b
    (exp (b * (e - m)) / (b * b) - (e - m) * exp (b * (e - m)) / b).
Proof.
  intros Hb H. apply dlim_local with (fun y => (- exp (y * (e - m))) / y + (e - m)).
  - destruct (near b (e - m) (fun z => z < -20) (open_lt _ _ H)) as (d & Hd & N).
    exists d. split; [assumption|]. intros y Hy. specialize (N y Hy). cbv beta in N.
    unfold grand_potential0. destruct (Rlt_dec _ (-20)); [reflexivity|lra].
  - eapply dlim_eq; cycle 1.
    + apply d_plus; [|apply d_const]. apply d_divid; [|assumption]. apply d_opp, d_exp, d_lin.
    + unfold Rsqr. field. assumption.
Qed.
Lemma d_high b e m : b <> 0 -> 20 < b * (e - m) ->
  derivable_pt_lim (fun y => grand_potential0 y e m) b
    (exp (- (b * (e - m))) / (b * b) + (e - m) * exp (- (b * (e - m))) / b).
Proof.
  intros Hb H. apply dlim_local with (fun y => (- exp (- (y * (e - m)))) / y).
  - destruct (near b (e - m) (fun z => 20 < z) (open_gt _ _ H)) as (d & Hd & N).
    exists d. split; [assumption|]. intros y Hy. specialize (N y Hy). cbv beta in N.
    unfold grand_potential0. destruct (Rlt_dec _ (-20)); [lra|]. destruct (Rlt_dec 20 _); [reflexivity|lra].
  - eapply dlim_eq; cycle 1.
    + apply d_divid; [|assumption]. apply d_opp, d_exp, d_opp, d_lin.
    + unfold Rsqr. field. assumption.
Qed.

Lemma d_far b e m : b <> 0 -> 30 < Rabs (b * (e - m)) ->
  derivable_pt_lim (fun y => grand_potential0 y e m) b (dgrand_potential0 b e m).
Proof.
  intros Hb H. unfold Rabs in H. destruct (Rcase_abs (b * (e - m))).
  - eapply dlim_eq; [|apply d_low; [assumption|lra]]. unfold dgrand_potential0.
    destruct (Rlt_dec _ (-20)); [|lra]. rewrite vfermi_low by lra. field. assumption.
  - eapply dlim_eq; [|apply d_high; [assumption|lra]]. unfold dgrand_potential0.
    destruct (Rlt_dec _ (-20)); [lra|]. destruct (Rlt_dec 20 _); [|lra]. rewrite fermi_high by lra. field. assumption.
Qed.

Lemma fermi_smaller y : 0 < exp y - exp y / (exp y + 1) < exp (2 * y).
Proof.
  pose proof (exp_pos y). pose proof (logistic_small y). split; [lra|].
  replace (exp y - exp y / (exp y + 1)) with (exp y * (exp y / (exp y + 1))) by (field; lra).
  rewrite <- exp_sq. apply Rmult_lt_compat_l; lra.
Qed.

(** between 20 and 30: the derivative up to a bound *)
Lemma d_between b e m : b <> 0 -> 20 < Rabs (b * (e - m)) ->
  exists D, derivable_pt_lim (fun y => grand_potential0 y e m) b D /\
  Rabs (D - dgrand_potential0 b e m) <= Rabs (b * (e - m)) * exp (- (2 * Rabs (b * (e - m)))) / (b * b).
Proof.
  intros Hb H. assert (Hbb : 0 < b * b) by nra.
  assert (Far : 0 <= Rabs (b * (e - m)) * exp (- (2 * Rabs (b * (e - m)))) / (b * b)).
  { apply Rmult_le_pos; [apply Rmult_le_pos; [apply Rabs_pos|left; apply exp_pos]|left; apply Rinv_0_lt_compat; assumption]. }
  destruct (Rlt_dec 30 (Rabs (b * (e - m)))) as [F|F].
  { exists (dgrand_potential0 b e m). split; [apply d_far; assumption|].
    replace (_ - _) with 0 by ring. rewrite Rabs_R0. assumption. }
  set (x := b * (e - m)) in *.
  assert (E : e - m = x / b) by (unfold x; field; assumption).
  assert (G : forall y, Rabs x = - y -> Rabs ((x / b) * (exp y - exp y / (exp y + 1)) / b)
     <= Rabs x * exp (- (2 * Rabs x)) / (b * b)).
  { intros y Ey. pose proof (fermi_smaller y). rewrite Ey at 2. replace (- (2 * - y)) with (2 * y) by ring.
    replace (x / b * (exp y - exp y / (exp y + 1)) / b) with (x * (exp y - exp y / (exp y + 1)) / (b * b)).
    2: { pose proof (exp_pos y). field. repeat split; lra. }
    rewrite Rabs_div by lra. rewrite (Rabs_right (b * b)) by lra. rewrite Rabs_mult.
    apply Rmult_le_compat_r; [left; apply Rinv_0_lt_compat; assumption|].
    apply Rmult_le_compat_l; [apply Rabs_pos|]. rewrite Rabs_right; lra. }
  destruct (Rcase_abs x) as [L|L].
  - rewrite (Rabs_left x) in H, F by lra.
    eexists; split; [apply d_low; [assumption|fold x; lra]|]. fold x. unfold dgrand_potential0. fold x.
    destruct (Rlt_dec x (-20)); [|lra]. rewrite vfermi_mid by (fold x; lra). fold x. rewrite E.
    rewrite <- Rabs_Ropp. eapply Rle_trans; [|apply (G x); rewrite Rabs_left; lra].
    apply Req_le. f_equal. unfold Rdiv. ring.
  - rewrite (Rabs_right x) in H, F by lra.
    eexists; split; [apply d_high; [assumption|fold x; lra]|]. fold x. unfold dgrand_potential0. fold x.
    destruct (Rlt_dec x (-20)); [lra|]. destruct (Rlt_dec 20 x); [|lra].
    rewrite fermi_mid by (fold x; lra). fold x. rewrite E, logistic_neg.
    eapply Rle_trans; [|apply (G (- x)); rewrite Rabs_right; lra].
    apply Req_le. f_equal. unfold Rdiv. ring.
Qed.

(** distance from the derivative of the exact grand potential *)
Lemma dgp_err b e m : b <> 0 -> 20 < Rabs (b * (e - m)) ->
  Rabs (dgrand_potential0 b e m - dgp b e m)
  <= (1 + Rabs (b * (e - m))) * exp (- (2 * Rabs (b * (e - m)))) / (b * b).
Proof.
  intros Hb H. assert (Hbb : 0 < b * b) by nra. set (x := b * (e - m)) in *.
  assert (E : e - m = x / b) by (unfold x; field; assumption).
  assert (G : forall y d s, Rabs x = - y -> Rabs s = 1 -> 0 <= d -> d < exp (2 * y) ->
     Rabs ((exp y - ln (1 + exp y)) / (b * b) + (x / b) * (s * d) / b)
     <= (1 + Rabs x) * exp (- (2 * Rabs x)) / (b * b)).
  { intros y d s Ey Es Hd0 Hd. pose proof (ln1_err y). rewrite Ey at 2. replace (- (2 * - y)) with (2 * y) by ring.
    replace (_ + _) with ((exp y - ln (1 + exp y) + s * (x * d)) / (b * b)) by (field; assumption).
    rewrite Rabs_div by lra. rewrite (Rabs_right (b * b)) by lra.
    apply Rmult_le_compat_r; [left; apply Rinv_0_lt_compat; assumption|].
    eapply Rle_trans; [apply Rabs_triang|]. rewrite !Rabs_mult, Es, Rmult_1_l.
    rewrite (Rabs_right (_ - _)) by lra. rewrite (Rabs_right d) by lra. pose proof (Rabs_pos x). nra. }
  assert (Z : forall y, 0 <= exp (2 * y)) by (intro; left; apply exp_pos).
  unfold dgrand_potential0, dgp. fold x.
  destruct (Rcase_abs x) as [L|L].
  - rewrite (Rabs_left x) in H by lra. destruct (Rlt_dec x (-20)); [|lra].
    assert (V : exists d, 0 <= d /\ d < exp (2 * x) /\ vfermi_function b e m = exp x / (exp x + 1) + d).
    { destruct (Rlt_dec x (-30)).
      - exists (exp x - exp x / (exp x + 1)). pose proof (fermi_smaller x). rewrite vfermi_low by assumption. fold x. lra.
      - exists 0. pose proof (exp_pos (2 * x)). rewrite vfermi_mid by (fold x; lra). fold x. lra. }
    destruct V as (d & V0 & V1 & V2). rewrite V2, E.
    eapply Rle_trans; [|apply (G x d (-1)); [rewrite Rabs_left; lra|rewrite Rabs_left; lra|assumption|assumption]].
    apply Req_le. f_equal. rewrite (ln1_neg x). pose proof (exp_pos x). set (LL := ln _). field. lra.
  - rewrite (Rabs_right x) in H by lra. destruct (Rlt_dec x (-20)); [lra|]. destruct (Rlt_dec 20 x); [|lra].
    assert (V : exists d, 0 <= d /\ d < exp (2 * - x) /\ fermi_function b e m = 1 / (exp x + 1) + d).
    { destruct (Rlt_dec 30 x).
      - exists (exp (- x) - exp (- x) / (exp (- x) + 1)). pose proof (fermi_smaller (- x)). rewrite fermi_high by assumption.
        fold x. rewrite logistic_neg. lra.
      - exists 0. pose proof (exp_pos (2 * - x)). rewrite fermi_mid by (fold x; lra). fold x. lra. }
    destruct V as (d & V0 & V1 & V2). rewrite V2, E.
    eapply Rle_trans; [|apply (G (- x) d 1); [rewrite Rabs_right; lra|rewrite Rabs_right; lra|assumption|assumption]].
    apply Req_le. f_equal. pose proof (exp_pos x). set (LL := ln _). field. lra.
Qed.

(** *** derivative in the chemical potential: minus the occupation *)
Lemma d_emm b e m : derivable_pt_lim (fun y => b * (e - y)) m (- b).
Proof.
  apply dlim_eq with (0 * (e - m) + b * (0 - 1)); [ring|].
  exact (derivable_pt_lim_mult (fct_cte b) (fct_cte e - id)%F m 0 (0 - 1) (derivable_pt_lim_const b m)
           (derivable_pt_lim_minus (fct_cte e) id m 0 1 (derivable_pt_lim_const e m) (derivable_pt_lim_id m))).
Qed.
Lemma d_emm1 e m : derivable_pt_lim (fun y => e - y) m (-1).
Proof.
  apply dlim_eq with (0 - 1); [ring|].
  exact (derivable_pt_lim_minus (fct_cte e) id m 0 1 (derivable_pt_lim_const e m) (derivable_pt_lim_id m)).
Qed.
Lemma d_divc f m l c : derivable_pt_lim f m l -> derivable_pt_lim (fun y => f y / c) m (l / c).
Proof.
  intros H. apply dlim_eq with (l * / c + f m * 0); [unfold Rdiv; ring|].
  exact (derivable_pt_lim_mult f (fct_cte (/ c)) m l 0 H (derivable_pt_lim_const (/ c) m)).
Qed.
Lemma near_mu b e m (P : R -> Prop) :
  (exists g, 0 < g /\ forall z, Rabs (z - b * (e - m)) < g -> P z) ->
  exists d, 0 < d /\ forall y, Rabs (y - m) < d -> P (b * (e - y)).
Proof.
  intros H. destruct (near (e - m) b P) as (d & Hd & N).
  { rewrite Rmult_comm. assumption. }
  exists d. split; [assumption|]. intros y Hy. rewrite Rmult_comm. apply N.
  rewrite <- Rabs_Ropp. replace (- (e - y - (e - m))) with (y - m) by ring. assumption.
Qed.

Lemma mu_deriv b e m : b <> 0 -> Rabs (b * (e - m)) < 20 \/ 30 < Rabs (b * (e - m)) ->
  derivable_pt_lim (fun y => grand_potential0 b e y) m (- fermi_function b e m).
Proof.
  intros Hb H.
  assert (C : -20 < b * (e - m) < 20 \/ b * (e - m) < -30 \/ 30 < b * (e - m)).
  { unfold Rabs in H. destruct (Rcase_abs (b * (e - m))); lra. }
  destruct C as [C|[C|C]].
  - apply dlim_local with (fun y => gp b e y).
    + destruct (near_mu b e m (fun z => -20 < z < 20) (open_between _ _ _ C)) as (d & Hd & N).
      exists d. split; [assumption|]. intros y Hy. specialize (N y Hy). cbv beta in N.
      symmetry. apply gp_mid; [assumption|lra].
    + unfold gp. eapply dlim_eq; cycle 1.
      * apply d_divc, d_opp. apply d_ln; [|pose proof (exp_pos (- (b * (e - m)))); lra].
        apply d_plus; [apply d_const|]. apply d_exp, d_opp, d_emm.
      * rewrite fermi_mid by lra. rewrite exp_Ropp. pose proof (exp_pos (b * (e - m))). field. lra.
  - apply dlim_local with (fun y => (- exp (b * (e - y))) / b + (e - y)).
    + destruct (near_mu b e m (fun z => z < -30) (open_lt _ _ C)) as (d & Hd & N).
      exists d. split; [assumption|]. intros y Hy. specialize (N y Hy). cbv beta in N.
      unfold grand_potential0. destruct (Rlt_dec _ (-20)); [reflexivity|lra].
    + eapply dlim_eq; cycle 1.
      * apply d_plus; [|apply d_emm1]. apply d_divc, d_opp, d_exp, d_emm.
      * rewrite fermi_low by lra. field. assumption.
  - apply dlim_local with (fun y => (- exp (- (b * (e - y)))) / b).
    + destruct (near_mu b e m (fun z => 30 < z) (open_gt _ _ C)) as (d & Hd & N).
      exists d. split; [assumption|]. intros y Hy. specialize (N y Hy). cbv beta in N.
      unfold grand_potential0. destruct (Rlt_dec _ (-20)); [lra|]. destruct (Rlt_dec 20 _); [reflexivity|lra].
    + eapply dlim_eq; cycle 1.
      * apply d_divc, d_opp, d_exp, d_opp, d_emm.
      * rewrite fermi_high by lra. field. assumption.
Qed.

(** *** zero temperature *)
Lemma zero_T e m tol : 0 < tol -> exists b0, forall b, b0 < b ->
  (m < e -> fermi_function b e m < tol) /\ (e < m -> 1 - tol < fermi_function b e m) /\ (e = m -> fermi_function b e m = 1 / 2).
Proof.
  intros Ht.
  assert (H0 : forall d, 0 < d -> exists b0, 0 <= b0 /\ forall b, b0 < b -> exp (- (b * d)) < tol).
  { intros d Hd. exists (Rmax 0 (- ln tol / d)). split; [apply Rmax_l|]. intros b Hb.
    rewrite <- (exp_ln tol) by assumption. apply exp_increasing.
    assert (- ln tol / d < b) by (eapply Rle_lt_trans; [apply Rmax_r|exact Hb]).
    assert (- ln tol < b * d); [|lra]. apply Rmult_lt_reg_r with (/ d); [apply Rinv_0_lt_compat; assumption|].
    rewrite Rmult_assoc, Rinv_r by lra. unfold Rdiv in *. lra. }
  assert (HF : forall b c, 0 < b * c -> fermi_function b (m + c) m <= exp (- (b * c))).
  { intros b c Hc. assert (E : b * (m + c - m) = b * c) by ring.
    destruct (Rlt_dec 30 (b * c)).
    - rewrite fermi_high; rewrite E; lra.
    - rewrite fermi_mid; rewrite E; [|lra]. rewrite logistic_neg. left. apply logistic_small. }
  destruct (Rtotal_order e m) as [L|[L|L]].
  - destruct (H0 (m - e)) as (b0 & P & Hb0); [lra|]. exists b0. intros b Hb. repeat split; try lra. intros _.
    pose proof (fermi_sum b e m). rewrite (fermi_reflect b e m) in H.
    replace (2 * m - e) with (m + (m - e)) in H by ring.
    assert (0 < b * (m - e)) by (apply Rmult_lt_0_compat; lra).
    pose proof (HF b (m - e)). specialize (Hb0 b Hb). lra.
  - exists 0. intros b Hb. subst. repeat split; try lra. intros _.
    rewrite fermi_mid; replace (b * (m - m)) with 0 by ring; [|lra]. rewrite exp_0. lra.
  - destruct (H0 (e - m)) as (b0 & P & Hb0); [lra|]. exists b0. intros b Hb. repeat split; try lra. intros _.
    assert (0 < b * (e - m)) by (apply Rmult_lt_0_compat; lra).
    pose proof (HF b (e - m)). specialize (Hb0 b Hb). replace (m + (e - m)) with e in * by ring. lra.
Qed.

(** *** vectors *)
Lemma put_at_len i v l : length (put_at i v l) = length l.
Proof. revert i. induction l as [|a l IH]; intros [|i]; simpl; auto. Qed.
Lemma fill_go (g : nat -> R) n : forall k p, length p = k ->
  fold_left (fun out i => put_at i (g i) out) (seq k n) (p ++ repeat 0 n) = p ++ map g (seq k n).
Proof.
  assert (G : forall (p : list R) y q v, put_at (length p) v (p ++ y :: q) = (p ++ [v]) ++ q).
  { clear. induction p as [|a p IH]; intros y q v; simpl; [reflexivity|]. f_equal. apply IH. }
  induction n as [|n IH]; intros k p Hp; [reflexivity|].
  subst k. simpl. rewrite G, IH by (rewrite app_length; simpl; lia).
  rewrite <- app_assoc. reflexivity.
Qed.
Lemma map_nth_seq (f : R -> R) eps : map (fun i => f (nth i eps 0)) (seq 0 (length eps)) = map f eps.
Proof.
  induction eps as [|e eps IH]; [reflexivity|]. simpl. f_equal. rewrite <- seq_shift, map_map. exact IH.
Qed.
Lemma fill_map f eps : fill f eps = map f eps.
Proof.
  unfold fill. rewrite <- (map_nth_seq f eps).
  exact (fill_go (fun i => f (nth i eps 0)) (length eps) 0 [] eq_refl).
Qed.

Lemma ff_ffv_sum b eps m : map (fun p => fst p + snd p) (combine (ff b eps m) (ffv b eps m)) = repeat 1 (length eps).
Proof.
  unfold ff, ffv. rewrite !fill_map. induction eps as [|e eps IH]; [reflexivity|]. simpl. f_equal; [apply fermi_sum|exact IH].
Qed.

(** *** Temperature units *)
Lemma HtoK_close T : Rabs (HtoK T - T * (3157750248 / 10 ^ 4)) <= Rabs T * (315775 / 10 ^ 6).
Proof.
  assert (E : HtoK T - T * (3157750248 / 10 ^ 4) = T * (hartree_to_ev / kb - 3157750248 / 10 ^ 4)) by (unfold HtoK, Rdiv; ring).
  rewrite E, Rabs_mult. apply Rmult_le_compat_l; [apply Rabs_pos|]. unfold hartree_to_ev, kb. apply Rabs_le. split; lra.
Qed.
Lemma HtoK_linear S T c : HtoK (S + c * T) = HtoK S + c * HtoK T.
Proof. unfold HtoK, Rdiv. ring. Qed.
