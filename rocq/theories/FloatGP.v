(** Accuracy of grand_potential0 in double precision. *)
From Coq Require Import ZArith Reals List Lra Lia.
From Flocq Require Import Core BinarySingleNaN Relative Plus_error.
From Verif Require Import FloatModel FloatSpec FloatFacts FloatFermi FloatFermi2.
Import ListNotations.
Local Open Scope R_scope.

(** *** ln (1 + exp (-x)) *)
Definition L (x : R) : R := ln (1 + exp (- x)).
Lemma L_neg x : L (- x) = x + L x.
Proof.
  unfold L. rewrite Ropp_involutive. pose proof (exp_pos x). pose proof (exp_pos (- x)).
  rewrite <- (ln_exp x) at 2. rewrite <- ln_mult by lra. f_equal.
  rewrite exp_Ropp. field. lra.
Qed.
Lemma ln_mono a b : 0 < a -> a <= b -> ln a <= ln b.
Proof. intros H [H1| ->]; [left; apply ln_increasing; assumption|lra]. Qed.
Lemma L_pos x : 0 <= L x.
Proof. unfold L. rewrite <- ln_1. apply ln_mono; [lra|]. pose proof (exp_pos (- x)). lra. Qed.
Lemma L_step a b : a <= b -> 0 <= L a - L b <= b - a.
Proof.
  intros H. unfold L. pose proof (exp_pos (- a)). pose proof (exp_pos (- b)).
  assert (exp (- b) <= exp (- a)) by (destruct H as [H| ->]; [left; apply exp_increasing; lra|lra]).
  pose proof (exp_ge1 (b - a)). split.
  - assert (ln (1 + exp (- b)) <= ln (1 + exp (- a))) by (apply ln_mono; lra). lra.
  - assert (ln (1 + exp (- a)) <= (b - a) + ln (1 + exp (- b))); [|lra].
    rewrite <- (ln_exp (b - a)) at 1. rewrite <- ln_mult by (try apply exp_pos; lra).
    apply ln_mono; [lra|]. rewrite Rmult_plus_distr_l, <- exp_plus. replace (b - a + - b) with (- a) by ring. lra.
Qed.
Lemma L_lip a b : Rabs (L a - L b) <= Rabs (a - b).
Proof.
  destruct (Rle_lt_dec a b) as [H|H].
  - pose proof (L_step a b H). rewrite Rabs_pos_eq by lra. rewrite Rabs_minus_sym, Rabs_pos_eq by lra. lra.
  - pose proof (L_step b a (Rlt_le _ _ H)). rewrite Rabs_minus_sym, Rabs_pos_eq by lra. rewrite Rabs_pos_eq by lra. lra.
Qed.
Lemma L_le x : L x <= Rabs x + 1.
Proof.
  pose proof (L_lip x 0) as H. replace (x - 0) with x in H by ring. apply Rabs_le_inv in H.
  assert (L 0 <= 1); [|lra].
  unfold L. rewrite Ropp_0, exp_0. apply Rle_trans with (ln (exp 1)); [|rewrite ln_exp; lra]. apply ln_mono; [lra|]. pose proof exp_1_ge2. lra.
Qed.
Lemma L_tail x : 0 <= exp (- x) - L x <= exp (- x) * exp (- x).
Proof.
  unfold L. pose proof (exp_pos (- x)) as P. set (y := exp (- x)) in *. split.
  - pose proof (exp_ge1 y). assert (ln (1 + y) <= y); [|lra]. rewrite <- (ln_exp y) at 2. apply ln_mono; lra.
  - (* ln (1 + y) >= y / (1 + y) *)
    pose proof (exp_ge1 (- (y / (1 + y)))) as E.
    assert (Q : 1 + - (y / (1 + y)) = / (1 + y)) by (field; lra). rewrite Q in E.
    rewrite exp_Ropp in E. assert (exp (y / (1 + y)) <= 1 + y).
    { set (w := exp (y / (1 + y))) in *. rewrite <- (Rinv_inv w), <- (Rinv_inv (1 + y)). apply Rinv_le_contravar; [apply Rinv_0_lt_compat; lra|exact E]. }
    assert (G : y / (1 + y) <= ln (1 + y)).
    { rewrite <- (ln_exp (y / (1 + y))). apply ln_mono; [apply exp_pos|assumption]. }
    assert (y - y * y <= y / (1 + y)); [|lra].
    apply Rmult_le_reg_r with (1 + y); [lra|]. unfold Rdiv. rewrite Rmult_assoc, Rinv_l by lra. nra.
Qed.
Lemma exp_m20 x : x <= -20 -> exp x <= / 100000000 /\ exp x * exp x <= u.
Proof.
  intros H. assert (E1 : (9 / 8) ^ 8 <= exp 1).
  { replace 1 with (INR 8 * (1 / 8)) by (simpl; lra). rewrite <- (exp_ln (exp _)) by apply exp_pos. rewrite ln_exp.
    assert (P : forall n, (9 / 8) ^ n <= exp (INR n * (1 / 8))).
    { induction n as [|n IH]; [simpl; rewrite Rmult_0_l, exp_0; lra|].
      rewrite S_INR. replace ((INR n + 1) * (1 / 8)) with (1 / 8 + INR n * (1 / 8)) by ring. rewrite exp_plus.
      pose proof (exp_ge1 (1 / 8)). simpl. apply Rmult_le_compat; try lra. apply pow_le. lra. }
    apply P. }
  assert (P : forall n, exp (- INR n) <= / ((9 / 8) ^ 8) ^ n).
  { intros n. rewrite exp_Ropp. apply Rinv_le_contravar; [apply pow_lt, pow_lt; lra|].
    induction n as [|n IH]; [simpl; rewrite exp_0; lra|]. rewrite S_INR, exp_plus, Rmult_comm.
    change (((9 / 8) ^ 8) ^ S n) with ((9 / 8) ^ 8 * ((9 / 8) ^ 8) ^ n). apply Rmult_le_compat; try assumption.
    - apply pow_le; lra.
    - apply pow_le, pow_le; lra. }
  assert (H20 : exp x <= exp (- INR 20)).
  { destruct H as [H| ->]; [left; apply exp_increasing; simpl; lra|]. apply Req_le. f_equal. simpl. lra. }
  pose proof (P 20%nat) as P20. pose proof (exp_pos x).
  assert (B : exp x <= / ((9 / 8) ^ 160)) by (change 160%nat with (8 * 20)%nat; rewrite (pow_mult (9 / 8) 8 20); lra).
  split; [lra|].
  assert (exp x * exp x <= / (9 / 8) ^ 160 * / (9 / 8) ^ 160) by (apply Rmult_le_compat; lra).
  eapply Rle_trans; [eassumption|]. unfold u. lra.
Qed.

(** *** relative accuracy of fermi_function between the cutoffs *)
Lemma num1_rel E X s : 0 < X -> 0 <= E -> Rabs (E - X) <= 2 * u * X + tiny -> 1 <= s ->
  Rabs (s - (E + 1)) <= u * (E + 1) -> Rabs (1 / s - 1 / (X + 1)) <= 4 * u * (1 / (X + 1)).
Proof.
  intros HX HE H1 Hs H2. pose proof tiny_small as TS. pose proof u_pos as U.
  assert (U1 : u <= / 1000) by (unfold u; lra).
  replace (1 / s - 1 / (X + 1)) with ((X + 1 - s) / s * (1 / (X + 1))) by (field; lra).
  assert (P : 0 < 1 / (X + 1)) by (apply Rdiv_lt_0_compat; lra).
  rewrite Rabs_mult, (Rabs_pos_eq (1 / (X + 1))) by lra. apply Rmult_le_compat_r; [lra|].
  apply quot_le; [lra|].
  apply Rabs_le_inv in H1. apply Rabs_le_inv in H2.
  assert (UU : u * u <= u * / 1000) by nra.
  assert (E0 : E + 1 <= (X + 1) * (1 + 3 * u)) by nra.
  assert (E1 : X + 1 <= s * (1 + 5 * u)).
  { assert ((X + 1) * (1 - 3 * u) <= E + 1) by nra. assert ((E + 1) * (1 - u) <= s) by lra.
    assert ((X + 1) * (1 - 4 * u) <= s) by nra. nra. }
  assert (E2 : Rabs (X + 1 - s) <= (X + 1) * (3 * u + 4 * (u * u))).
  { apply Rabs_le. nra. }
  eapply Rle_trans; [exact E2|].
  assert (E3 : (3 * u + 4 * (u * u)) * (1 + 5 * u) <= 4 * u) by nra.
  assert (E4 : 0 <= 3 * u + 4 * (u * u)) by nra.
  apply Rle_trans with (s * (1 + 5 * u) * (3 * u + 4 * (u * u))); [apply Rmult_le_compat_r; assumption|].
  replace (s * (1 + 5 * u) * (3 * u + 4 * (u * u))) with (s * ((3 * u + 4 * (u * u)) * (1 + 5 * u))) by ring.
  rewrite (Rmult_comm (4 * u) s). apply Rmult_le_compat_l; lra.
Qed.

Lemma fermi_mid_rel e x : good_exp e -> finite x -> -30 <= val x <= 30 ->
  finite (fermi_at e x) /\ Rabs (val (fermi_at e x) - fd (val x)) <= 6 * u * fd (val x).
Proof.
  intros He Fx H. destruct (fermi_core e He x Fx) as (F & _ & _). split; [exact F|]. clear F.
  unfold fermi_at. rewrite flt_low, flt_high, Rlt_bool_false, Rlt_bool_false by (assumption || lra).
  destruct (e_mid e He x Fx H) as (A & B & C). destruct (den_ok _ A B) as (A1 & B1 & C1 & D1).
  pose proof (num1_rel _ _ _ (exp_pos (val x)) (proj1 B) C B1 D1) as N. fold (fd (val x)) in N.
  set (s := val (fadd (e x) (flit 1))) in *. pose proof big_bound as BB.
  assert (Q : 0 <= 1 / s <= 1).
  { split; [apply Rmult_le_pos; [lra|left; apply Rinv_0_lt_compat; lra]|].
    apply Rmult_le_reg_r with s; [lra|]. field_simplify; lra. }
  destruct (div_ok (flit 1) (fadd (e x) (flit 1)) fin_1) as [_ V]; fold s; [lra|rewrite val_1, Rabs_pos_eq by lra; lra|].
  rewrite V. fold s. rewrite val_1.
  pose proof (rnd_error (1 / s)) as R1. rewrite (Rabs_pos_eq (1 / s)) in R1 by lra.
  pose proof (fd_bounds (val x)) as FB. pose proof tiny_small as TS. pose proof u_pos.
  assert (U1 : u <= / 1000) by (unfold u; lra).
  assert (LB : 16 * u <= fd (val x)).
  { unfold fd. apply Rmult_le_reg_r with (exp (val x) + 1); [pose proof (exp_pos (val x)); lra|].
    replace (1 / (exp (val x) + 1) * (exp (val x) + 1)) with 1 by (field; pose proof (exp_pos (val x)); lra).
    assert (exp (val x) <= 3 ^ 30).
    { eapply Rle_trans; [|apply (exp_3n 30)]. destruct (proj2 H) as [L1|L1]; [left; apply exp_increasing; simpl; lra|].
      rewrite L1. apply Req_le. f_equal. simpl. lra. }
    unfold u. lra. }
  apply Rabs_le_inv in R1, N. apply Rabs_le.
  assert (tiny <= / 16 * (u * fd (val x))) by nra.
  assert (4 * u * fd (val x) * u <= / 250 * (u * fd (val x))) by (assert (0 <= u * fd (val x)) by nra; nra). nra.
Qed.

Lemma ln_rel f g : 0 < g -> Rabs (f - g) <= 6 * u * g -> 0 < f /\ Rabs (ln f - ln g) <= 7 * u.
Proof.
  intros Hg H. apply Rabs_le_inv in H. pose proof u_pos. assert (U1 : u <= / 1000) by (unfold u; lra).
  assert (Hf : 0 < f) by nra. split; [exact Hf|].
  assert (UP : ln f - ln g <= 6 * u).
  { assert (ln f <= 6 * u + ln g); [|lra]. rewrite <- (ln_exp (6 * u)) at 1. rewrite <- ln_mult by (try apply exp_pos; lra).
    apply ln_mono; [exact Hf|]. pose proof (exp_ge1 (6 * u)). nra. }
  assert (DN : ln g - ln f <= 7 * u).
  { assert (ln g <= 7 * u + ln f); [|lra]. rewrite <- (ln_exp (7 * u)) at 1. rewrite <- ln_mult by (try apply exp_pos; lra).
    apply ln_mono; [exact Hg|]. pose proof (exp_ge1 (7 * u)).
    apply Rle_trans with ((1 + 7 * u) * f); [|nra]. assert (f >= g * (1 - 6 * u)) by lra. nra. }
  apply Rabs_le. lra.
Qed.

Section GP.
  Variables e l : b64 -> b64.
  Hypothesis He : good_exp e.
  Hypothesis Hl : good_log l.
  Variables beta epsilon mu : b64.
  Hypothesis Fb : finite beta.
  Hypothesis Fe : finite epsilon.
  Hypothesis Fm : finite mu.
  Let B := Rabs (val beta).
  Let D := val epsilon - val mu.
  Let a := val beta * D.
  Let M := bpow radix2 400.
  Hypothesis Hb1 : / M <= B.
  Hypothesis Hb2 : B <= M.
  Hypothesis HD : Rabs D <= M.
  Let emm := fsub epsilon mu.
  Let x := fermi_x beta epsilon mu.

  Lemma M_big : 2 ^ 60 <= M.
  Proof. unfold M. rewrite <- bpow_pow. apply bpow_le. lia. Qed.
  Lemma M_small : M * M * 16 <= bpow radix2 1023.
  Proof.
    unfold M. change 16 with (bpow radix2 4). rewrite <- 2 bpow_plus. apply bpow_le. lia.
  Qed.
  Lemma M_tiny : tiny * M <= u * u.
  Proof. unfold M. rewrite <- bpow_tiny, <- bpow_u, <- 2 bpow_plus. apply bpow_le. lia. Qed.
  Lemma M_big' : M <= bpow radix2 1023. Proof. unfold M. apply bpow_le. lia. Qed.
  Lemma B_pos : 0 < B.
  Proof. eapply Rlt_le_trans; [|exact Hb1]. apply Rinv_0_lt_compat, bpow_gt_0. Qed.
  Lemma beta_nz : val beta <> 0.
  Proof. pose proof B_pos as P. unfold B in P. intros E. rewrite E, Rabs_R0 in P. lra. Qed.
  Lemma B_inv : / B <= M.
  Proof. rewrite <- (Rinv_inv M). apply Rinv_le_contravar; [apply Rinv_0_lt_compat, bpow_gt_0|exact Hb1]. Qed.
  Lemma abs_a : Rabs a = B * Rabs D. Proof. unfold a. apply Rabs_mult. Qed.
  Lemma a_big : Rabs a <= M * M.
  Proof. rewrite abs_a. pose proof B_pos. pose proof (Rabs_pos D). apply Rmult_le_compat; lra. Qed.
  Lemma D_a : Rabs D <= Rabs a * M.
  Proof.
    rewrite abs_a. pose proof B_pos. pose proof B_inv as BI. pose proof (Rabs_pos D).
    assert (1 <= B * M). { apply Rmult_le_reg_l with (/ B); [apply Rinv_0_lt_compat; lra|]. rewrite <- Rmult_assoc, Rinv_l by lra. lra. }
    nra.
  Qed.

  Lemma emm_ok : finite emm /\ Rabs (val emm - D) <= u * Rabs D.
  Proof.
    destruct (sub_ok epsilon mu Fe Fm) as [A V]; [fold D; pose proof M_big'; lra|].
    split; [exact A|]. destruct (sub_rel epsilon mu Fe Fm) as (d & Hd & E). unfold emm. rewrite V, E. fold D.
    replace (D * (1 + d) - D) with (d * D) by ring. rewrite Rabs_mult. apply Rmult_le_compat_r; [apply Rabs_pos|exact Hd].
  Qed.
  Lemma x_ok : finite x /\ Rabs (val x - a) <= 3 * u * Rabs a + tiny.
  Proof.
    destruct (x_cases beta epsilon mu Fb Fe Fm) as [[Fx (t & h & Ht & Hh & E)]|(s & E & A & _)].
    - fold D. pose proof M_big'. lra.
    - split; [exact Fx|]. fold x D a in E. rewrite E. replace (a * (1 + t) + h - a) with (t * a + h) by ring.
      eapply Rle_trans; [apply Rabs_triang|]. rewrite Rabs_mult. pose proof (Rabs_pos a). nra.
    - (* no overflow in the product *)
      exfalso. destruct emm_ok as [F1 V1]. fold emm in E.
      destruct (mul_ok beta emm Fb F1) as [F2 _].
      + rewrite Rabs_mult. fold B. pose proof B_pos. pose proof M_small. pose proof M_big. pose proof (Rabs_pos D).
        assert (Rabs (val emm) <= 2 * M).
        { pose proof (Rabs_triang (val emm - D) D) as T. replace (val emm - D + D) with (val emm) in T by ring.
          pose proof u_pos. assert (u <= / 1000) by (unfold u; lra). nra. }
        apply Rle_trans with (M * (2 * M)); [apply Rmult_le_compat; try lra; apply Rabs_pos|nra].
      + change (fmul beta emm = B754_infinity s) in E. unfold finite in F2. rewrite E in F2. discriminate.
  Qed.

  (** (y + L) / beta for a y close to -L, in floating point *)
  Lemma quot_ok y v : finite y -> Rabs (val y - v) <= 6 * u * Rabs a + 14 * u -> Rabs v <= Rabs a + 1 ->
    finite (fdiv y beta) /\ Rabs (val (fdiv y beta) - v / val beta) * B <= 8 * u * Rabs a + 17 * u.
  Proof.
    intros Fy H Hv. pose proof B_pos as BP. pose proof u_pos as U. assert (U1 : u <= / 1000) by (unfold u; lra).
    pose proof (Rabs_pos a) as A0. pose proof M_big as MB. pose proof M_small as MS. pose proof B_inv as BI. pose proof a_big as AB.
    assert (Y : Rabs (val y) <= 1.01 * Rabs a + 1.02).
    { pose proof (Rabs_triang (val y - v) v) as T. replace (val y - v + v) with (val y) in T by ring. nra. }
    assert (QB : Rabs (val y / val beta) * B = Rabs (val y)).
    { unfold B. rewrite <- Rabs_mult. f_equal. field. apply beta_nz. }
    destruct (div_ok y beta Fy beta_nz) as [F V].
    { assert (Rabs (val y / val beta) <= 4 * M * M); [|nra].
      apply Rmult_le_reg_r with B; [exact BP|]. rewrite QB.
      assert (1 <= B * M). { apply Rmult_le_reg_l with (/ B); [apply Rinv_0_lt_compat; lra|]. rewrite <- Rmult_assoc, Rinv_l by lra. lra. }
      assert (Rabs a <= B * M) by (rewrite abs_a; apply Rmult_le_compat_l; lra).
      assert (B * M <= B * M * M) by nra. nra. }
    split; [exact F|]. rewrite V.
    pose proof (rnd_error (val y / val beta)) as R1.
    assert (R2 : Rabs (rnd (val y / val beta) - val y / val beta) * B <= u * Rabs (val y) + u * u).
    { apply Rle_trans with ((u * Rabs (val y / val beta) + tiny) * B); [apply Rmult_le_compat_r; lra|].
      pose proof M_tiny. pose proof tiny_pos. assert (tiny * B <= u * u) by nra. rewrite <- QB. nra. }
    assert (R3 : Rabs (val y / val beta - v / val beta) * B = Rabs (val y - v)).
    { unfold B. rewrite <- Rabs_mult. f_equal. field. apply beta_nz. }
    pose proof (Rabs_triang (rnd (val y / val beta) - val y / val beta) (val y / val beta - v / val beta)) as T.
    replace (rnd (val y / val beta) - val y / val beta + (val y / val beta - v / val beta)) with (rnd (val y / val beta) - v / val beta) in T by ring.
    nra.
  Qed.

  Lemma sum_ok y v : finite y -> Rabs (val y - v) <= 6 * u * Rabs a + 14 * u -> Rabs v <= Rabs a + 1 ->
    finite (fadd (fdiv y beta) emm) /\
    Rabs (val (fadd (fdiv y beta) emm) - (v / val beta + D)) * B <= 16 * u * (Rabs a + 2).
  Proof.
    intros Fy H Hv. destruct (quot_ok y v Fy H Hv) as [F Q]. destruct emm_ok as [F1 V1].
    pose proof B_pos as BP. pose proof u_pos as U. assert (U1 : u <= / 1000) by (unfold u; lra).
    pose proof (Rabs_pos a) as A0. pose proof M_big as MB. pose proof M_small as MS. pose proof B_inv as BI. pose proof a_big as AB.
    set (q := val (fdiv y beta)) in *.
    assert (BM : 1 <= B * M). { apply Rmult_le_reg_l with (/ B); [apply Rinv_0_lt_compat; lra|]. rewrite <- Rmult_assoc, Rinv_l by lra. lra. }
    assert (VB : Rabs (v / val beta) * B = Rabs v).
    { unfold B. rewrite <- Rabs_mult. f_equal. field. apply beta_nz. }
    assert (QB : Rabs q * B <= 1.1 * Rabs a + 1.1).
    { pose proof (Rabs_triang (q - v / val beta) (v / val beta)) as T. replace (q - v / val beta + v / val beta) with q in T by ring. nra. }
    assert (EB : Rabs (val emm - D) * B <= u * Rabs a) by (rewrite abs_a; nra).
    assert (EB2 : Rabs (val emm) * B <= 1.1 * Rabs a).
    { pose proof (Rabs_triang (val emm - D) D) as T. replace (val emm - D + D) with (val emm) in T by ring. rewrite abs_a in *. nra. }
    assert (SB : Rabs (q + val emm) * B <= 2.2 * Rabs a + 1.1) by (pose proof (Rabs_triang q (val emm)); nra).
    destruct (add_ok (fdiv y beta) emm F F1) as [F2 V2].
    { fold q. assert (Rabs (q + val emm) <= 4 * M * M); [|nra].
      apply Rmult_le_reg_r with B; [exact BP|].
      assert (Rabs a <= B * M) by (rewrite abs_a; apply Rmult_le_compat_l; lra).
      assert (B * M <= B * M * M) by nra. nra. }
    split; [exact F2|]. rewrite V2. fold q.
    pose proof (rnd_error (q + val emm)) as R1.
    assert (R2 : Rabs (rnd (q + val emm) - (q + val emm)) * B <= u * (2.2 * Rabs a + 1.1) + u * u).
    { apply Rle_trans with ((u * Rabs (q + val emm) + tiny) * B); [apply Rmult_le_compat_r; lra|].
      pose proof M_tiny. pose proof tiny_pos. assert (tiny * B <= u * u) by nra. nra. }
    pose proof (Rabs_triang (rnd (q + val emm) - (q + val emm)) (q - v / val beta + (val emm - D))) as T.
    pose proof (Rabs_triang (q - v / val beta) (val emm - D)) as T2.
    replace (rnd (q + val emm) - (q + val emm) + (q - v / val beta + (val emm - D))) with (rnd (q + val emm) - (v / val beta + D)) in T by ring.
    nra.
  Qed.

  Lemma target : - L a / val beta = - L (- a) / val beta + D.
  Proof. rewrite L_neg. unfold a. field. apply beta_nz. Qed.

  Lemma gp_core : finite (grand_potential064 e l beta epsilon mu) /\
    Rabs (val (grand_potential064 e l beta epsilon mu) - (- L a / val beta)) * B <= 32 * u * (Rabs a + 1).
  Proof.
    destruct x_ok as [Fx Xa]. pose proof u_pos as U. assert (U1 : u <= / 1000) by (unfold u; lra).
    pose proof tiny_small as TS. pose proof (Rabs_pos a) as A0. pose proof tiny_pos as TP.
    assert (UU : u * u <= / 1000 * u) by nra.
    assert (XB : Rabs (val x) <= 1.1 * Rabs a + 1).
    { pose proof (Rabs_triang (val x - a) a) as T. replace (val x - a + a) with (val x) in T by ring. nra. }
    assert (LA : Rabs (- L (- a)) <= Rabs a + 1).
    { rewrite Rabs_Ropp, Rabs_pos_eq by apply L_pos. pose proof (L_le (- a)) as Q. rewrite Rabs_Ropp in Q. exact Q. }
    assert (LX : Rabs (L (- val x) - L (- a)) <= 3 * u * Rabs a + tiny).
    { eapply Rle_trans; [apply L_lip|]. replace (- val x - - a) with (- (val x - a)) by ring. rewrite Rabs_Ropp. exact Xa. }
    unfold grand_potential064. fold emm. change (fmul beta emm) with x.
    rewrite 2 lt_ok by (try apply fin_neg; auto using fin_20). rewrite val_neg, val_20.
    replace (- (20)) with (-20) by lra.
    destruct (Rlt_bool_spec (val x) (-20)) as [H|H].
    - destruct He as [He1 _]. destruct (He1 x Fx ltac:(lra)) as (A & P & C). rewrite pow52 in C. fold tiny in C.
      destruct (exp_m20 (val x) ltac:(lra)) as [X1 X2]. pose proof (exp_pos (val x)) as X0.
      pose proof (L_tail (- val x)) as LT. rewrite Ropp_involutive in LT.
      destruct (sum_ok (fneg (e x)) (- L (- a)) (fin_neg _ A)) as [F Q]; [|exact LA|].
      + rewrite val_neg. apply Rabs_le_inv in C, LX. apply Rabs_le. nra.
      + split; [exact F|]. rewrite target. nra.
    - destruct (Rlt_bool_spec 20 (val x)) as [H2|H2].
      + destruct He as [He1 _]. assert (V : val (fneg x) <= -20) by (rewrite val_neg; lra).
        destruct (He1 (fneg x) (fin_neg _ Fx) ltac:(lra)) as (A & P & C). rewrite pow52 in C. fold tiny in C.
        destruct (exp_m20 _ V) as [X1 X2]. rewrite val_neg in *. pose proof (exp_pos (- val x)) as X0.
        pose proof (L_tail (val x)) as LT.
        assert (LX2 : Rabs (L (val x) - L a) <= 3 * u * Rabs a + tiny) by (eapply Rle_trans; [apply L_lip|exact Xa]).
        destruct (quot_ok (fneg (e (fneg x))) (- L a) (fin_neg _ A)) as [F Q].
        * rewrite val_neg. apply Rabs_le_inv in C, LX2. apply Rabs_le. nra.
        * rewrite Rabs_Ropp, Rabs_pos_eq by apply L_pos. apply L_le.
        * split; [exact F|]. nra.
      + rewrite fermi_at_eq. fold x.
        destruct (fermi_mid_rel e x He Fx ltac:(lra)) as [Ff Rf].
        destruct (ln_rel _ _ (proj1 (fd_bounds (val x))) Rf) as [Pf Nf].
        destruct (Hl _ Ff Pf) as [Fl Vl]. rewrite pow52 in Vl. fold tiny in Vl.
        assert (LF : ln (fd (val x)) = - L (- val x)).
        { unfold fd, L. rewrite Ropp_involutive. unfold Rdiv. rewrite Rmult_1_l.
          rewrite ln_Rinv by (pose proof (exp_pos (val x)); lra). f_equal. f_equal. ring. }
        rewrite LF in Nf.
        assert (LXB : Rabs (L (- val x)) <= Rabs (val x) + 1).
        { rewrite Rabs_pos_eq by apply L_pos. pose proof (L_le (- val x)) as Q. rewrite Rabs_Ropp in Q. exact Q. }
        set (f := val (fermi_at e x)) in *.
        assert (LFB : Rabs (ln f) <= 1.1 * Rabs a + 3).
        { pose proof (Rabs_triang (ln f - - L (- val x)) (- L (- val x))) as T. replace (ln f - - L (- val x) + - L (- val x)) with (ln f) in T by ring.
          rewrite Rabs_Ropp in T. nra. }
        destruct (sum_ok (l (fermi_at e x)) (- L (- a)) Fl) as [F Q]; [|exact LA|].
        * apply Rabs_le_inv in Vl, Nf, LX. apply Rabs_le. nra.
        * split; [exact F|]. rewrite target. nra.
  Qed.

  (** *** the derivative *)
  Lemma M_tiny2 : tiny * M * M <= u * u.
  Proof. unfold M. rewrite <- bpow_tiny, <- bpow_u, <- 3 bpow_plus. apply bpow_le. lia. Qed.
  Lemma BM1 : 1 <= B * M.
  Proof.
    pose proof B_pos. pose proof B_inv as BI. apply Rmult_le_reg_l with (/ B); [apply Rinv_0_lt_compat; lra|].
    rewrite <- Rmult_assoc, Rinv_l by lra. lra.
  Qed.
  Lemma sq_ok : finite (fmul beta beta) /\ Rabs (val (fmul beta beta) - val beta * val beta) <= 2 * u * (B * B) /\
    val beta * val beta = B * B.
  Proof.
    pose proof B_pos as BP. pose proof M_small as MS. pose proof BM1 as BM. pose proof u_pos as U.
    assert (E : val beta * val beta = B * B) by (unfold B; rewrite <- Rabs_mult, Rabs_pos_eq; [reflexivity|nra]).
    destruct (mul_ok beta beta Fb Fb) as [F V].
    { rewrite E, Rabs_pos_eq by nra. pose proof (bpow_gt_0 radix2 400) as MP. fold M in MP.
      apply Rle_trans with (M * M); [apply Rmult_le_compat; lra|nra]. }
    split; [exact F|]. split; [|exact E]. rewrite V. eapply Rle_trans; [apply rnd_error|].
    rewrite E, Rabs_pos_eq by nra.
    assert (tiny <= u * (B * B)); [|nra].
    pose proof M_tiny2 as T2. pose proof tiny_pos. assert (1 <= (B * M) * (B * M)) by nra.
    assert (U1 : u <= / 1000) by (unfold u; lra).
    apply Rle_trans with (tiny * ((B * M) * (B * M))); [nra|].
    replace (tiny * (B * M * (B * M))) with ((tiny * M * M) * (B * B)) by ring.
    apply Rmult_le_compat_r; nra.
  Qed.

  (** y / beta^2 *)
  Lemma quot2_ok y v : finite y -> Rabs (val y - v) <= 6 * u * Rabs a + 14 * u -> Rabs v <= Rabs a + 1 ->
    finite (fdiv y (fmul beta beta)) /\
    Rabs (val (fdiv y (fmul beta beta)) - v / (val beta * val beta)) * (B * B) <= 11 * u * Rabs a + 19 * u.
  Proof.
    intros Fy H Hv. destruct sq_ok as (F2 & V2 & EB). set (b2 := val (fmul beta beta)) in *. rewrite EB in *.
    pose proof B_pos as BP. pose proof u_pos as U. assert (U1 : u <= / 1000) by (unfold u; lra).
    pose proof (Rabs_pos a) as A0. pose proof M_big as MB. pose proof M_small as MS. pose proof a_big as AB. pose proof BM1 as BM.
    assert (BB0 : 0 < B * B) by nra. set (BB := B * B) in *.
    apply Rabs_le_inv in V2. assert (B2P : BB * (1 - 2 * u) <= b2 <= BB * (1 + 2 * u)) by nra.
    assert (b20 : 0 < b2) by nra.
    assert (Y : Rabs (val y) <= 1.01 * Rabs a + 1.02).
    { pose proof (Rabs_triang (val y - v) v) as T. replace (val y - v + v) with (val y) in T by ring. nra. }
    assert (QB : Rabs (val y / b2) * b2 = Rabs (val y)).
    { rewrite <- (Rabs_pos_eq b2) at 2 by lra. rewrite <- Rabs_mult. f_equal. field. lra. }
    assert (Y0 := Rabs_pos (val y)). assert (Q0 := Rabs_pos (val y / b2)).
    destruct (div_ok y (fmul beta beta) Fy) as [F V]; fold b2; [lra| |].
    { assert (Rabs (val y / b2) <= 8 * (M * M)); [|nra].
      apply Rmult_le_reg_r with b2; [exact b20|]. rewrite QB.
      assert (1 <= BB * (M * M)) by (unfold BB; nra).
      assert (Rabs a <= B * M) by (rewrite abs_a; apply Rmult_le_compat_l; lra).
      assert (Rabs a <= BB * (M * M)) by (unfold BB; nra).
      assert (BB * / 2 <= b2) by nra.
      assert (0 <= M * M) by nra. nra. }
    split; [exact F|]. rewrite V. fold b2.
    pose proof (rnd_error (val y / b2)) as R1.
    assert (QBB : Rabs (val y / b2) * BB <= Rabs (val y) * (1 + 4 * u)).
    { rewrite <- QB. assert (BB <= b2 * (1 + 4 * u)) by nra. nra. }
    assert (R2 : Rabs (rnd (val y / b2) - val y / b2) * BB <= u * (Rabs (val y) * (1 + 4 * u)) + u * u).
    { apply Rle_trans with ((u * Rabs (val y / b2) + tiny) * BB); [apply Rmult_le_compat_r; lra|].
      pose proof M_tiny2. pose proof tiny_pos.
      assert (BB <= M * M) by (unfold BB; apply Rmult_le_compat; lra).
      assert (tiny * BB <= u * u) by nra. nra. }
    assert (R3 : Rabs (val y / b2 - val y / BB) * BB <= 3 * u * Rabs (val y)).
    { rewrite <- (Rabs_pos_eq BB) at 2 by lra. rewrite <- Rabs_mult.
      replace ((val y / b2 - val y / BB) * BB) with (val y * ((BB - b2) / b2)) by (field; lra).
      rewrite Rabs_mult, Rmult_comm. apply Rmult_le_compat_r; [exact Y0|].
      apply quot_le; [exact b20|]. apply Rabs_le. nra. }
    assert (R4 : Rabs (val y / BB - v / BB) * BB = Rabs (val y - v)).
    { rewrite <- (Rabs_pos_eq BB) at 3 by lra. rewrite <- Rabs_mult. f_equal. field. lra. }
    pose proof (Rabs_triang (rnd (val y / b2) - val y / b2) (val y / b2 - val y / BB)) as T1.
    pose proof (Rabs_triang (rnd (val y / b2) - val y / b2 + (val y / b2 - val y / BB)) (val y / BB - v / BB)) as T2.
    replace (rnd (val y / b2) - val y / b2 + (val y / b2 - val y / BB) + (val y / BB - v / BB)) with (rnd (val y / b2) - v / BB) in T2 by ring.
    assert (T3 : Rabs (rnd (val y / b2) - v / BB) * BB <=
       Rabs (rnd (val y / b2) - val y / b2) * BB + Rabs (val y / b2 - val y / BB) * BB + Rabs (val y / BB - v / BB) * BB) by nra.
    rewrite R4 in T3.
    assert (U2 : 4 * u * (u * Rabs (val y)) <= / 100 * (u * Rabs (val y))) by (assert (0 <= u * Rabs (val y)) by nra; nra).
    assert (U3 : u * Rabs (val y) <= u * (1.01 * Rabs a + 1.02)) by (apply Rmult_le_compat_l; lra).
    assert (U4 : u * u <= / 1000 * u) by nra.
    assert (U5 : 0 <= u * Rabs a) by nra. nra.
  Qed.

  (** m v / beta for m = +-emm *)
  Lemma prod_ok m Dm v w : finite m -> finite v -> Rabs (val m - Dm) <= u * Rabs D -> Rabs Dm = Rabs D ->
    0 <= val v <= 1 -> 0 <= w <= 1 -> Rabs (val v - w) <= 12 * u ->
    finite (fdiv (fmul m v) beta) /\
    Rabs (val (fdiv (fmul m v) beta) - Dm * w / val beta) * (B * B) <= 18 * u * Rabs a + u.
  Proof.
    intros Fm' Fv Hm EDm Hv Hw Hvw.
    pose proof B_pos as BP. pose proof u_pos as U. assert (U1 : u <= / 1000) by (unfold u; lra).
    pose proof (Rabs_pos a) as A0. pose proof M_big as MB. pose proof M_small as MS. pose proof a_big as AB. pose proof BM1 as BM.
    pose proof (Rabs_pos D) as D0. pose proof M_tiny as MT. pose proof tiny_pos as TP. pose proof M_tiny2 as MT2.
    assert (Am : Rabs (val m) <= 1.01 * Rabs D).
    { pose proof (Rabs_triang (val m - Dm) Dm) as T. replace (val m - Dm + Dm) with (val m) in T by ring. nra. }
    assert (Pm : Rabs (val m * val v) <= 1.01 * Rabs D).
    { rewrite Rabs_mult, (Rabs_pos_eq (val v)) by lra. pose proof (Rabs_pos (val m)). nra. }
    destruct (mul_ok m v Fm' Fv) as [F1 V1].
    { pose proof M_big'. assert (2 * M <= bpow radix2 1023) by nra. nra. }
    pose proof (rnd_error (val m * val v)) as R1. rewrite <- V1 in R1. set (p := val (fmul m v)) in *.
    assert (Pd : Rabs (p - Dm * w) <= 15 * u * Rabs D + tiny).
    { pose proof (Rabs_triang (p - val m * val v) ((val m - Dm) * val v)) as T1.
      pose proof (Rabs_triang (p - val m * val v + (val m - Dm) * val v) (Dm * (val v - w))) as T2.
      replace (p - val m * val v + (val m - Dm) * val v + Dm * (val v - w)) with (p - Dm * w) in T2 by ring.
      rewrite (Rabs_mult (val m - Dm)), (Rabs_pos_eq (val v)) in T1 by lra. rewrite (Rabs_mult Dm), EDm in T2.
      assert (Rabs (val m - Dm) * val v <= u * Rabs D) by (pose proof (Rabs_pos (val m - Dm)); nra).
      assert (Rabs D * Rabs (val v - w) <= Rabs D * (12 * u)) by (apply Rmult_le_compat_l; lra).
      assert (u * Rabs (val m * val v) <= u * (1.01 * Rabs D)) by (apply Rmult_le_compat_l; lra).
      assert (0 <= u * Rabs D) by nra. lra. }
    assert (Pb : Rabs p <= 1.1 * Rabs D + tiny).
    { pose proof (Rabs_triang (p - val m * val v) (val m * val v)) as T. replace (p - val m * val v + val m * val v) with p in T by ring. nra. }
    assert (QB : Rabs (p / val beta) * B = Rabs p).
    { unfold B. rewrite <- Rabs_mult. f_equal. field. apply beta_nz. }
    assert (Q0 := Rabs_pos (p / val beta)).
    assert (TM : tiny <= M) by (assert (u * u <= 1) by (unfold u; lra); nra).
    destruct (div_ok (fmul m v) beta F1 beta_nz) as [F2 V2].
    { fold p. assert (Rabs (p / val beta) <= 4 * (M * M)); [|nra].
      apply Rmult_le_reg_r with B; [exact BP|]. rewrite QB.
      assert (Rabs p <= 3 * M) by nra. assert (M <= B * M * M) by nra. nra. }
    split; [exact F2|]. rewrite V2. fold p.
    pose proof (rnd_error (p / val beta)) as R2.
    assert (R3 : Rabs (p / val beta - Dm * w / val beta) * B = Rabs (p - Dm * w)).
    { unfold B. rewrite <- Rabs_mult. f_equal. field. apply beta_nz. }
    pose proof (Rabs_triang (rnd (p / val beta) - p / val beta) (p / val beta - Dm * w / val beta)) as T.
    replace (rnd (p / val beta) - p / val beta + (p / val beta - Dm * w / val beta)) with (rnd (p / val beta) - Dm * w / val beta) in T by ring.
    assert (T2 : Rabs (rnd (p / val beta) - Dm * w / val beta) * B <= u * Rabs p + tiny * B + Rabs (p - Dm * w)).
    { rewrite <- R3, <- QB. nra. }
    assert (UM : u * u <= / 1000 * u) by nra.
    assert (TB : tiny * B <= u * u) by nra. assert (TBB : tiny * B * B <= u * u).
    { assert (B * B <= M * M) by (apply Rmult_le_compat; lra). assert (tiny * (B * B) <= tiny * (M * M)) by (apply Rmult_le_compat_l; lra). lra. }
    assert (AD : Rabs a = B * Rabs D) by apply abs_a.
    apply Rle_trans with ((u * (1.1 * Rabs D + tiny) + tiny * B + (15 * u * Rabs D + tiny)) * B).
    - rewrite <- Rmult_assoc. apply Rmult_le_compat_r; [lra|]. nra.
    - rewrite AD. nra.
  Qed.

  (** the two quotients, added *)
  Lemma dsum_ok p q P Q : finite p -> finite q ->
    Rabs (val p - P) * (B * B) <= 18 * u * Rabs a + 19 * u -> Rabs (val q - Q) * (B * B) <= 18 * u * Rabs a + 19 * u ->
    Rabs P * (B * B) <= Rabs a + 1 -> Rabs Q * (B * B) <= Rabs a + 1 ->
    (finite (fadd p q) /\ Rabs (val (fadd p q) - (P + Q)) * (B * B) <= 64 * u * (Rabs a + 1)) /\
    (finite (fsub p q) /\ Rabs (val (fsub p q) - (P - Q)) * (B * B) <= 64 * u * (Rabs a + 1)).
  Proof.
    intros Fp Fq Hp Hq BP' BQ'.
    pose proof B_pos as BP. pose proof u_pos as U. assert (U1 : u <= / 1000) by (unfold u; lra).
    pose proof (Rabs_pos a) as A0. pose proof M_big as MB. pose proof M_small as MS. pose proof BM1 as BM.
    pose proof tiny_pos as TP. pose proof M_tiny2 as MT2.
    assert (BB0 : 0 < B * B) by nra. assert (BBM : B * B <= M * M) by (apply Rmult_le_compat; lra).
    assert (A1 : Rabs a <= B * M) by (rewrite abs_a; apply Rmult_le_compat_l; lra).
    assert (A2 : Rabs a + 1 <= 2 * (B * B * (M * M))) by (assert (B * M <= (B * M) * (B * M)) by nra; nra).
    set (BB := B * B) in *.
    assert (pB : Rabs (val p) * BB <= 1.1 * (Rabs a + 1)).
    { pose proof (Rabs_triang (val p - P) P) as T. replace (val p - P + P) with (val p) in T by ring. nra. }
    assert (qB : Rabs (val q) * BB <= 1.1 * (Rabs a + 1)).
    { pose proof (Rabs_triang (val q - Q) Q) as T. replace (val q - Q + Q) with (val q) in T by ring. nra. }
    assert (TB : tiny * BB <= u * u) by nra. assert (UM : u * u <= / 1000 * u) by nra.
    assert (K : forall s, Rabs s <= Rabs (val p) + Rabs (val q) -> Rabs s <= bpow radix2 1023 /\
                Rabs (rnd s - s) * BB <= u * (2.3 * (Rabs a + 1))).
    { intros s Hs. assert (sB : Rabs s * BB <= 2.2 * (Rabs a + 1)) by nra. split.
      - assert (Rabs s <= 5 * (M * M)); [|nra]. apply Rmult_le_reg_r with BB; [exact BB0|]. nra.
      - pose proof (rnd_error s) as R1. apply Rle_trans with ((u * Rabs s + tiny) * BB); [apply Rmult_le_compat_r; lra|]. nra. }
    split.
    - destruct (K (val p + val q) (Rabs_triang _ _)) as [K1 K2].
      destruct (add_ok p q Fp Fq K1) as [F V]. split; [exact F|]. rewrite V.
      pose proof (Rabs_triang (rnd (val p + val q) - (val p + val q)) (val p - P + (val q - Q))) as T.
      pose proof (Rabs_triang (val p - P) (val q - Q)) as T2.
      replace (rnd (val p + val q) - (val p + val q) + (val p - P + (val q - Q))) with (rnd (val p + val q) - (P + Q)) in T by ring.
      nra.
    - destruct (K (val p - val q)) as [K1 K2].
      { unfold Rminus. eapply Rle_trans; [apply Rabs_triang|]. rewrite Rabs_Ropp. lra. }
      destruct (sub_ok p q Fp Fq K1) as [F V]. split; [exact F|]. rewrite V.
      pose proof (Rabs_triang (rnd (val p - val q) - (val p - val q)) (val p - P + - (val q - Q))) as T.
      pose proof (Rabs_triang (val p - P) (- (val q - Q))) as T2. rewrite Rabs_Ropp in T2.
      replace (rnd (val p - val q) - (val p - val q) + (val p - P + - (val q - Q))) with (rnd (val p - val q) - (P - Q)) in T by ring.
      nra.
  Qed.

  (** the three approximations of L *)
  Lemma LX_ok : Rabs (L (- val x) - L (- a)) <= 3 * u * Rabs a + tiny /\ Rabs (L (val x) - L a) <= 3 * u * Rabs a + tiny.
  Proof.
    destruct x_ok as [_ Xa]. split; (eapply Rle_trans; [apply L_lip|]); [|exact Xa].
    replace (- val x - - a) with (- (val x - a)) by ring. rewrite Rabs_Ropp. exact Xa.
  Qed.
  Lemma app_low : val x <= -20 -> finite (e x) /\ Rabs (val (e x) - L (- a)) <= 6 * u * Rabs a + 14 * u.
  Proof.
    intros H. destruct x_ok as [Fx _]. destruct LX_ok as [LX _]. pose proof u_pos as U.
    assert (U1 : u <= / 1000) by (unfold u; lra). pose proof tiny_small. pose proof (Rabs_pos a).
    destruct He as [He1 _]. destruct (He1 x Fx ltac:(lra)) as (A & P & C). rewrite pow52 in C. fold tiny in C.
    destruct (exp_m20 (val x) H) as [X1 X2]. pose proof (exp_pos (val x)) as X0.
    pose proof (L_tail (- val x)) as LT. rewrite Ropp_involutive in LT.
    split; [exact A|]. apply Rabs_le_inv in C, LX. apply Rabs_le. nra.
  Qed.
  Lemma app_high : 20 <= val x -> finite (e (fneg x)) /\ Rabs (val (e (fneg x)) - L a) <= 6 * u * Rabs a + 14 * u.
  Proof.
    intros H. destruct x_ok as [Fx _]. destruct LX_ok as [_ LX]. pose proof u_pos as U.
    assert (U1 : u <= / 1000) by (unfold u; lra). pose proof tiny_small. pose proof (Rabs_pos a).
    assert (V : val (fneg x) <= -20) by (rewrite val_neg; lra).
    destruct He as [He1 _]. destruct (He1 (fneg x) (fin_neg _ Fx) ltac:(lra)) as (A & P & C). rewrite pow52 in C. fold tiny in C.
    destruct (exp_m20 _ V) as [X1 X2]. rewrite val_neg in *. pose proof (exp_pos (- val x)) as X0.
    pose proof (L_tail (val x)) as LT.
    split; [exact A|]. apply Rabs_le_inv in C, LX. apply Rabs_le. nra.
  Qed.
  Lemma app_mid : -20 <= val x <= 20 ->
    finite (l (fermi_at e x)) /\ Rabs (val (l (fermi_at e x)) - - L (- a)) <= 6 * u * Rabs a + 14 * u.
  Proof.
    intros H. destruct x_ok as [Fx Xa]. destruct LX_ok as [LX _]. pose proof u_pos as U.
    assert (U1 : u <= / 1000) by (unfold u; lra). pose proof tiny_small as TS. pose proof (Rabs_pos a) as A0. pose proof tiny_pos as TP.
    assert (UU : u * u <= / 1000 * u) by nra.
    assert (XB : Rabs (val x) <= 1.1 * Rabs a + 1).
    { pose proof (Rabs_triang (val x - a) a) as T. replace (val x - a + a) with (val x) in T by ring. nra. }
    destruct (fermi_mid_rel e x He Fx ltac:(lra)) as [Ff Rf].
    destruct (ln_rel _ _ (proj1 (fd_bounds (val x))) Rf) as [Pf Nf].
    destruct (Hl _ Ff Pf) as [Fl Vl]. rewrite pow52 in Vl. fold tiny in Vl.
    assert (LF : ln (fd (val x)) = - L (- val x)).
    { unfold fd, L. rewrite Ropp_involutive. unfold Rdiv. rewrite Rmult_1_l.
      rewrite ln_Rinv by (pose proof (exp_pos (val x)); lra). f_equal. f_equal. ring. }
    rewrite LF in Nf.
    assert (LXB : Rabs (L (- val x)) <= Rabs (val x) + 1).
    { rewrite Rabs_pos_eq by apply L_pos. pose proof (L_le (- val x)) as Q. rewrite Rabs_Ropp in Q. exact Q. }
    set (f := val (fermi_at e x)) in *.
    assert (LFB : Rabs (ln f) <= 1.1 * Rabs a + 3).
    { pose proof (Rabs_triang (ln f - - L (- val x)) (- L (- val x))) as T. replace (ln f - - L (- val x) + - L (- val x)) with (ln f) in T by ring.
      rewrite Rabs_Ropp in T. nra. }
    split; [exact Fl|]. apply Rabs_le_inv in Vl, Nf, LX. apply Rabs_le. nra.
  Qed.

  Lemma L_abs y : Rabs y = Rabs a -> Rabs (L y) <= Rabs a + 1.
  Proof. intros E. rewrite Rabs_pos_eq by apply L_pos. rewrite <- E. apply L_le. Qed.
  Lemma quot2_abs v : Rabs v <= Rabs a + 1 -> Rabs (v / (val beta * val beta)) * (B * B) <= Rabs a + 1.
  Proof.
    intros H. destruct sq_ok as (_ & _ & E). rewrite E. pose proof B_pos.
    rewrite <- (Rabs_pos_eq (B * B)) at 2 by nra. rewrite <- Rabs_mult.
    replace (v / (B * B) * (B * B)) with v by (field; lra). exact H.
  Qed.
  Lemma prod_abs Dm w : Rabs Dm = Rabs D -> 0 <= w <= 1 -> Rabs (Dm * w / val beta) * (B * B) <= Rabs a + 1.
  Proof.
    intros H Hw. replace (Rabs (Dm * w / val beta) * (B * B)) with (Rabs (Dm * w / val beta) * B * B) by ring.
    assert (E : Rabs (Dm * w / val beta) * B = Rabs (Dm * w)).
    { unfold B. rewrite <- Rabs_mult. f_equal. field. apply beta_nz. }
    rewrite E, Rabs_mult, H, (Rabs_pos_eq w) by lra. rewrite abs_a. pose proof B_pos. pose proof (Rabs_pos D).
    assert (Rabs D * w <= Rabs D) by nra. nra.
  Qed.
  Lemma dtarget : L a / (val beta * val beta) + D * fd a / val beta =
    L (- a) / (val beta * val beta) - D * (1 - fd a) / val beta.
  Proof. rewrite L_neg. unfold a at 3. field. apply beta_nz. Qed.

  Lemma dgp_core : finite (dgrand_potential064 e l beta epsilon mu) /\
    Rabs (val (dgrand_potential064 e l beta epsilon mu) - (L a / (val beta * val beta) + D * fd a / val beta)) * (B * B)
      <= 64 * u * (Rabs a + 1).
  Proof.
    destruct x_ok as [Fx Xa]. destruct emm_ok as [F1 V1].
    assert (HD' : Rabs (val epsilon - val mu) <= bpow radix2 1023) by (fold D; pose proof M_big'; lra).
    destruct (fermi_in_range e beta epsilon mu He Fb Fe Fm (or_intror HD')) as [[Ff Rf] [Fv Rv]].
    pose proof (fermi_accurate e He beta epsilon mu Fb Fe Fm HD') as Af. pose proof (vfermi_accurate e He beta epsilon mu Fb Fe Fm HD') as Av.
    fold D in Af, Av. fold a in Af, Av. pose proof (fd_bounds a) as FB.
    unfold dgrand_potential064. fold emm. change (fmul beta emm) with x.
    rewrite 2 lt_ok by (try apply fin_neg; auto using fin_20). rewrite val_neg, val_20.
    replace (- (20)) with (-20) by lra.
    pose proof u_pos as U. assert (U0 : 0 <= u * Rabs a) by (pose proof (Rabs_pos a); nra).
    destruct (Rlt_bool_spec (val x) (-20)) as [H|H]; [|destruct (Rlt_bool_spec 20 (val x)) as [H2|H2]].
    - destruct (app_low ltac:(lra)) as [Ap Ac].
      destruct (quot2_ok (e x) (L (- a)) Ap Ac (L_abs (- a) (Rabs_Ropp a))) as [Q1 Q2].
      destruct (prod_ok (fneg emm) (- D) (vfermi_function64 e beta epsilon mu) (1 - fd a)) as [P1 P2];
        [apply fin_neg; exact F1|exact Fv|rewrite val_neg; replace (- val emm - - D) with (- (val emm - D)) by ring; rewrite Rabs_Ropp; exact V1
        |apply Rabs_Ropp|exact Rv|lra|exact Av|].
      destruct (dsum_ok _ _ (- D * (1 - fd a) / val beta) (L (- a) / (val beta * val beta)) P1 Q1) as [[R1 R2] _];
        [lra|lra|apply prod_abs; [apply Rabs_Ropp|lra]|apply quot2_abs; exact (L_abs (- a) (Rabs_Ropp a))|].
      split; [exact R1|]. rewrite dtarget.
      replace (L (- a) / (val beta * val beta) - D * (1 - fd a) / val beta)
        with (- D * (1 - fd a) / val beta + L (- a) / (val beta * val beta)) by (field; apply beta_nz). exact R2.
    - destruct (app_high ltac:(lra)) as [Ap Ac].
      destruct (quot2_ok (e (fneg x)) (L a) Ap Ac (L_abs a eq_refl)) as [Q1 Q2].
      destruct (prod_ok emm D (fermi_function64 e beta epsilon mu) (fd a)) as [P1 P2];
        [exact F1|exact Ff|exact V1|reflexivity|exact Rf|lra|exact Af|].
      destruct (dsum_ok _ _ (D * fd a / val beta) (L a / (val beta * val beta)) P1 Q1) as [[R1 R2] _];
        [lra|lra|apply prod_abs; [reflexivity|lra]|apply quot2_abs; exact (L_abs a eq_refl)|].
      split; [exact R1|]. rewrite (Rplus_comm (L a / _)). exact R2.
    - destruct (app_mid ltac:(lra)) as [Ap Ac]. rewrite fermi_at_eq. fold x.
      destruct (quot2_ok (fneg (l (fermi_at e x))) (L (- a)) (fin_neg _ Ap)) as [Q1 Q2].
      { rewrite val_neg. replace (- val (l (fermi_at e x)) - L (- a)) with (- (val (l (fermi_at e x)) - - L (- a))) by ring. rewrite Rabs_Ropp. exact Ac. }
      { exact (L_abs (- a) (Rabs_Ropp a)). }
      destruct (prod_ok emm D (vfermi_function64 e beta epsilon mu) (1 - fd a)) as [P1 P2];
        [exact F1|exact Fv|exact V1|reflexivity|exact Rv|lra|exact Av|].
      destruct (dsum_ok _ _ (L (- a) / (val beta * val beta)) (D * (1 - fd a) / val beta) Q1 P1) as [_ [R1 R2]];
        [lra|lra|apply quot2_abs; exact (L_abs (- a) (Rabs_Ropp a))|apply prod_abs; [reflexivity|lra]|].
      split; [exact R1|]. rewrite dtarget. exact R2.
  Qed.
End GP.

(** *** arrays *)
Lemma fput_at x y : forall p q, fput (length p) x (p ++ y :: q) = (p ++ x :: q)%list.
Proof. induction p as [|z p IH]; intros q; simpl; [reflexivity|]. now rewrite IH. Qed.
Lemma ffill_go (g : nat -> b64) n : forall k p, length p = k ->
  fold_left (fun out i => fput i (g i) out) (seq k n) (p ++ repeat (flit 0) n)%list = (p ++ map g (seq k n))%list.
Proof.
  induction n as [|n IH]; intros k p Hp; [reflexivity|].
  change (repeat (flit 0) (S n)) with (flit 0 :: repeat (flit 0) n).
  change (seq k (S n)) with (k :: seq (S k) n). cbn [fold_left map].
  subst k. rewrite fput_at.
  replace (p ++ g (length p) :: repeat (flit 0) n)%list with ((p ++ [g (length p)]) ++ repeat (flit 0) n)%list
    by (rewrite <- app_assoc; reflexivity).
  rewrite IH by (rewrite app_length; simpl; lia). rewrite <- app_assoc. reflexivity.
Qed.
Lemma fmap_nth_seq (f : b64 -> b64) eps : map (fun i => f (nth i eps (flit 0))) (seq 0 (length eps)) = map f eps.
Proof.
  induction eps as [|y eps IH]; [reflexivity|]. simpl. f_equal. rewrite <- IH, <- seq_shift, map_map. reflexivity.
Qed.
Lemma ffill_map f eps : ffill f eps = map f eps.
Proof.
  unfold ffill. rewrite <- (fmap_nth_seq f eps).
  exact (ffill_go (fun i => f (nth i eps (flit 0))) (length eps) 0 [] eq_refl).
Qed.

Lemma good_exact_log : good_log exact_log.
Proof.
  intros y Fy Py. unfold exact_log.
  assert (K : forall n, ln (bpow radix2 n) = IZR n * ln 2).
  { intros n. rewrite <- (ln_exp (IZR n * ln 2)). f_equal. rewrite bpow_exp. reflexivity. }
  assert (L2 : 0 < ln 2 <= 1).
  { split; [rewrite <- ln_1; apply ln_increasing; lra|]. rewrite <- (ln_exp 1). apply ln_mono; [lra|apply exp_1_ge2]. }
  assert (Up : ln (val y) <= 1024).
  { assert (Q : val y <= bpow radix2 1024).
    { pose proof (abs_B2R_lt_emax 53 1024 y) as A. left. eapply Rle_lt_trans; [apply Rle_abs|exact A]. }
    apply ln_mono in Q; [|exact Py]. rewrite K in Q. lra. }
  assert (Lo : -1074 <= ln (val y)).
  { assert (Q : bpow radix2 (-1074) <= val y).
    { assert (S : is_finite_strict y = true) by (destruct y; simpl in *; try discriminate; try (unfold val in Py; simpl in Py; lra); reflexivity).
      pose proof (abs_B2R_ge_emin 53 1024 y S) as A. rewrite Rabs_pos_eq in A by (unfold val in Py; lra). exact A. }
    apply ln_mono in Q; [|apply bpow_gt_0]. rewrite K in Q. lra. }
  destruct (round_to_ok (ln (val y))) as [A V].
  { pose proof big_bound. apply Rabs_le. lra. }
  split; [exact A|]. rewrite V. eapply Rle_trans; [apply rnd_error|]. rewrite pow52. fold tiny.
  pose proof u_pos. pose proof (Rabs_pos (ln (val y))). nra.
Qed.
