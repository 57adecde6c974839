(** Theorems about finite-temperature functions (ft_utils.py): C44-C47, C51, C52.
    All use the standard library's real numbers, [exp], [ln] and
    [derivable_pt_lim f x l] (the derivative of f at x is l). *)
From Coq Require Import Reals List Lra.
From Verif Require Import FTModel FTFacts.
Import ListNotations.
Local Open Scope R_scope.

(** C44 *)
Theorem C44_occupations_sum_to_one (beta epsilon mu : R) :
  fermi_function beta epsilon mu + vfermi_function beta epsilon mu = 1.
Proof. exact (fermi_sum beta epsilon mu). Qed.
Print Assumptions C44_occupations_sum_to_one.

Theorem C44_probabilities (beta epsilon mu : R) :
  0 < fermi_function beta epsilon mu < 1 /\ 0 < vfermi_function beta epsilon mu < 1.
Proof. exact (conj (fermi_range beta epsilon mu) (vfermi_range beta epsilon mu)). Qed.
Print Assumptions C44_probabilities.

Theorem C44_particle_hole (beta epsilon mu : R) :
  vfermi_function beta epsilon mu = fermi_function beta (2 * mu - epsilon) mu.
Proof. exact (fermi_reflect beta epsilon mu). Qed.
Print Assumptions C44_particle_hole.

(** C45: the Fermi-Dirac distribution, exactly up to |x| = 30 *)
Theorem C45_exact (beta epsilon mu : R) :
  -30 <= beta * (epsilon - mu) <= 30 ->
  fermi_function beta epsilon mu = 1 / (exp (beta * (epsilon - mu)) + 1).
Proof. exact (fermi_mid beta epsilon mu). Qed.
Print Assumptions C45_exact.

Theorem C45_error (beta epsilon mu : R) :
  Rabs (fermi_function beta epsilon mu - 1 / (exp (beta * (epsilon - mu)) + 1)) < exp (-60).
Proof. exact (fermi_bound beta epsilon mu). Qed.
Print Assumptions C45_error.

Theorem C45_relative_error (beta epsilon mu : R) :
  Rabs (fermi_function beta epsilon mu - 1 / (exp (beta * (epsilon - mu)) + 1))
  <= exp (-30) * (1 / (exp (beta * (epsilon - mu)) + 1)).
Proof. exact (fermi_relative beta epsilon mu). Qed.
Print Assumptions C45_relative_error.

(** the occupation decreases within each of the three branches *)
Theorem C45_decreasing_in_branch (beta e1 e2 mu : R) :
  let x1 := beta * (e1 - mu) in
  let x2 := beta * (e2 - mu) in
  (x1 < -30 /\ x2 < -30) \/ (30 < x1 /\ 30 < x2) \/ (-30 <= x1 <= 30 /\ -30 <= x2 <= 30) ->
  x1 < x2 -> fermi_function beta e2 mu < fermi_function beta e1 mu.
Proof. exact (fermi_decreasing beta e1 e2 mu). Qed.
Print Assumptions C45_decreasing_in_branch.

(** but not across x = 30 *)
Theorem C45_monotone_refuted :
  exists e1 e2, e1 < e2 /\ fermi_function 1 e1 0 < fermi_function 1 e2 0.
Proof. exact fermi_not_monotone. Qed.
Print Assumptions C45_monotone_refuted.

Example C45_example :
  -30 <= 1 * (2 - 1) <= 30 /\ (31 < 32 /\ 30 < 1 * (31 - 0) /\ 30 < 1 * (32 - 0)) /\
  fermi_function 1 1 1 = 1 / 2.
Proof.
  repeat split; try lra. rewrite fermi_mid by lra. replace (1 * (1 - 1)) with 0 by ring. rewrite exp_0. lra.
Qed.

(** C46: the grand potential -(1/beta) ln(1 + exp(-x)), exactly up to |x| = 20 *)
Theorem C46_exact (beta epsilon mu : R) : beta <> 0 ->
  -20 <= beta * (epsilon - mu) <= 20 ->
  grand_potential0 beta epsilon mu = - ln (1 + exp (- (beta * (epsilon - mu)))) / beta.
Proof. exact (gp_mid beta epsilon mu). Qed.
Print Assumptions C46_exact.

Theorem C46_error (beta epsilon mu : R) : beta <> 0 ->
  Rabs (grand_potential0 beta epsilon mu - - ln (1 + exp (- (beta * (epsilon - mu)))) / beta)
  < exp (-40) / Rabs beta.
Proof. exact (gp_bound beta epsilon mu). Qed.
Print Assumptions C46_error.

(** dgrand_potential0 is the derivative in beta of grand_potential0 *)
Theorem C46_derivative (beta epsilon mu : R) : beta <> 0 ->
  -20 < beta * (epsilon - mu) < 20 ->
  derivable_pt_lim (fun b => grand_potential0 b epsilon mu) beta (dgrand_potential0 beta epsilon mu).
Proof. exact (d_mid beta epsilon mu). Qed.
Print Assumptions C46_derivative.

Theorem C46_derivative_far (beta epsilon mu : R) : beta <> 0 ->
  30 < Rabs (beta * (epsilon - mu)) ->
  derivable_pt_lim (fun b => grand_potential0 b epsilon mu) beta (dgrand_potential0 beta epsilon mu).
Proof. exact (d_far beta epsilon mu). Qed.
Print Assumptions C46_derivative_far.

(** between 20 and 30 it is the derivative up to |x| exp(-2|x|) / beta^2 *)
Theorem C46_derivative_between (beta epsilon mu : R) : beta <> 0 ->
  20 < Rabs (beta * (epsilon - mu)) ->
  exists D, derivable_pt_lim (fun b => grand_potential0 b epsilon mu) beta D /\
  Rabs (D - dgrand_potential0 beta epsilon mu)
  <= Rabs (beta * (epsilon - mu)) * exp (- (2 * Rabs (beta * (epsilon - mu)))) / (beta * beta).
Proof. exact (d_between beta epsilon mu). Qed.
Print Assumptions C46_derivative_between.

(** the derivative of the exact grand potential, and the distance from it *)
Theorem C46_exact_derivative (beta epsilon mu : R) : beta <> 0 ->
  exists D, derivable_pt_lim (fun b => - ln (1 + exp (- (b * (epsilon - mu)))) / b) beta D /\
  (-20 <= beta * (epsilon - mu) <= 20 -> dgrand_potential0 beta epsilon mu = D) /\
  (20 < Rabs (beta * (epsilon - mu)) ->
   Rabs (dgrand_potential0 beta epsilon mu - D)
   <= (1 + Rabs (beta * (epsilon - mu))) * exp (- (2 * Rabs (beta * (epsilon - mu)))) / (beta * beta)).
Proof.
  exact (fun H => ex_intro _ (dgp beta epsilon mu) (conj (gp_deriv beta epsilon mu H)
    (conj (dgp_mid beta epsilon mu H) (dgp_err beta epsilon mu H)))).
Qed.
Print Assumptions C46_exact_derivative.

Example C46_example :
  (2 <> 0 /\ -20 < 2 * (3 - 1) < 20) /\ 30 < Rabs (2 * (30 - 1)) /\ 20 < Rabs (1 * (0 - 25)) /\
  grand_potential0 2 1 1 = - ln 2 / 2.
Proof.
  split; [lra|]. split; [rewrite Rabs_right; lra|]. split; [rewrite Rabs_left; lra|].
  rewrite gp_mid by lra. unfold gp. replace (- (2 * (1 - 1))) with 0 by ring. rewrite exp_0. reflexivity.
Qed.

(** C47 *)
Theorem C47_elementwise (beta mu : R) (epsilon eb : list R) :
  ff beta epsilon mu = map (fun e => fermi_function beta e mu) epsilon /\
  ffv beta epsilon mu = map (fun e => vfermi_function beta e mu) epsilon /\
  GP0 beta epsilon mu = map (fun e => grand_potential0 beta e mu) epsilon /\
  uGP0 beta epsilon eb mu = (map (fun e => grand_potential0 beta e mu) epsilon,
                             map (fun e => grand_potential0 beta e mu) eb) /\
  dGP0 beta epsilon mu = map (fun e => dgrand_potential0 beta e mu) epsilon.
Proof.
  exact (conj (fill_map _ epsilon) (conj (fill_map _ epsilon) (conj (fill_map _ epsilon)
    (conj (f_equal2 pair (fill_map _ epsilon) (fill_map _ eb)) (fill_map _ epsilon))))).
Qed.
Print Assumptions C47_elementwise.

Theorem C47_occupations_sum_to_one (beta mu : R) (epsilon : list R) :
  map (fun p => fst p + snd p) (combine (ff beta epsilon mu) (ffv beta epsilon mu)) = repeat 1 (length epsilon).
Proof. exact (ff_ffv_sum beta epsilon mu). Qed.
Print Assumptions C47_occupations_sum_to_one.

Example C47_example : ff 1 [0; 0] 0 = [1 / 2; 1 / 2] /\ length (ffv 1 [5; 6; 7] 0) = 3%nat.
Proof.
  split; [|reflexivity]. unfold ff. rewrite fill_map. simpl.
  assert (E : fermi_function 1 0 0 = 1 / 2).
  { rewrite fermi_mid by lra. replace (1 * (0 - 0)) with 0 by ring. rewrite exp_0. lra. }
  rewrite E. reflexivity.
Qed.

(** C51: minus the derivative of the grand potential in mu is the occupation *)
Theorem C51_occupation_is_derivative (beta epsilon mu : R) : beta <> 0 ->
  Rabs (beta * (epsilon - mu)) < 20 \/ 30 < Rabs (beta * (epsilon - mu)) ->
  derivable_pt_lim (fun m => grand_potential0 beta epsilon m) mu (- fermi_function beta epsilon mu).
Proof. exact (mu_deriv beta epsilon mu). Qed.
Print Assumptions C51_occupation_is_derivative.

Example C51_example : Rabs (1 * (0 - 1)) < 20 /\ 30 < Rabs (1 * (0 - 31)).
Proof. split; rewrite Rabs_left; lra. Qed.

(** C52: the zero-temperature limit *)
Theorem C52_zero_temperature (epsilon mu tol : R) : 0 < tol ->
  exists beta0, forall beta, beta0 < beta ->
  (mu < epsilon -> fermi_function beta epsilon mu < tol) /\
  (epsilon < mu -> 1 - tol < fermi_function beta epsilon mu) /\
  (epsilon = mu -> fermi_function beta epsilon mu = 1 / 2).
Proof. exact (zero_T epsilon mu tol). Qed.
Print Assumptions C52_zero_temperature.

Example C52_example : 0 < 1 / 1000 /\ fermi_function 100 1 0 < 1 / 1000.
Proof.
  split; [lra|]. rewrite fermi_high by lra. rewrite exp_Ropp.
  replace (1 / 1000) with (/ 1000) by lra. apply Rinv_lt_contravar; [|].
  - apply Rmult_lt_0_compat; [lra|apply exp_pos].
  - replace (100 * (1 - 0)) with (10 + (10 + (10 + 70))) by ring. rewrite !exp_plus.
    pose proof (exp_ineq1 10). pose proof (exp_ineq1 70).
    assert (11 < exp 10) by lra. assert (71 < exp 70) by lra.
    assert (121 < exp 10 * exp 10) by nra. assert (781 < exp 10 * exp 70) by nra. nra.
Qed.

(** C62: HtoK converts a temperature in Hartree to Kelvin: it agrees with the
    CODATA value 315775.0248 K for one Hartree divided by the Boltzmann constant to
    one part in a million, and is linear. *)
Theorem C62_HtoK (T : R) : Rabs (HtoK T - T * (3157750248 / 10 ^ 4)) <= Rabs T * (315775 / 10 ^ 6).
Proof. exact (HtoK_close T). Qed.
Print Assumptions C62_HtoK.
Theorem C62_HtoK_linear (S T c : R) : HtoK (S + c * T) = HtoK S + c * HtoK T.
Proof. exact (HtoK_linear S T c). Qed.
Print Assumptions C62_HtoK_linear.
Example C62_example : 31577 < HtoK (1 / 10) < 31578.
Proof. unfold HtoK, hartree_to_ev, kb. split; lra. Qed.
