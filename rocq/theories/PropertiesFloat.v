(** C79, C80: ft_utils.py in IEEE 754 double precision.

    The statements use FloatModel.v (the functions, over the 64 bit floating point
    numbers of Flocq) and FloatSpec.v ([val x], the real number a double stands for,
    [finite x], the exact formulas, and what is assumed of numpy.exp and numpy.log). *)
From Coq Require Import ZArith Reals List Lra Lia.
From Flocq Require Import Core BinarySingleNaN.
From Verif Require Import FloatModel FloatSpec FloatFacts FloatFermi FloatFermi2 FloatGP FTFacts.
Import ListNotations.
Local Open Scope R_scope.

Lemma eps49 : 12 * u <= / 2 ^ 49. Proof. unfold u. lra. Qed.
Lemma eps48 : 32 * u <= / 2 ^ 48. Proof. unfold u. lra. Qed.
Lemma eps47 : 64 * u <= / 2 ^ 47. Proof. unfold u. lra. Qed.
Lemma two1023 : bpow radix2 1023 = 2 ^ 1023. Proof. exact (bpow_pow 1023). Qed.
Lemma two400 : bpow radix2 400 = 2 ^ 400. Proof. exact (bpow_pow 400). Qed.

(** C79: whatever finite doubles beta, epsilon and mu are, as long as epsilon - mu does not
    overflow, both occupation functions return a finite double between 0 and 1 that differs
    from the exact Fermi-Dirac value of the given doubles by at most 2^-49. *)
Theorem C79_fermi_functions : forall np_exp beta epsilon mu,
  good_exp np_exp -> finite beta -> finite epsilon -> finite mu ->
  Rabs (val epsilon - val mu) <= 2 ^ 1023 ->
  let f := fermi_function64 np_exp beta epsilon mu in
  let v := vfermi_function64 np_exp beta epsilon mu in
  let exact := fermi_dirac (val beta) (val epsilon) (val mu) in
  finite f /\ 0 <= val f <= 1 /\ Rabs (val f - exact) <= / 2 ^ 49 /\
  finite v /\ 0 <= val v <= 1 /\ Rabs (val v - (1 - exact)) <= / 2 ^ 49 /\
  Rabs (val f + val v - 1) <= / 2 ^ 48.
Proof.
  intros e beta epsilon mu He Fb Fe Fm H. cbv zeta. rewrite <- two1023 in H.
  destruct (fermi_in_range e beta epsilon mu He Fb Fe Fm (or_intror H)) as [[A B] [C D]].
  pose proof (fermi_accurate e He beta epsilon mu Fb Fe Fm H) as P.
  pose proof (vfermi_accurate e He beta epsilon mu Fb Fe Fm H) as Q.
  unfold fd in P, Q. fold (fermi_dirac (val beta) (val epsilon) (val mu)) in P, Q. pose proof eps49 as E.
  assert (E2 : / 2 ^ 48 = / 2 ^ 49 + / 2 ^ 49) by lra.
  repeat match goal with |- _ /\ _ => split end; try assumption; try lra.
  rewrite E2. apply Rabs_le_inv in P, Q. apply Rabs_le. lra.
Qed.
Print Assumptions C79_fermi_functions.

(** The two functions stay finite and in [0, 1] even when epsilon - mu overflows,
    provided beta is not zero. *)
Theorem C79_always_in_range : forall np_exp beta epsilon mu,
  good_exp np_exp -> finite beta -> finite epsilon -> finite mu -> val beta <> 0 ->
  let f := fermi_function64 np_exp beta epsilon mu in
  let v := vfermi_function64 np_exp beta epsilon mu in
  (finite f /\ 0 <= val f <= 1) /\ (finite v /\ 0 <= val v <= 1).
Proof. intros e beta epsilon mu He Fb Fe Fm H. exact (fermi_in_range e beta epsilon mu He Fb Fe Fm (or_introl H)). Qed.
Print Assumptions C79_always_in_range.

(** At infinite temperature (beta = 0) with an overflowing difference the result is nan. *)
Theorem C79_overflow_refuted : exists beta epsilon mu, finite beta /\ finite epsilon /\ finite mu /\
  forall np_exp, np_exp B754_nan = B754_nan -> fermi_function64 np_exp beta epsilon mu = B754_nan.
Proof.
  set (fmax := (Bmax_float : b64)). exists (flit 0), fmax, (Bopp fmax).
  split; [apply flit_ok; lia|]. split; [reflexivity|]. split; [reflexivity|].
  intros e He. unfold fermi_function64.
  assert (X : fmul (flit 0) (fsub fmax (Bopp fmax)) = B754_nan).
  { assert (S : fsub fmax (Bopp fmax) = B754_infinity false) by (apply B2SF_inj; vm_compute; reflexivity).
    rewrite S. reflexivity. }
  cbv zeta. rewrite X, He. reflexivity.
Qed.
Print Assumptions C79_overflow_refuted.

(** The array functions apply the scalar functions to every entry, in order. *)
Theorem C79_arrays : forall np_exp beta epsilon mu,
  ff64 np_exp beta epsilon mu = map (fun e => fermi_function64 np_exp beta e mu) epsilon /\
  ffv64 np_exp beta epsilon mu = map (fun e => vfermi_function64 np_exp beta e mu) epsilon.
Proof. intros. split; apply ffill_map. Qed.
Print Assumptions C79_arrays.

(** The assumption can be met (correct rounding meets it), and the theorem applies to
    concrete levels: beta = 2, epsilon = 3, mu = 1. *)
Example C79_example : good_exp exact_exp /\
  Rabs (val (fermi_function64 exact_exp (flit 2) (flit 3) (flit 1)) - 1 / (exp 4 + 1)) <= / 2 ^ 49.
Proof.
  split; [exact good_exact_exp|].
  destruct (flit_ok 2 ltac:(lia)) as [F2 V2]. destruct (flit_ok 3 ltac:(lia)) as [F3 V3]. destruct (flit_ok 1 ltac:(lia)) as [F1 V1].
  destruct (C79_fermi_functions exact_exp _ _ _ good_exact_exp F2 F3 F1) as (_ & _ & H & _).
  - rewrite V3, V1, <- two1023. pose proof big_bound. rewrite Rabs_pos_eq by lra. lra.
  - rewrite V1, V2, V3 in H. unfold fermi_dirac in H. replace (2 * (3 - 1)) with 4 in H by lra. exact H.
Qed.

(** C80: for 2^-400 <= |beta| <= 2^400 and |epsilon - mu| <= 2^400 the grand potential of a
    level and its temperature derivative are finite, and their rounding errors (including
    the cutoffs at |x| = 20) are bounded relative to kT + |epsilon - mu|. *)
Theorem C80_grand_potential : forall np_exp np_log beta epsilon mu,
  good_exp np_exp -> good_log np_log -> finite beta -> finite epsilon -> finite mu ->
  / 2 ^ 400 <= Rabs (val beta) <= 2 ^ 400 -> Rabs (val epsilon - val mu) <= 2 ^ 400 ->
  let g := grand_potential064 np_exp np_log beta epsilon mu in
  finite g /\
  Rabs (val g - grand_potential (val beta) (val epsilon) (val mu)) <=
    / 2 ^ 48 * (1 / Rabs (val beta) + Rabs (val epsilon - val mu)).
Proof.
  intros e l beta epsilon mu He Hl Fb Fe Fm [B1 B2] HD. cbv zeta. rewrite <- two400 in *.
  destruct (gp_core e l He Hl beta epsilon mu Fb Fe Fm B1 B2 HD) as [F Q]. split; [exact F|].
  unfold grand_potential. fold (L (val beta * (val epsilon - val mu))).
  assert (BP : 0 < Rabs (val beta)) by (eapply Rlt_le_trans; [|exact B1]; apply Rinv_0_lt_compat, bpow_gt_0).
  apply Rmult_le_reg_r with (Rabs (val beta)); [exact BP|]. eapply Rle_trans; [exact Q|].
  rewrite Rabs_mult. pose proof eps48 as E. pose proof (Rabs_pos (val epsilon - val mu)) as DP.
  replace (/ 2 ^ 48 * (1 / Rabs (val beta) + Rabs (val epsilon - val mu)) * Rabs (val beta))
    with (/ 2 ^ 48 * (Rabs (val beta) * Rabs (val epsilon - val mu) + 1)) by (field; lra).
  apply Rmult_le_compat_r; [|exact E]. assert (0 <= Rabs (val beta) * Rabs (val epsilon - val mu)) by (apply Rmult_le_pos; lra). lra.
Qed.
Print Assumptions C80_grand_potential.

Theorem C80_derivative : forall np_exp np_log beta epsilon mu,
  good_exp np_exp -> good_log np_log -> finite beta -> finite epsilon -> finite mu ->
  / 2 ^ 400 <= Rabs (val beta) <= 2 ^ 400 -> Rabs (val epsilon - val mu) <= 2 ^ 400 ->
  let g := dgrand_potential064 np_exp np_log beta epsilon mu in
  finite g /\
  exists d, derivable_pt_lim (fun b => grand_potential b (val epsilon) (val mu)) (val beta) d /\
    Rabs (val g - d) <= / 2 ^ 47 * (1 / Rabs (val beta) + Rabs (val epsilon - val mu)) / Rabs (val beta).
Proof.
  intros e l beta epsilon mu He Hl Fb Fe Fm [B1 B2] HD. cbv zeta. rewrite <- two400 in *.
  destruct (dgp_core e l He Hl beta epsilon mu Fb Fe Fm B1 B2 HD) as [F Q]. split; [exact F|].
  assert (BP : 0 < Rabs (val beta)) by (eapply Rlt_le_trans; [|exact B1]; apply Rinv_0_lt_compat, bpow_gt_0).
  assert (NZ : val beta <> 0) by (intros E; rewrite E, Rabs_R0 in BP; lra).
  exists (dgp (val beta) (val epsilon) (val mu)). split; [exact (gp_deriv _ _ _ NZ)|].
  change (dgp (val beta) (val epsilon) (val mu)) with
    (L (val beta * (val epsilon - val mu)) / (val beta * val beta) + (val epsilon - val mu) * fd (val beta * (val epsilon - val mu)) / val beta).
  apply Rmult_le_reg_r with (Rabs (val beta) * Rabs (val beta)); [apply Rmult_lt_0_compat; exact BP|]. eapply Rle_trans; [exact Q|].
  rewrite Rabs_mult. pose proof eps47 as E. pose proof (Rabs_pos (val epsilon - val mu)) as DP.
  replace (/ 2 ^ 47 * (1 / Rabs (val beta) + Rabs (val epsilon - val mu)) / Rabs (val beta) * (Rabs (val beta) * Rabs (val beta)))
    with (/ 2 ^ 47 * (Rabs (val beta) * Rabs (val epsilon - val mu) + 1)) by (field; lra).
  apply Rmult_le_compat_r; [|exact E]. assert (0 <= Rabs (val beta) * Rabs (val epsilon - val mu)) by (apply Rmult_le_pos; lra). lra.
Qed.
Print Assumptions C80_derivative.

Theorem C80_arrays : forall np_exp np_log beta epsilon ea eb mu,
  GP064 np_exp np_log beta epsilon mu = map (fun e => grand_potential064 np_exp np_log beta e mu) epsilon /\
  dGP064 np_exp np_log beta epsilon mu = map (fun e => dgrand_potential064 np_exp np_log beta e mu) epsilon /\
  uGP064 np_exp np_log beta ea eb mu =
    (map (fun e => grand_potential064 np_exp np_log beta e mu) ea,
     map (fun e => grand_potential064 np_exp np_log beta e mu) eb).
Proof. intros. split; [apply ffill_map|]. split; [apply ffill_map|]. unfold uGP064. now rewrite !ffill_map. Qed.
Print Assumptions C80_arrays.

Example C80_example : good_exp exact_exp /\ good_log exact_log /\
  Rabs (val (grand_potential064 exact_exp exact_log (flit 2) (flit 3) (flit 1)) - (- ln (1 + exp (-4)) / 2)) <= / 2 ^ 46.
Proof.
  split; [exact good_exact_exp|]. split; [exact good_exact_log|].
  destruct (flit_ok 2 ltac:(lia)) as [F2 V2]. destruct (flit_ok 3 ltac:(lia)) as [F3 V3]. destruct (flit_ok 1 ltac:(lia)) as [F1 V1].
  assert (M : 2 ^ 60 <= 2 ^ 400) by (rewrite <- two400; exact M_big).
  destruct (C80_grand_potential exact_exp exact_log _ _ _ good_exact_exp good_exact_log F2 F3 F1) as (_ & H).
  - rewrite V2, Rabs_pos_eq by lra. split; [|lra]. apply Rle_trans with (/ 2 ^ 60); [apply Rinv_le_contravar; [lra|exact M]|lra].
  - rewrite V3, V1, Rabs_pos_eq by lra. lra.
  - rewrite V1, V2, V3 in H. unfold grand_potential in H. replace (- (2 * (3 - 1))) with (-4) in H by lra.
    rewrite (Rabs_pos_eq 2), (Rabs_pos_eq (3 - 1)) in H by lra. lra.
Qed.
