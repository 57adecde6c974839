(** Accuracy of fermi_function and vfermi_function in double precision. *)
From Coq Require Import ZArith Reals List Lra Lia.
From Flocq Require Import Core BinarySingleNaN Relative Plus_error.
From Verif Require Import FloatModel FloatSpec FloatFacts.
Local Open Scope R_scope.

Definition fd (x : R) : R := 1 / (exp x + 1).

Lemma fd_bounds x : 0 < fd x < 1.
Proof.
  unfold fd. pose proof (exp_pos x). split.
  - apply Rdiv_lt_0_compat; lra.
  - apply Rmult_lt_reg_r with (exp x + 1); [lra|]. field_simplify; lra.
Qed.
Lemma fd_neg x : fd (- x) = 1 - fd x.
Proof. unfold fd. pose proof (exp_pos x). rewrite exp_Ropp. field. lra. Qed.

(** *** sensitivity of the distribution to its argument *)
Lemma exp_ge1 t : 1 + t <= exp t.
Proof. destruct (Req_dec t 0) as [->|H]; [rewrite exp_0; lra|]. left. apply exp_ineq1. exact H. Qed.

Lemma fd_step a b : a <= b -> 0 <= fd a - fd b <= (b - a) * fd a.
Proof.
  intros H. unfold fd. pose proof (exp_pos a) as Pa. pose proof (exp_pos b) as Pb.
  pose proof (exp_ge1 (a - b)) as E. pose proof (exp_pos (a - b)) as Pab.
  assert (Eb : exp a = exp (a - b) * exp b) by (rewrite <- exp_plus; f_equal; ring).
  assert (L : exp a <= exp b) by (destruct H as [H| ->]; [left; apply exp_increasing; exact H|lra]).
  replace (1 / (exp a + 1) - 1 / (exp b + 1)) with ((exp b - exp a) / (exp b + 1) * (1 / (exp a + 1))) by (field; lra).
  assert (P1 : 0 <= 1 / (exp a + 1)) by (apply Rlt_le, Rdiv_lt_0_compat; lra).
  assert (P2 : 0 <= (exp b - exp a) / (exp b + 1)) by (apply Rmult_le_pos; [lra|apply Rlt_le, Rinv_0_lt_compat; lra]).
  split; [apply Rmult_le_pos; assumption|]. apply Rmult_le_compat_r; [exact P1|].
  apply Rmult_le_reg_r with (exp b + 1); [lra|]. unfold Rdiv. rewrite Rmult_assoc, Rinv_l, Rmult_1_r by lra.
  rewrite Eb. nra.
Qed.
Lemma fd_lip a b : Rabs (fd a - fd b) <= Rabs (a - b).
Proof.
  destruct (Rle_lt_dec a b) as [H|H].
  - pose proof (fd_step a b H). pose proof (fd_bounds a). rewrite Rabs_pos_eq by lra. rewrite Rabs_minus_sym, Rabs_pos_eq by lra. nra.
  - pose proof (fd_step b a (Rlt_le _ _ H)). pose proof (fd_bounds b). rewrite Rabs_minus_sym, Rabs_pos_eq by lra. rewrite Rabs_pos_eq by lra. nra.
Qed.
Lemma fd_decay a : 0 <= a -> a * fd a <= 1.
Proof.
  intros H. unfold fd. pose proof (exp_ge1 a). pose proof (exp_pos a).
  apply Rmult_le_reg_r with (exp a + 1); [lra|]. field_simplify; lra.
Qed.
Lemma fd_scale_pos a t : 0 <= a -> Rabs t <= / 2 -> Rabs (fd (a * (1 + t)) - fd a) <= 2 * Rabs t.
Proof.
  intros Ha Ht. destruct (Rle_lt_dec 0 t) as [H|H].
  - rewrite (Rabs_pos_eq t) in * by lra.
    assert (L : a <= a * (1 + t)) by nra.
    pose proof (fd_step _ _ L) as [A B]. rewrite Rabs_minus_sym, Rabs_pos_eq by exact A.
    pose proof (fd_decay a Ha). pose proof (fd_bounds a). nra.
  - rewrite (Rabs_left t) in * by lra.
    assert (L : a * (1 + t) <= a) by nra.
    pose proof (fd_step _ _ L) as [A B]. rewrite Rabs_pos_eq by exact A.
    assert (Hb : 0 <= a * (1 + t)) by nra.
    pose proof (fd_decay _ Hb). pose proof (fd_bounds (a * (1 + t))). 
    eapply Rle_trans; [exact B|]. replace (a - a * (1 + t)) with (a * - t) by ring.
    assert (a * fd (a * (1 + t)) <= 2) by nra. nra.
Qed.
Lemma fd_scale a t : Rabs t <= / 2 -> Rabs (fd (a * (1 + t)) - fd a) <= 2 * Rabs t.
Proof.
  intros Ht. destruct (Rle_lt_dec 0 a) as [H|H]; [apply fd_scale_pos; assumption|].
  replace (a * (1 + t)) with (- ((- a) * (1 + t))) by ring. replace a with (- - a) at 2 by ring.
  rewrite 2 fd_neg. replace (1 - fd (- a * (1 + t)) - (1 - fd (- a))) with (- (fd (- a * (1 + t)) - fd (- a))) by ring.
  rewrite Rabs_Ropp. apply fd_scale_pos; [lra|exact Ht].
Qed.

(** *** exp is small far out *)
Lemma exp_1_ge2 : 2 <= exp 1.
Proof. pose proof (exp_ge1 1). lra. Qed.
Lemma exp_nat n : exp (- INR n) <= / 2 ^ n.
Proof.
  rewrite exp_Ropp. apply Rinv_le_contravar; [apply pow_lt; lra|].
  induction n as [|n IH]; [simpl; rewrite exp_0; lra|].
  rewrite S_INR, exp_plus. simpl. pose proof exp_1_ge2. pose proof (exp_pos (INR n)). pose proof (pow_lt 2 n ltac:(lra)). nra.
Qed.
Lemma exp_3n n : exp (INR n) <= 3 ^ n.
Proof.
  induction n as [|n IH]; [simpl; rewrite exp_0; lra|].
  rewrite S_INR, exp_plus. pose proof exp_le_3. pose proof (exp_pos (INR n)). pose proof (exp_pos 1).
  rewrite Rmult_comm. simpl. apply Rmult_le_compat; lra.
Qed.
Lemma exp_m30 x : x <= -30 -> exp x <= / 1073741824.
Proof.
  intros H. apply Rle_trans with (exp (- INR 30)).
  - destruct H as [H| ->]; [left; apply exp_increasing; simpl; lra|]. apply Req_le. f_equal. simpl. lra.
  - eapply Rle_trans; [apply exp_nat|]. apply Req_le. f_equal. lra.
Qed.
Lemma fd_upper x : fd x <= exp (- x).
Proof.
  unfold fd. rewrite exp_Ropp. pose proof (exp_pos x). unfold Rdiv. rewrite Rmult_1_l. apply Rinv_le_contravar; lra.
Qed.
Lemma fd_tail x : 0 <= exp (- x) - fd x <= exp (- x) * exp (- x).
Proof.
  pose proof (fd_upper x). split; [lra|]. unfold fd. rewrite exp_Ropp. pose proof (exp_pos x).
  replace (/ exp x - 1 / (exp x + 1)) with (/ exp x * (/ (exp x + 1))) by (field; lra).
  apply Rmult_le_compat_l; [apply Rlt_le, Rinv_0_lt_compat; lra|]. apply Rinv_le_contravar; lra.
Qed.

(** *** the functions at a given x *)
Definition fermi_at (e : b64 -> b64) (x : b64) : b64 :=
  if flt x (fneg (flit 30)) then fsub (flit 1) (e x)
  else if flt (flit 30) x then e (fneg x)
  else fdiv (flit 1) (fadd (e x) (flit 1)).
Definition vfermi_at (e : b64 -> b64) (x : b64) : b64 :=
  if flt (flit 30) x then fsub (flit 1) (e (fneg x))
  else if flt x (fneg (flit 30)) then e x
  else fdiv (e x) (fadd (e x) (flit 1)).

Lemma big_bound : 2 ^ 60 <= bpow radix2 1023.
Proof. rewrite <- bpow_pow. apply bpow_le. lia. Qed.

Section Core.
  Variable e : b64 -> b64.
  Hypothesis He : good_exp e.

  Lemma e_low x : finite x -> val x <= -30 ->
    finite (e x) /\ 0 <= val (e x) <= / 2 /\ Rabs (val (e x) - exp (val x)) <= 2 * u * exp (val x) + tiny.
  Proof.
    intros Fx Hx. destruct He as [H _]. destruct (H x Fx ltac:(lra)) as (A & B & C).
    rewrite pow52 in C. fold tiny in C.
    pose proof (exp_m30 _ Hx). pose proof (exp_pos (val x)). pose proof tiny_small. pose proof u_pos.
    split; [exact A|]. split; [|exact C]. split; [exact B|].
    unfold u in *. apply Rabs_le_inv in C. lra.
  Qed.

  Lemma one_minus x : finite x -> 0 <= val x <= / 2 ->
    finite (fsub (flit 1) x) /\ 0 <= val (fsub (flit 1) x) <= 1 /\
    Rabs (val (fsub (flit 1) x) - (1 - val x)) <= u + tiny.
  Proof.
    intros Fx Hx. pose proof big_bound as BB.
    destruct (sub_ok (flit 1) x fin_1 Fx) as [A B].
    { rewrite val_1, Rabs_pos_eq by lra. lra. }
    rewrite val_1 in B. split; [exact A|]. rewrite B. split.
    - pose proof (rnd_mono 0 (1 - val x) ltac:(lra)). pose proof (rnd_mono (1 - val x) 1 ltac:(lra)).
      rewrite rnd_0 in *. rewrite rnd_1 in *. lra.
    - pose proof (rnd_error (1 - val x)) as R1. rewrite (Rabs_pos_eq (1 - val x)) in R1 by lra.
      eapply Rle_trans; [exact R1|]. pose proof u_pos. nra.
  Qed.

  (** 1 / (E + 1) and E / (E + 1) *)
  Lemma e_mid x : finite x -> -30 <= val x <= 30 ->
    finite (e x) /\ 0 <= val (e x) <= 2 ^ 50 /\ Rabs (val (e x) - exp (val x)) <= 2 * u * exp (val x) + tiny.
  Proof.
    intros Fx Hx. destruct He as [H _]. destruct (H x Fx ltac:(lra)) as (A & B & C).
    rewrite pow52 in C. fold tiny in C. split; [exact A|]. split; [|exact C]. split; [exact B|].
    assert (E30 : exp (val x) <= exp 30) by (destruct (proj2 Hx) as [L|L]; [left; apply exp_increasing; exact L|rewrite L; lra]).
    assert (E3 : exp 30 <= 3 ^ 30).
    { replace 30 with (INR 30) by (simpl; lra). apply exp_3n. }
    pose proof tiny_small. pose proof (exp_pos (val x)). unfold u in *. apply Rabs_le_inv in C. lra.
  Qed.

  Lemma den_ok E : finite E -> 0 <= val E <= 2 ^ 50 ->
    finite (fadd E (flit 1)) /\ 1 <= val (fadd E (flit 1)) /\ val E <= val (fadd E (flit 1)) /\
    Rabs (val (fadd E (flit 1)) - (val E + 1)) <= u * (val E + 1).
  Proof.
    intros FE HE. pose proof big_bound as BB.
    destruct (add_ok E (flit 1) FE fin_1) as [A B].
    { rewrite val_1, Rabs_pos_eq by lra. lra. }
    rewrite val_1 in B. split; [exact A|]. rewrite B. split; [|split].
    - rewrite <- rnd_1 at 1. apply rnd_mono. lra.
    - unfold val at 1. rewrite <- rnd_id. apply rnd_mono. unfold val. lra.
    - pose proof (rnd_error1 (val E + 1)) as R1. rewrite (Rabs_pos_eq (val E + 1)) in R1 by lra. apply R1. lra.
  Qed.

  Lemma quot_le a b c : 0 < b -> Rabs a <= c * b -> Rabs (a / b) <= c.
  Proof.
    intros Hb H. unfold Rdiv. rewrite Rabs_mult, (Rabs_pos_eq (/ b)) by (left; apply Rinv_0_lt_compat; exact Hb).
    apply Rmult_le_reg_r with b; [exact Hb|]. rewrite Rmult_assoc, Rinv_l by lra. lra.
  Qed.

  Lemma num1 E X s : 0 < X -> 0 <= E -> Rabs (E - X) <= 2 * u * X + tiny -> 1 <= s ->
    Rabs (s - (E + 1)) <= u * (E + 1) -> Rabs (1 / s - 1 / (X + 1)) <= 3 * u + u * u * 4.
  Proof.
    intros HX HE H1 Hs H2. pose proof tiny_small as TS. pose proof u_pos as U.
    replace (1 / s - 1 / (X + 1)) with ((X + 1 - s) / (s * (X + 1))) by (field; lra).
    apply quot_le; [nra|].
    apply Rabs_le_inv in H1. apply Rabs_le_inv in H2.
    assert (U1 : u <= / 4) by (unfold u; lra).
    assert (E1 : u * (E + 1) <= s * (u + 2 * (u * u))).
    { assert ((E + 1) * (1 - u) <= s) by lra. assert (1 <= (1 - u) * (1 + 2 * u)) by nra.
      assert ((E + 1) <= s * (1 + 2 * u)) by nra. nra. }
    assert (E2 : s * (u + 2 * (u * u)) <= s * (X + 1) * (u + 2 * (u * u))) by (assert (0 <= u * u) by nra; nra).
    assert (E3 : 2 * u * X <= 2 * u * (s * (X + 1))) by nra.
    assert (E4 : tiny <= u * u * (s * (X + 1))) by (assert (1 <= s * (X + 1)) by nra; assert (0 <= u * u) by nra; nra).
    apply Rabs_le. nra.
  Qed.
  Lemma num2 E X s : 0 < X -> 0 <= E -> Rabs (E - X) <= 2 * u * X + tiny -> 1 <= s ->
    Rabs (s - (E + 1)) <= u * (E + 1) -> Rabs (E / s - (1 - 1 / (X + 1))) <= 3 * u + u * u * 4.
  Proof.
    intros HX HE H1 Hs H2. pose proof tiny_small as TS. pose proof u_pos as U.
    replace (E / s - (1 - 1 / (X + 1))) with ((E - X + X * (E + 1 - s)) / (s * (X + 1))) by (field; lra).
    apply quot_le; [nra|].
    apply Rabs_le_inv in H1. apply Rabs_le_inv in H2.
    assert (U1 : u <= / 4) by (unfold u; lra).
    assert (E1 : u * (E + 1) <= s * (u + 2 * (u * u))).
    { assert ((E + 1) * (1 - u) <= s) by lra. assert (1 <= (1 - u) * (1 + 2 * u)) by nra.
      assert ((E + 1) <= s * (1 + 2 * u)) by nra. nra. }
    assert (E2 : X * (u * (E + 1)) <= s * (X + 1) * (u + 2 * (u * u))) by (assert (0 <= u * u) by nra; nra).
    assert (E3 : 2 * u * X <= 2 * u * (s * (X + 1))) by nra.
    assert (E4 : tiny <= u * u * (s * (X + 1))) by (assert (1 <= s * (X + 1)) by nra; assert (0 <= u * u) by nra; nra).
    assert (E5 : - (X * (u * (E + 1))) <= X * (E + 1 - s) <= X * (u * (E + 1))) by (split; nra).
    apply Rabs_le. nra.
  Qed.

  (** a quotient in [0, 1] *)
  Lemma div_unit a b : finite a -> 0 <= val a -> 1 <= val b -> val a <= val b ->
    finite (fdiv a b) /\ 0 <= val (fdiv a b) <= 1 /\ Rabs (val (fdiv a b) - val a / val b) <= u + tiny.
  Proof.
    intros Fa Pa Pb L. pose proof big_bound as BB.
    assert (Q : 0 <= val a / val b <= 1).
    { split; [apply Rmult_le_pos; [exact Pa|left; apply Rinv_0_lt_compat; lra]|].
      apply Rmult_le_reg_r with (val b); [lra|]. field_simplify; lra. }
    destruct (div_ok a b Fa) as [A B]; [lra|rewrite Rabs_pos_eq by lra; lra|].
    split; [exact A|]. rewrite B. split.
    - pose proof (rnd_mono _ _ (proj1 Q)). pose proof (rnd_mono _ _ (proj2 Q)). rewrite rnd_0 in *. rewrite rnd_1 in *. lra.
    - pose proof (rnd_error (val a / val b)) as R1. rewrite (Rabs_pos_eq (val a / val b)) in R1 by lra. pose proof u_pos. nra.
  Qed.

  Lemma flt_low x : finite x -> flt x (fneg (flit 30)) = Rlt_bool (val x) (-30).
  Proof. intros. rewrite lt_ok by (try apply fin_neg; auto using fin_30). now rewrite val_neg, val_30. Qed.
  Lemma flt_high x : finite x -> flt (flit 30) x = Rlt_bool 30 (val x).
  Proof. intros. rewrite lt_ok by (auto using fin_30). now rewrite val_30. Qed.

  Lemma fermi_core x : finite x ->
    finite (fermi_at e x) /\ 0 <= val (fermi_at e x) <= 1 /\ Rabs (val (fermi_at e x) - fd (val x)) <= 5 * u.
  Proof.
    intros Fx. unfold fermi_at. rewrite flt_low, flt_high by exact Fx.
    pose proof tiny_small as TS. pose proof u_pos as U. pose proof tiny_pos as TP.
    destruct (Rlt_bool_spec (val x) (-30)) as [H|H].
    - destruct (e_low x Fx ltac:(lra)) as (A & B & C). destruct (one_minus _ A B) as (A' & B' & C').
      split; [exact A'|split; [exact B'|]]. pose proof (exp_m30 (val x) ltac:(lra)) as X. pose proof (exp_pos (val x)) as X0.
      pose proof (fd_tail (- val x)) as T. rewrite Ropp_involutive, fd_neg in T.
      assert (XX : exp (val x) * exp (val x) <= / 1073741824 * / 1073741824) by nra.
      unfold u in *. apply Rabs_le_inv in C, C'. apply Rabs_le. lra.
    - destruct (Rlt_bool_spec 30 (val x)) as [H2|H2].
      + assert (V : val (fneg x) <= -30) by (rewrite val_neg; lra).
        destruct (e_low (fneg x) (fin_neg _ Fx) V) as (A & B & C). split; [exact A|split; [lra|]].
        rewrite val_neg in *. pose proof (exp_m30 (- val x) ltac:(lra)) as X. pose proof (exp_pos (- val x)) as X0.
        pose proof (fd_tail (val x)) as T.
        assert (XX : exp (- val x) * exp (- val x) <= / 1073741824 * / 1073741824) by nra.
        unfold u in *. apply Rabs_le_inv in C. apply Rabs_le. lra.
      + destruct (e_mid x Fx ltac:(lra)) as (A & B & C). destruct (den_ok _ A B) as (A1 & B1 & C1 & D1).
        destruct (div_unit (flit 1) (fadd (e x) (flit 1)) fin_1) as (A2 & B2 & C2); [rewrite val_1; lra|exact B1|rewrite val_1; exact B1|].
        split; [exact A2|split; [exact B2|]]. rewrite val_1 in C2.
        pose proof (num1 _ _ _ (exp_pos (val x)) (proj1 B) C B1 D1) as N. fold (fd (val x)) in N.
        apply Rabs_le_inv in C2, N. assert (u * u <= u * / 1000) by (unfold u; lra). apply Rabs_le. lra.
  Qed.

  Lemma vfermi_core x : finite x ->
    finite (vfermi_at e x) /\ 0 <= val (vfermi_at e x) <= 1 /\ Rabs (val (vfermi_at e x) - (1 - fd (val x))) <= 5 * u.
  Proof.
    intros Fx. unfold vfermi_at. rewrite flt_low, flt_high by exact Fx.
    pose proof tiny_small as TS. pose proof u_pos as U. pose proof tiny_pos as TP.
    destruct (Rlt_bool_spec 30 (val x)) as [H|H].
    - assert (V : val (fneg x) <= -30) by (rewrite val_neg; lra).
      destruct (e_low (fneg x) (fin_neg _ Fx) V) as (A & B & C). destruct (one_minus _ A B) as (A' & B' & C').
      split; [exact A'|split; [exact B'|]]. rewrite val_neg in *. pose proof (exp_m30 (- val x) ltac:(lra)) as X. pose proof (exp_pos (- val x)) as X0.
      pose proof (fd_tail (val x)) as T.
      assert (XX : exp (- val x) * exp (- val x) <= / 1073741824 * / 1073741824) by nra.
      unfold u in *. apply Rabs_le_inv in C, C'. apply Rabs_le. lra.
    - destruct (Rlt_bool_spec (val x) (-30)) as [H2|H2].
      + destruct (e_low x Fx ltac:(lra)) as (A & B & C). split; [exact A|split; [lra|]].
        pose proof (exp_m30 (val x) ltac:(lra)) as X. pose proof (exp_pos (val x)) as X0.
        pose proof (fd_tail (- val x)) as T. rewrite Ropp_involutive, fd_neg in T.
        assert (XX : exp (val x) * exp (val x) <= / 1073741824 * / 1073741824) by nra.
        unfold u in *. apply Rabs_le_inv in C. apply Rabs_le. lra.
      + destruct (e_mid x Fx ltac:(lra)) as (A & B & C). destruct (den_ok _ A B) as (A1 & B1 & C1 & D1).
        destruct (div_unit (e x) (fadd (e x) (flit 1)) A (proj1 B) B1 C1) as (A2 & B2 & C2).
        split; [exact A2|split; [exact B2|]].
        pose proof (num2 _ _ _ (exp_pos (val x)) (proj1 B) C B1 D1) as N. fold (fd (val x)) in N.
        apply Rabs_le_inv in C2, N. assert (u * u <= u * / 1000) by (unfold u; lra). apply Rabs_le. lra.
  Qed.

  (** x = +inf and x = -inf *)
  Lemma fermi_inf s :
    finite (fermi_at e (B754_infinity s)) /\ val (fermi_at e (B754_infinity s)) = if s then 1 else 0.
  Proof.
    destruct He as [_ [A B]]. destruct s.
    - change (fermi_at e (B754_infinity true)) with (fsub (flit 1) (e (B754_infinity true))).
      pose proof big_bound as BB.
      destruct (sub_ok (flit 1) _ fin_1 A) as [C D]; rewrite ?val_1, ?B, ?Rminus_0_r in *; [rewrite Rabs_pos_eq; lra|].
      split; [exact C|]. rewrite D. apply rnd_1.
    - change (fermi_at e (B754_infinity false)) with (e (B754_infinity true)). split; assumption.
  Qed.
  Lemma vfermi_inf s :
    finite (vfermi_at e (B754_infinity s)) /\ val (vfermi_at e (B754_infinity s)) = if s then 0 else 1.
  Proof.
    destruct He as [_ [A B]]. destruct s.
    - change (vfermi_at e (B754_infinity true)) with (e (B754_infinity true)). split; assumption.
    - change (vfermi_at e (B754_infinity false)) with (fsub (flit 1) (e (B754_infinity true))).
      pose proof big_bound as BB.
      destruct (sub_ok (flit 1) _ fin_1 A) as [C D]; rewrite ?val_1, ?B, ?Rminus_0_r in *; [rewrite Rabs_pos_eq; lra|].
      split; [exact C|]. rewrite D. apply rnd_1.
  Qed.
End Core.
