(** From x to the arguments beta, epsilon, mu; a library exp that meets the assumption. *)
From Coq Require Import ZArith Reals List Lra Lia.
From Flocq Require Import Core BinarySingleNaN Relative Plus_error.
From Verif Require Import FloatModel FloatSpec FloatFacts FloatFermi.
Local Open Scope R_scope.

Definition fermi_x (beta epsilon mu : b64) : b64 := fmul beta (fsub epsilon mu).
Lemma fermi_at_eq e beta epsilon mu : fermi_function64 e beta epsilon mu = fermi_at e (fermi_x beta epsilon mu).
Proof. reflexivity. Qed.
Lemma vfermi_at_eq e beta epsilon mu : vfermi_function64 e beta epsilon mu = vfermi_at e (fermi_x beta epsilon mu).
Proof. reflexivity. Qed.

Lemma sub_rel a b : finite a -> finite b -> exists d, Rabs d <= u /\ rnd (val a - val b) = (val a - val b) * (1 + d).
Proof.
  intros Fa Fb. unfold rnd. rewrite fexp_FLT.
  destruct (FLT_plus_error_N_ex radix2 (-1074) 53 (fun x => negb (Z.even x)) (val a) (- val b)) as (d & Hd & E).
  - apply (generic_format_B2R 53 1024).
  - apply generic_format_opp. apply (generic_format_B2R 53 1024).
  - exists d. split; [|exact E]. eapply Rle_trans; [exact Hd|].
    eapply Rle_trans; [apply u_rod1pu_ro_le_u_ro|]. unfold u_ro, u. simpl. lra.
Qed.

Lemma sign_pos x : 0 < val x -> Bsign x = false.
Proof.
  destruct x as [s|s| |s m ex B]; simpl; try lra. destruct s; [|reflexivity].
  intros H. exfalso. revert H. apply Rle_not_lt. left. apply F2R_lt_0. reflexivity.
Qed.
Lemma sign_neg x : val x < 0 -> Bsign x = true.
Proof.
  destruct x as [s|s| |s m ex B]; simpl; try lra. destruct s; [reflexivity|].
  intros H. exfalso. revert H. apply Rle_not_lt. left. apply F2R_gt_0. reflexivity.
Qed.
Lemma inf_eq (x : b64) s : B2SF x = SpecFloat.S754_infinity s -> x = B754_infinity s.
Proof. destruct x; simpl; intros H; try discriminate. congruence. Qed.

Lemma mul_cases a b : finite a -> finite b ->
  (finite (fmul a b) /\ val (fmul a b) = rnd (val a * val b)) \/
  (exists s, fmul a b = B754_infinity s /\ bpow radix2 1023 < Rabs (val a * val b) /\
     (if s then val a * val b < 0 else 0 < val a * val b)).
Proof.
  intros Fa Fb. destruct (Rle_lt_dec (Rabs (val a * val b)) (bpow radix2 1023)) as [H|H]; [left; apply mul_ok; assumption|].
  pose proof (Bmult_correct 53 1024 _ _ mode_NE a b) as P.
  destruct (Rlt_bool_spec (Rabs (round radix2 (SpecFloat.fexp 53 1024) (round_mode mode_NE) (B2R a * B2R b))) (bpow radix2 1024)) as [L|L].
  - left. destruct P as (A & B & _). split; [|exact A]. unfold finite in *. unfold fmul. rewrite B, Fa, Fb. reflexivity.
  - right. exists (xorb (Bsign a) (Bsign b)). split; [apply inf_eq; exact P|]. split; [exact H|].
    assert (NZ : val a * val b <> 0).
    { intros E. rewrite E, Rabs_R0 in H. pose proof (bpow_gt_0 radix2 1023). lra. }
    assert (Na : val a <> 0) by (intros E; rewrite E in NZ; lra).
    assert (Nb : val b <> 0) by (intros E; rewrite E in NZ; lra).
    destruct (Rlt_le_dec (val a) 0) as [A|A]; [rewrite (sign_neg a A)|rewrite (sign_pos a) by lra];
    (destruct (Rlt_le_dec (val b) 0) as [B|B]; [rewrite (sign_neg b B)|rewrite (sign_pos b) by lra]); simpl; nra.
Qed.

(** x against the exact product *)
Lemma x_cases beta epsilon mu : finite beta -> finite epsilon -> finite mu ->
  Rabs (val epsilon - val mu) <= bpow radix2 1023 ->
  let a := val beta * (val epsilon - val mu) in
  let x := fermi_x beta epsilon mu in
  (finite x /\ exists t h, Rabs t <= 3 * u /\ Rabs h <= tiny /\ val x = a * (1 + t) + h) \/
  (exists s, x = B754_infinity s /\ 60 <= Rabs a /\ (if s then a < 0 else 0 < a)).
Proof.
  intros Fb Fe Fm H. cbv zeta. unfold fermi_x.
  destruct (sub_ok epsilon mu Fe Fm H) as [F1 V1]. destruct (sub_rel epsilon mu Fe Fm) as (d & Hd & E). rewrite E in V1.
  pose proof u_pos as U. assert (US : u <= / 1000) by (unfold u; lra). pose proof (Rabs_le_inv _ _ Hd) as Hd'.
  destruct (mul_cases beta _ Fb F1) as [[F2 V2]|(s & E2 & B2 & S2)].
  - left. split; [exact F2|]. pose proof (rnd_error (val beta * val (fsub epsilon mu))) as R1.
    rewrite V2. set (y := val beta * val (fsub epsilon mu)) in *.
    assert (exists t2 h, Rabs t2 <= u /\ Rabs h <= tiny /\ rnd y = y * (1 + t2) + h) as (t2 & h & T2 & Hh & Ey).
    { destruct (error_N_FLT radix2 (-1074) 53 eq_refl (fun x => negb (Z.even x)) y) as (t & h & Ht & Hh & _ & Hx).
      exists t, h. split; [|split]; [| |exact Hx].
      - eapply Rle_trans; [exact Ht|]. apply Req_le. simpl. unfold u. lra.
      - assert (Hh' : Rabs h <= / 2 * tiny) by (rewrite <- bpow_tiny; exact Hh). pose proof tiny_pos. lra. }
    exists (d + t2 + d * t2), h. apply Rabs_le_inv in T2. split; [|split; [exact Hh|]].
    + apply Rabs_le. assert (- (u * u) <= d * t2 <= u * u) by nra. nra.
    + rewrite Ey. unfold y. rewrite V1. ring.
  - right. exists s. split; [exact E2|]. rewrite V1 in B2, S2.
    set (a := val beta * (val epsilon - val mu)) in *.
    replace (val beta * ((val epsilon - val mu) * (1 + d))) with (a * (1 + d)) in * by (unfold a; ring).
    split.
    + rewrite Rabs_mult, (Rabs_pos_eq (1 + d)) in B2 by lra. pose proof big_bound as BB. pose proof (Rabs_pos a). nra.
    + destruct s; nra.
Qed.

Section Final.
  Variable e : b64 -> b64.
  Hypothesis He : good_exp e.
  Variables beta epsilon mu : b64.
  Hypothesis Fb : finite beta.
  Hypothesis Fe : finite epsilon.
  Hypothesis Fm : finite mu.

  Lemma fd_far a : 60 <= Rabs a -> if Rlt_bool a 0 then 0 <= 1 - fd a <= u else 0 <= fd a <= u.
  Proof.
    intros H. pose proof (fd_bounds a). assert (P : forall b, 60 <= b -> fd b <= u).
    { intros b Hb. eapply Rle_trans; [apply fd_upper|].
      apply Rle_trans with (exp (- INR 60)).
      - destruct Hb as [Hb|<-]; [left; apply exp_increasing; simpl; lra|]. apply Req_le. f_equal. simpl. lra.
      - eapply Rle_trans; [apply exp_nat|]. unfold u. lra. }
    destruct (Rlt_bool_spec a 0) as [L|L].
    - rewrite Rabs_left in H by exact L. pose proof (P (- a) H) as Q. rewrite fd_neg in Q. lra.
    - rewrite Rabs_pos_eq in H by exact L. pose proof (P a H). lra.
  Qed.

  Lemma fd_x a t h : Rabs t <= 3 * u -> Rabs h <= tiny -> Rabs (fd (a * (1 + t) + h) - fd a) <= 7 * u.
  Proof.
    intros Ht Hh. pose proof u_pos. pose proof tiny_small. assert (US : u <= / 1000) by (unfold u; lra).
    pose proof (fd_lip (a * (1 + t) + h) (a * (1 + t))) as L.
    replace (a * (1 + t) + h - a * (1 + t)) with h in L by ring.
    pose proof (fd_scale a t ltac:(lra)) as S.
    replace (fd (a * (1 + t) + h) - fd a) with ((fd (a * (1 + t) + h) - fd (a * (1 + t))) + (fd (a * (1 + t)) - fd a)) by ring.
    eapply Rle_trans; [apply Rabs_triang|]. nra.
  Qed.

  Hypothesis Hd : Rabs (val epsilon - val mu) <= bpow radix2 1023.

  Lemma fermi_accurate :
    Rabs (val (fermi_function64 e beta epsilon mu) - fd (val beta * (val epsilon - val mu))) <= 12 * u.
  Proof.
    rewrite fermi_at_eq. pose proof u_pos.
    destruct (x_cases beta epsilon mu Fb Fe Fm Hd) as [[Fx (t & h & Ht & Hh & E)]|(s & E & B & S)].
    - destruct (fermi_core e He _ Fx) as (_ & _ & C). rewrite E in C. pose proof (fd_x (val beta * (val epsilon - val mu)) t h Ht Hh) as D.
      apply Rabs_le_inv in C, D. apply Rabs_le. lra.
    - rewrite E. destruct (fermi_inf e He s) as [_ ->]. pose proof (fd_far _ B) as F.
      destruct s; [rewrite Rlt_bool_true in F by lra|rewrite Rlt_bool_false in F by lra]; apply Rabs_le; lra.
  Qed.
  Lemma vfermi_accurate :
    Rabs (val (vfermi_function64 e beta epsilon mu) - (1 - fd (val beta * (val epsilon - val mu)))) <= 12 * u.
  Proof.
    rewrite vfermi_at_eq. pose proof u_pos.
    destruct (x_cases beta epsilon mu Fb Fe Fm Hd) as [[Fx (t & h & Ht & Hh & E)]|(s & E & B & S)].
    - destruct (vfermi_core e He _ Fx) as (_ & _ & C). rewrite E in C. pose proof (fd_x (val beta * (val epsilon - val mu)) t h Ht Hh) as D.
      apply Rabs_le_inv in C, D. apply Rabs_le. lra.
    - rewrite E. destruct (vfermi_inf e He s) as [_ ->]. pose proof (fd_far _ B) as F.
      destruct s; [rewrite Rlt_bool_true in F by lra|rewrite Rlt_bool_false in F by lra]; apply Rabs_le; lra.
  Qed.
End Final.

(** *** x is a number unless 0 * inf *)
Lemma x_number beta epsilon mu : finite beta -> finite epsilon -> finite mu ->
  val beta <> 0 \/ Rabs (val epsilon - val mu) <= bpow radix2 1023 ->
  finite (fermi_x beta epsilon mu) \/ exists s, fermi_x beta epsilon mu = B754_infinity s.
Proof.
  intros Fb Fe Fm H.
  destruct (Rle_lt_dec (Rabs (val epsilon - val mu)) (bpow radix2 1023)) as [L|L].
  - destruct (x_cases beta epsilon mu Fb Fe Fm L) as [[A _]|(s & A & _)]; [left; exact A|right; exists s; exact A].
  - assert (NB : val beta <> 0) by (destruct H as [H|H]; [exact H|lra]).
    unfold fermi_x. pose proof (Bminus_correct 53 1024 _ _ mode_NE epsilon mu Fe Fm) as P.
    destruct (Rlt_bool_spec (Rabs (round radix2 (SpecFloat.fexp 53 1024) (round_mode mode_NE) (B2R epsilon - B2R mu))) (bpow radix2 1024)) as [M|M].
    + destruct P as (_ & A & _). destruct (mul_cases beta _ Fb A) as [[B _]|(s & B & _)]; [left; exact B|right; exists s; exact B].
    + destruct P as [A _]. apply inf_eq in A. unfold fsub. rewrite A.
      destruct beta as [sb|sb| |sb mb eb Bb]; simpl in NB; try (exfalso; lra). right. eexists. reflexivity.
Qed.

Lemma fermi_in_range e beta epsilon mu : good_exp e -> finite beta -> finite epsilon -> finite mu ->
  val beta <> 0 \/ Rabs (val epsilon - val mu) <= bpow radix2 1023 ->
  (finite (fermi_function64 e beta epsilon mu) /\ 0 <= val (fermi_function64 e beta epsilon mu) <= 1) /\
  (finite (vfermi_function64 e beta epsilon mu) /\ 0 <= val (vfermi_function64 e beta epsilon mu) <= 1).
Proof.
  intros He Fb Fe Fm H. rewrite fermi_at_eq, vfermi_at_eq.
  destruct (x_number beta epsilon mu Fb Fe Fm H) as [F|[s ->]].
  - destruct (fermi_core e He _ F) as (A & B & _). destruct (vfermi_core e He _ F) as (C & D & _). auto.
  - destruct (fermi_inf e He s) as [A ->]. destruct (vfermi_inf e He s) as [C ->].
    repeat split; try assumption; destruct s; lra.
Qed.

(** *** a correctly rounded exponential *)
Definition round_to (y : R) : b64 :=
  binary_normalize 53 1024 _ _ mode_NE (ZnearestE (scaled_mantissa radix2 (SpecFloat.fexp 53 1024) y))
    (cexp radix2 (SpecFloat.fexp 53 1024) y) false.
Lemma round_to_ok y : Rabs y <= bpow radix2 1023 -> finite (round_to y) /\ val (round_to y) = rnd y.
Proof.
  intros H. pose proof (binary_normalize_correct 53 1024 _ _ mode_NE
    (ZnearestE (scaled_mantissa radix2 (SpecFloat.fexp 53 1024) y)) (cexp radix2 (SpecFloat.fexp 53 1024) y) false) as P.
  cbv zeta in P. change (round_mode mode_NE) with ZnearestE in P.
  change (F2R _) with (rnd y) in P.
  assert (G : round radix2 (SpecFloat.fexp 53 1024) ZnearestE (rnd y) = rnd y).
  { apply round_generic; auto with typeclass_instances. apply generic_format_round; auto with typeclass_instances. }
  rewrite G in P. rewrite Rlt_bool_true in P by (apply rnd_range; exact H). split; apply P.
Qed.
Definition exact_exp (x : b64) : b64 :=
  match x with B754_infinity true => flit 0 | _ => round_to (exp (val x)) end.
Definition exact_log (x : b64) : b64 := round_to (ln (val x)).

Lemma good_exact_exp : good_exp exact_exp.
Proof.
  split.
  - intros x Fx Hx. assert (E : exact_exp x = round_to (exp (val x))) by (destruct x as [s|s| |s m ex B]; try reflexivity; discriminate).
    rewrite E. assert (B : Rabs (exp (val x)) <= bpow radix2 1023).
    { rewrite Rabs_pos_eq by (left; apply exp_pos).
      apply Rle_trans with (exp (INR 600)); [|eapply Rle_trans; [apply exp_3n|]].
      - rewrite INR_IZR_INZ. change (Z.of_nat 600) with 600%Z. destruct Hx as [Hx| ->]; [left; apply exp_increasing; exact Hx|lra].
      - rewrite <- (IZR_Zpower radix2) by lia. rewrite pow_IZR. apply IZR_le.
        apply Zle_bool_imp_le. vm_compute. reflexivity. }
    destruct (round_to_ok _ B) as [A V]. split; [exact A|]. rewrite V. split.
    + rewrite <- rnd_0. apply rnd_mono. left. apply exp_pos.
    + eapply Rle_trans; [apply rnd_error|]. rewrite Rabs_pos_eq by (left; apply exp_pos). rewrite pow52.
      fold tiny. pose proof u_pos. pose proof (exp_pos (val x)). nra.
  - simpl. destruct (flit_ok 0 ltac:(lia)) as [A V]. split; assumption.
Qed.
