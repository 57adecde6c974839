(** Facts about the double precision model of ft_utils.py. *)
From Coq Require Import ZArith Reals List Lra Lia.
From Flocq Require Import Core BinarySingleNaN Relative Plus_error.
From Verif Require Import FloatModel FloatSpec.
Local Open Scope R_scope.

Definition rnd (x : R) : R := round radix2 (SpecFloat.fexp 53 1024) ZnearestE x.
Definition u : R := / 9007199254740992.          (* 2^-53 *)
Definition tiny : R := / 2 ^ 1074.

Lemma fexp_FLT : SpecFloat.fexp 53 1024 = FLT_exp (-1074) 53.
Proof. reflexivity. Qed.
#[global] Instance vexp : Valid_exp (SpecFloat.fexp 53 1024).
Proof. rewrite fexp_FLT. apply FLT_exp_valid. exact prec_pos. Qed.

Lemma bpow_u : bpow radix2 (-53) = u.
Proof. unfold u. simpl. f_equal. Qed.
Lemma bpow_pow n : bpow radix2 (Z.of_nat n) = 2 ^ n.
Proof.
  rewrite <- (IZR_Zpower radix2) by lia.
  rewrite pow_IZR. f_equal.
Qed.
Lemma bpow_neg n : bpow radix2 (- Z.of_nat n) = / 2 ^ n.
Proof. rewrite bpow_opp. f_equal. apply bpow_pow. Qed.
Lemma bpow_tiny : bpow radix2 (-1074) = tiny.
Proof. exact (bpow_neg 1074). Qed.
Lemma pow52 : / 2 ^ 52 = 2 * u.
Proof. unfold u. lra. Qed.
Lemma u_pos : 0 < u. Proof. unfold u. lra. Qed.
Lemma tiny_pos : 0 < tiny.
Proof. rewrite <- bpow_tiny. apply bpow_gt_0. Qed.
Lemma tiny_small : tiny <= u * u.
Proof.
  rewrite <- bpow_tiny, <- bpow_u, <- bpow_plus. apply bpow_le. lia.
Qed.

(** *** rounding *)
Lemma rnd_error x : Rabs (rnd x - x) <= u * Rabs x + tiny.
Proof.
  destruct (error_N_FLT radix2 (-1074) 53 eq_refl (fun x => negb (Z.even x)) x) as (e & t & He & Ht & _ & Hx).
  unfold rnd. rewrite fexp_FLT. rewrite Hx.
  replace (x * (1 + e) + t - x) with (x * e + t) by ring.
  eapply Rle_trans; [apply Rabs_triang|]. rewrite Rabs_mult.
  assert (Hu : Rabs e <= u).
  { eapply Rle_trans; [exact He|]. apply Req_le. simpl. unfold u. lra. }
  assert (Ht' : Rabs t <= / 2 * tiny) by (rewrite <- bpow_tiny; exact Ht). pose proof tiny_pos.
  pose proof (Rabs_pos x). nra.
Qed.
(** no absolute error above 1 *)
Lemma rnd_error1 x : 1 <= Rabs x -> Rabs (rnd x - x) <= u * Rabs x.
Proof.
  intros Hx. unfold rnd. rewrite fexp_FLT.
  eapply Rle_trans; [apply (relative_error_N_FLT radix2 (-1074) 53 eq_refl (fun x => negb (Z.even x)))|].
  - eapply Rle_trans; [|exact Hx]. change 1 with (bpow radix2 0). apply bpow_le. lia.
  - apply Req_le. f_equal. simpl. unfold u. lra.
Qed.

Lemma rnd_mono x y : x <= y -> rnd x <= rnd y.
Proof. intros. unfold rnd. apply round_le; auto with typeclass_instances. Qed.
Lemma rnd_id (x : b64) : rnd (B2R x) = B2R x.
Proof. unfold rnd. apply round_generic; auto with typeclass_instances. apply generic_format_B2R. Qed.
Lemma rnd_bpow e : (-1000 <= e)%Z -> rnd (bpow radix2 e) = bpow radix2 e.
Proof.
  intros. unfold rnd. apply round_generic; auto with typeclass_instances.
  apply generic_format_bpow. rewrite fexp_FLT. unfold FLT_exp. lia.
Qed.
Lemma rnd_0 : rnd 0 = 0.
Proof. unfold rnd. apply round_0; auto with typeclass_instances. Qed.
Lemma rnd_1 : rnd 1 = 1.
Proof. apply (rnd_bpow 0). lia. Qed.
Lemma rnd_opp x : rnd (- x) = - rnd x.
Proof. unfold rnd. apply round_NE_opp. Qed.

Lemma rnd_range x : Rabs x <= bpow radix2 1023 -> Rabs (rnd x) < bpow radix2 1024.
Proof.
  intros H. apply Rle_lt_trans with (bpow radix2 1023); [|apply bpow_lt; lia].
  apply Rabs_le. assert (- bpow radix2 1023 <= x <= bpow radix2 1023) as [A B] by (revert H; unfold Rabs; destruct Rcase_abs; lra).
  apply rnd_mono in A. apply rnd_mono in B. rewrite rnd_opp in A. rewrite rnd_bpow in A, B by lia. lra.
Qed.

(** *** the operations *)
Lemma flit_ok z : (Z.abs z <= 2 ^ 53)%Z -> finite (flit z) /\ val (flit z) = IZR z.
Proof.
  intros Hz. pose proof (binary_normalize_correct 53 1024 _ _ mode_NE z 0 false) as H.
  cbv zeta in H. change (round_mode mode_NE) with ZnearestE in H.
  replace (F2R {| Fnum := z; Fexp := 0 |}) with (IZR z) in H by (unfold F2R; simpl; ring).
  assert (G : round radix2 (SpecFloat.fexp 53 1024) ZnearestE (IZR z) = IZR z).
  { apply round_generic; auto with typeclass_instances. rewrite fexp_FLT.
    destruct (Z.eq_dec (Z.abs z) (2 ^ 53)) as [E|E].
    - assert (z = 2 ^ 53 \/ z = - 2 ^ 53)%Z as [-> | ->] by lia.
      + change (IZR (2 ^ 53)) with (bpow radix2 53). apply generic_format_bpow. unfold FLT_exp; lia.
      + change (IZR (- 2 ^ 53)) with (- (bpow radix2 53)). apply generic_format_opp. apply generic_format_bpow. unfold FLT_exp; lia.
    - apply generic_format_FLT. exists (Float radix2 z 0); [unfold F2R; simpl; ring|simpl; lia|simpl; lia]. }
  rewrite G in H. rewrite Rlt_bool_true in H.
  - destruct H as (A & B & _). split; assumption.
  - apply Rle_lt_trans with (bpow radix2 53); [|apply bpow_lt; lia].
    rewrite <- abs_IZR. change (bpow radix2 53) with (IZR (2 ^ 53)). apply IZR_le. exact Hz.
Qed.
Lemma val_1 : val (flit 1) = 1. Proof. apply flit_ok. lia. Qed.
Lemma fin_1 : finite (flit 1). Proof. apply flit_ok. lia. Qed.
Lemma val_30 : val (flit 30) = 30. Proof. apply flit_ok. lia. Qed.
Lemma fin_30 : finite (flit 30). Proof. apply flit_ok. lia. Qed.
Lemma val_20 : val (flit 20) = 20. Proof. apply flit_ok. lia. Qed.
Lemma fin_20 : finite (flit 20). Proof. apply flit_ok. lia. Qed.
Lemma fin_neg x : finite x -> finite (fneg x).
Proof. unfold finite, fneg. now rewrite is_finite_Bopp. Qed.
Lemma val_neg x : val (fneg x) = - val x. Proof. apply B2R_Bopp. Qed.

Lemma add_ok a b : finite a -> finite b -> Rabs (val a + val b) <= bpow radix2 1023 ->
  finite (fadd a b) /\ val (fadd a b) = rnd (val a + val b).
Proof.
  intros Fa Fb H. pose proof (Bplus_correct 53 1024 _ _ mode_NE a b Fa Fb) as P.
  rewrite Rlt_bool_true in P; [|exact (rnd_range _ H)]. split; apply P.
Qed.
Lemma sub_ok a b : finite a -> finite b -> Rabs (val a - val b) <= bpow radix2 1023 ->
  finite (fsub a b) /\ val (fsub a b) = rnd (val a - val b).
Proof.
  intros Fa Fb H. pose proof (Bminus_correct 53 1024 _ _ mode_NE a b Fa Fb) as P.
  rewrite Rlt_bool_true in P; [|exact (rnd_range _ H)]. split; apply P.
Qed.
Lemma mul_ok a b : finite a -> finite b -> Rabs (val a * val b) <= bpow radix2 1023 ->
  finite (fmul a b) /\ val (fmul a b) = rnd (val a * val b).
Proof.
  intros Fa Fb H. pose proof (Bmult_correct 53 1024 _ _ mode_NE a b) as P.
  rewrite Rlt_bool_true in P; [|exact (rnd_range _ H)]. destruct P as (A & B & _).
  split; [|exact A]. unfold finite in *. unfold fmul. rewrite B, Fa, Fb. reflexivity.
Qed.
Lemma div_ok a b : finite a -> val b <> 0 -> Rabs (val a / val b) <= bpow radix2 1023 ->
  finite (fdiv a b) /\ val (fdiv a b) = rnd (val a / val b).
Proof.
  intros Fa Fb H. pose proof (Bdiv_correct 53 1024 _ _ mode_NE a b Fb) as P.
  rewrite Rlt_bool_true in P; [|exact (rnd_range _ H)]. destruct P as (A & B & _).
  split; [|exact A]. unfold finite in *. unfold fdiv. rewrite B, Fa. reflexivity.
Qed.
Lemma lt_ok a b : finite a -> finite b -> flt a b = Rlt_bool (val a) (val b).
Proof. apply Bltb_correct. Qed.
