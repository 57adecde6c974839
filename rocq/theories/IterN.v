(** Convergence of the iteration for any family of blocks of amplitudes. *)
From Coq Require Import List Bool Arith Lia Reals Lra.
From Verif Require Import Scalar Tensor RoundSpec UtilsModel CCSpec CovSpec RespReal IterSpec Banach Iter.
Import ListNotations.
Local Open Scope R_scope.

Section SolveN.
  Notation T := (tensor RK).
  Variable Bk : Type.
  Variable sh : Bk -> list nat.
  Variable d : Bk -> T.
  Variable g : R.
  Variable okT : (Bk -> T) -> Prop.
  (** residuals without and with the orbital energies in the Fock matrix *)
  Variables rf rfull : (Bk -> T) -> Bk -> T.
  Hypothesis g0 : 0 < g.
  Hypothesis dg : forall b idx, inrange (sh b) idx -> g <= dat (d b) idx.
  Hypothesis ok_sh : forall t, okT t -> forall b, shp (t b) = sh b.
  Hypothesis ok_ext : forall t t', okT t -> (forall b, teq (t b) (t' b)) -> okT t'.
  Hypothesis ok0 : okT (fun b => tzeros RK (sh b)).
  Hypothesis ok_tends : forall y t, (forall k : nat, okT (y k)) -> (forall b, tends (sh b) (fun k => y k b) (t b)) -> okT t.
  Hypothesis ok_step : forall t t', okT t -> (forall b, quotient (sh b) (rf t b) (d b) (t' b)) -> okT t'.
  Hypothesis rf_lip : forall t t' e, okT t -> okT t' -> (forall b, at_most 1 (t b)) -> (forall b, at_most 1 (t' b)) ->
    0 <= e -> (forall b, differ e (t b) (t' b)) ->
    forall b idx, inrange (sh b) idx -> Rabs (dat (rf t b) idx) <= g / 2 /\ Rabs (dat (rf t b) idx - dat (rf t' b) idx) <= g / 2 * e.
  Hypothesis rf_full : forall t, okT t -> forall b idx, inrange (sh b) idx ->
    dat (rfull t b) idx = dat (rf t b) idx + dat (d b) idx * dat (t b) idx.

  Notation P := (Bk * list nat)%type.
  Definition An (x : P -> R) (b : Bk) : T := @mkT RK (sh b) (fun idx => x (b, idx)).
  Definition okn (x : P -> R) : Prop := okT (An x).
  Definition Phin (x : P -> R) (p : P) : R :=
    if inrange_dec (sh (fst p)) (snd p) then - (dat (rf (An x) (fst p)) (snd p) / dat (d (fst p)) (snd p)) else 0.
  Lemma bound_divn r e b : g <= e -> Rabs r <= g * b -> Rabs (- (r / e)) <= b.
  Proof. exact (bound_div g g0 r e b). Qed.
  Lemma ball_atn x : ball P 1 x -> forall b, at_most 1 (An x b).
  Proof. intros H b idx _. apply H. Qed.
  Lemma dist_atn x y e : dist P e x y -> forall b, differ e (An x b) (An y b).
  Proof. intros H b. split; [reflexivity|]. intros idx _. apply H. Qed.
  Lemma okn0 : okn (fun _ => 0).
  Proof. exact ok0. Qed.
  Lemma okn_lim (y : nat -> P -> R) x : (forall k, okn (y k)) -> (forall p, Un_cv (fun k => y k p) (x p)) -> okn x.
  Proof. intros H C. apply (ok_tends (fun k => An (y k))); [exact H|]. intros b. split; [reflexivity|]. intros idx _. apply C. Qed.
  Lemma Phin_q x b : quotient (sh b) (rf (An x) b) (d b) (An (Phin x) b).
  Proof. split; [reflexivity|]. intros idx Hi. cbn [An dat]. unfold Phin. cbn [fst snd]. destruct (inrange_dec (sh b) idx); [reflexivity|contradiction]. Qed.
  Lemma Phin_ok x : okn x -> ball P 1 x -> okn (Phin x) /\ ball P (1 / 2) (Phin x).
  Proof.
    intros O1 B1. pose proof (ball_atn _ B1) as Ba. split.
    - exact (ok_step _ _ O1 (Phin_q x)).
    - intros [b idx]. unfold Phin. cbn [fst snd].
      destruct (inrange_dec (sh b) idx) as [Hi|Hi]; [|rewrite Rabs_R0; lra].
      apply bound_divn; [apply dg, Hi|].
      destruct (rf_lip _ _ 0 O1 O1 Ba Ba (Rle_refl 0) (fun b => differ_refl _) b idx Hi) as (H & _). lra.
  Qed.
  Lemma Phin_half x y e : okn x -> okn y -> ball P 1 x -> ball P 1 y -> 0 <= e -> dist P e x y -> dist P (e / 2) (Phin x) (Phin y).
  Proof.
    intros O1 O2 B1 B2 He H [b idx]. unfold Phin. cbn [fst snd].
    destruct (inrange_dec (sh b) idx) as [Hi|Hi]; [|replace (0 - 0) with 0 by ring; rewrite Rabs_R0; lra].
    replace (- _ - - _) with (- ((dat (rf (An x) b) idx - dat (rf (An y) b) idx) / dat (d b) idx)) by (unfold Rdiv; ring).
    apply bound_divn; [apply dg, Hi|].
    destruct (rf_lip _ _ e O1 O2 (ball_atn _ B1) (ball_atn _ B2) He (dist_atn _ _ _ H) b idx Hi) as (_ & G). lra.
  Qed.

  Notation it := (iter P Phin).
  Notation lm := (lim P okn Phin okn0 Phin_ok Phin_half).

  Definition passn (t t' : Bk -> T) : Prop := forall b, divided_step (t b) (rfull t b) (d b) (t' b).
  Lemma passn_Phi x t t' : okn x -> ball P 1 x -> (forall b, teq (An x b) (t b)) -> passn t t' -> forall b, teq (An (Phin x) b) (t' b).
  Proof.
    intros O1 B1 E1 Hp b. destruct (Hp b) as (S1 & Q1).
    assert (Ot : okT t) by exact (ok_ext _ _ O1 E1).
    pose proof (ball_atn _ B1) as Ba. pose proof (ok_sh _ Ot b) as St.
    split; [cbn [An shp]; congruence|]. intros idx Hi. cbn [An shp] in Hi. rewrite St in Q1.
    pose proof (rf_lip _ _ 0 O1 Ot Ba (fun c => at_most_teq _ _ _ (E1 c) (Ba c)) (Rle_refl 0) (fun c => teq_differ _ _ (E1 c)) b idx Hi) as (_ & L).
    rewrite (Q1 idx Hi), (rf_full t Ot b idx Hi), step_div by (pose proof (dg b idx Hi); lra).
    rewrite (proj2 (Phin_q x b) idx Hi). rewrite (near0 _ _ _ L). reflexivity.
  Qed.
  Lemma Phi_passn x : okn x -> passn (An x) (An (Phin x)).
  Proof.
    intros O1 b. split; [reflexivity|]. intros idx Hi. cbn [An shp] in Hi.
    rewrite (rf_full _ O1 b idx Hi), step_div by (pose proof (dg b idx Hi); lra). exact (proj2 (Phin_q x b) idx Hi).
  Qed.

  Definition historyn (t : nat -> Bk -> T) : Prop := (forall b, t 0%nat b = tzeros RK (sh b)) /\ forall k, passn (t k) (t (S k)).
  Lemma historyn_it t : historyn t -> forall k b, teq (An (it k) b) (t k b).
  Proof.
    intros (H1 & H) k. induction k as [|k E1]; intros b.
    - rewrite H1. split; [reflexivity|]. intros; reflexivity.
    - cbn [iter]. apply passn_Phi with (t k); try assumption; [|apply (iter_ball P okn Phin okn0 Phin_ok)|apply H].
      apply (iter_ok P okn Phin okn0 Phin_ok).
  Qed.
  Definition zeron (t : Bk -> T) : Prop := forall b idx, inrange (sh b) idx -> dat (rfull t b) idx = 0.
  Definition cutn (t : Bk -> T) (p : P) : R := if inrange_dec (sh (fst p)) (snd p) then dat (t (fst p)) (snd p) else 0.
  Lemma cutn_eq t b : shp (t b) = sh b -> teq (An (cutn t) b) (t b).
  Proof. intros S. split; [symmetry; exact S|]. intros idx Hi. cbn [An shp dat] in *. unfold cutn. cbn [fst snd]. destruct (inrange_dec (sh b) idx); [reflexivity|contradiction]. Qed.

  Theorem solven : exists t, okT t /\ (forall b, at_most (1 / 2) (t b)) /\ zeron t /\
    (forall t', okT t' -> (forall b, at_most 1 (t' b)) -> zeron t' -> forall b, teq (t' b) (t b)) /\
    (exists y, historyn y /\ forall k, okT (y k)) /\
    (forall y, historyn y -> forall k b, differ ((1 / 2) ^ k) (y k b) (t b)).
  Proof.
    pose proof (lim_ok P okn Phin okn0 okn_lim Phin_ok Phin_half) as Lo.
    pose proof (lim_ball P okn Phin okn0 Phin_ok Phin_half) as Lb.
    pose proof (lim_fixed P okn Phin okn0 okn_lim Phin_ok Phin_half) as Lf.
    exists (An lm). split; [exact Lo|]. split; [intros b idx _; apply Lb|]. split; [|split; [|split]].
    - intros b idx Hi. rewrite (rf_full _ Lo b idx Hi). apply solution_quot; [pose proof (dg b idx Hi); lra|].
      rewrite <- (proj2 (Phin_q lm b) idx Hi). apply Lf.
    - intros t O1 B1 Z1.
      pose proof (fun b => cutn_eq t b (ok_sh _ O1 b)) as C1.
      set (x := cutn t) in *.
      assert (Ox : okn x) by exact (ok_ext _ _ O1 (fun b => teq_s _ _ (C1 b))).
      assert (Bx : ball P 1 x).
      { intros [b idx]. unfold x, cutn. cbn [fst snd].
        destruct (inrange_dec (sh b) idx) as [Hi|Hi]; [apply B1; rewrite (ok_sh _ O1 b); exact Hi|rewrite Rabs_R0; lra]. }
      assert (Fx : forall p, Phin x p = x p).
      { intros [b idx]. unfold Phin. cbn [fst snd].
        destruct (inrange_dec (sh b) idx) as [Hi|Hi].
        - destruct (rf_lip _ _ 0 Ox O1 (ball_atn _ Bx) B1 (Rle_refl 0) (fun c => teq_differ _ _ (C1 c)) b idx Hi) as (_ & L).
          rewrite (near0 _ _ _ L). unfold x, cutn. cbn [fst snd]. destruct (inrange_dec (sh b) idx); [|contradiction].
          apply solution_quot; [pose proof (dg b idx Hi); lra|]. rewrite <- (rf_full t O1 b idx Hi). apply Z1, Hi.
        - unfold x, cutn. cbn [fst snd]. destruct (inrange_dec (sh b) idx); [contradiction|reflexivity]. }
      pose proof (lim_unique P okn Phin okn0 Phin_ok Phin_half x Ox Bx Fx) as U.
      intros b. pose proof (ok_sh _ O1 b) as S1. split; [exact S1|]. intros idx Hi.
      rewrite <- (proj2 (C1 b) idx) by (rewrite S1 in Hi; exact Hi). apply U.
    - exists (fun k => An (it k)). split; [split; [reflexivity|]; intros k; cbn [iter]; apply Phi_passn|intros k];
      apply (iter_ok P okn Phin okn0 Phin_ok).
    - intros y H k b. destruct (historyn_it y H k b) as (S1 & E1).
      pose proof (lim_near P okn Phin okn0 Phin_ok Phin_half k) as N.
      split; [symmetry; assumption|]. intros idx Hi.
      rewrite <- S1 in Hi. rewrite <- (E1 idx Hi). apply N.
  Qed.
End SolveN.
