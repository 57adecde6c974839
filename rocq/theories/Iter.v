(** Convergence of the iteration for two blocks of amplitudes. *)
From Coq Require Import List Bool Arith Lia Reals Lra.
From Verif Require Import Scalar Tensor RoundSpec UtilsModel CCSpec CovSpec RespReal IterSpec Banach.
Import ListNotations.
Local Open Scope R_scope.

Section Solve.
  Notation T := (tensor RK).
  Variables sh1 sh2 : list nat.
  Variables d1 d2 : T.
  Variable g : R.
  Variable okT : T -> T -> Prop.
  (** residuals without and with the orbital energies in the Fock matrix *)
  Variables rf rfull : T -> T -> T * T.
  Hypothesis g0 : 0 < g.
  Hypothesis d1g : forall idx, inrange sh1 idx -> g <= dat d1 idx.
  Hypothesis d2g : forall idx, inrange sh2 idx -> g <= dat d2 idx.
  Hypothesis ok_sh : forall t u, okT t u -> shp t = sh1 /\ shp u = sh2.
  Hypothesis ok_ext : forall t u t' u', okT t u -> teq t t' -> teq u u' -> okT t' u'.
  Hypothesis ok0 : okT (tzeros RK sh1) (tzeros RK sh2).
  Definition tends (sh : list nat) (y : nat -> T) (t : T) : Prop :=
    shp t = sh /\ forall idx, inrange sh idx -> Un_cv (fun k => dat (y k) idx) (dat t idx).
  Hypothesis ok_tends : forall y z t u, (forall k, okT (y k) (z k)) -> tends sh1 y t -> tends sh2 z u -> okT t u.
  Definition quotient (sh : list nat) (r d t : T) : Prop :=
    shp t = sh /\ forall idx, inrange sh idx -> dat t idx = - (dat r idx / dat d idx).
  Hypothesis ok_step : forall t u t' u', okT t u ->
    quotient sh1 (fst (rf t u)) d1 t' -> quotient sh2 (snd (rf t u)) d2 u' -> okT t' u'.
  Hypothesis rf_lip : forall t u t' u' d, okT t u -> okT t' u' -> at_most 1 t -> at_most 1 u -> at_most 1 t' -> at_most 1 u' ->
    0 <= d -> differ d t t' -> differ d u u' ->
    (forall idx, inrange sh1 idx -> Rabs (dat (fst (rf t u)) idx) <= g / 2 /\ Rabs (dat (fst (rf t u)) idx - dat (fst (rf t' u')) idx) <= g / 2 * d) /\
    (forall idx, inrange sh2 idx -> Rabs (dat (snd (rf t u)) idx) <= g / 2 /\ Rabs (dat (snd (rf t u)) idx - dat (snd (rf t' u')) idx) <= g / 2 * d).
  Hypothesis rf_full : forall t u, okT t u ->
    (forall idx, inrange sh1 idx -> dat (fst (rfull t u)) idx = dat (fst (rf t u)) idx + dat d1 idx * dat t idx) /\
    (forall idx, inrange sh2 idx -> dat (snd (rfull t u)) idx = dat (snd (rf t u)) idx + dat d2 idx * dat u idx).

  Notation P := (bool * list nat)%type.
  Definition A1 (x : P -> R) : T := @mkT RK sh1 (fun idx => x (true, idx)).
  Definition A2 (x : P -> R) : T := @mkT RK sh2 (fun idx => x (false, idx)).
  Definition ok (x : P -> R) : Prop := okT (A1 x) (A2 x).
  Definition Phi (x : P -> R) (p : P) : R :=
    match p with
    | (true, idx) => if inrange_dec sh1 idx then - (dat (fst (rf (A1 x) (A2 x))) idx / dat d1 idx) else 0
    | (false, idx) => if inrange_dec sh2 idx then - (dat (snd (rf (A1 x) (A2 x))) idx / dat d2 idx) else 0
    end.
  Lemma bound_div r d b : g <= d -> Rabs r <= g * b -> Rabs (- (r / d)) <= b.
  Proof.
    intros Hd Hr. rewrite Rabs_Ropp. unfold Rdiv. rewrite Rabs_mult, (Rabs_pos_eq (/ d)) by (apply Rlt_le, Rinv_0_lt_compat; lra).
    apply Rmult_le_reg_r with d; [lra|]. rewrite Rmult_assoc, Rinv_l by lra. rewrite Rmult_1_r.
    assert (0 <= b) by (apply Rmult_le_reg_l with g; [exact g0|]; rewrite Rmult_0_r; pose proof (Rabs_pos r); lra).
    apply Rle_trans with (g * b); [exact Hr|]. rewrite (Rmult_comm b). apply Rmult_le_compat_r; assumption.
  Qed.
  Lemma ball_at x : ball P 1 x -> at_most 1 (A1 x) /\ at_most 1 (A2 x).
  Proof. intros H. split; intros idx _; apply H. Qed.
  Lemma dist_at x y d : dist P d x y -> differ d (A1 x) (A1 y) /\ differ d (A2 x) (A2 y).
  Proof. intros H. split; (split; [reflexivity|]); intros idx _; apply H. Qed.
  Lemma okx0 : ok (fun _ => 0).
  Proof. exact ok0. Qed.
  Lemma okx_lim (y : nat -> P -> R) x : (forall k, ok (y k)) -> (forall p, Un_cv (fun k => y k p) (x p)) -> ok x.
  Proof.
    intros H C. apply (ok_tends (fun k => A1 (y k)) (fun k => A2 (y k))); [exact H| |]; (split; [reflexivity|]); intros idx _; apply C.
  Qed.
  Lemma Phi1 x : quotient sh1 (fst (rf (A1 x) (A2 x))) d1 (A1 (Phi x)).
  Proof. split; [reflexivity|]. intros idx Hi. cbn [A1 dat Phi]. destruct (inrange_dec sh1 idx); [reflexivity|contradiction]. Qed.
  Lemma Phi2 x : quotient sh2 (snd (rf (A1 x) (A2 x))) d2 (A2 (Phi x)).
  Proof. split; [reflexivity|]. intros idx Hi. cbn [A2 dat Phi]. destruct (inrange_dec sh2 idx); [reflexivity|contradiction]. Qed.
  Lemma differ_refl t : differ 0 t t.
  Proof. split; [reflexivity|]. intros idx _. replace (dat t idx - dat t idx) with 0 by ring. rewrite Rabs_R0. lra. Qed.
  Lemma Phix_ok x : ok x -> ball P 1 x -> ok (Phi x) /\ ball P (1 / 2) (Phi x).
  Proof.
    intros O1 B1. destruct (ball_at _ B1) as (Ba & Bb). split.
    - exact (ok_step _ _ _ _ O1 (Phi1 x) (Phi2 x)).
    - destruct (rf_lip _ _ _ _ 0 O1 O1 Ba Bb Ba Bb (Rle_refl 0) (differ_refl _) (differ_refl _)) as (L1 & L2).
      intros [[|] idx]; cbn [Phi].
      + destruct (inrange_dec sh1 idx) as [Hi|Hi]; [|rewrite Rabs_R0; lra].
        apply bound_div; [apply d1g, Hi|]. destruct (L1 idx Hi) as (H & _). lra.
      + destruct (inrange_dec sh2 idx) as [Hi|Hi]; [|rewrite Rabs_R0; lra].
        apply bound_div; [apply d2g, Hi|]. destruct (L2 idx Hi) as (H & _). lra.
  Qed.
  Lemma Phix_half x y d : ok x -> ok y -> ball P 1 x -> ball P 1 y -> 0 <= d -> dist P d x y -> dist P (d / 2) (Phi x) (Phi y).
  Proof.
    intros O1 O2 B1 B2 Hd H. destruct (ball_at _ B1) as (Ba & Bb). destruct (ball_at _ B2) as (Bc & Be).
    destruct (dist_at _ _ _ H) as (Da & Db).
    destruct (rf_lip _ _ _ _ d O1 O2 Ba Bb Bc Be Hd Da Db) as (L1 & L2).
    intros [[|] idx]; cbn [Phi].
    - destruct (inrange_dec sh1 idx) as [Hi|Hi]; [|replace (0 - 0) with 0 by ring; rewrite Rabs_R0; lra].
      replace (- _ - - _) with (- ((dat (fst (rf (A1 x) (A2 x))) idx - dat (fst (rf (A1 y) (A2 y))) idx) / dat d1 idx))
        by (unfold Rdiv; ring).
      apply bound_div; [apply d1g, Hi|]. destruct (L1 idx Hi) as (_ & G). lra.
    - destruct (inrange_dec sh2 idx) as [Hi|Hi]; [|replace (0 - 0) with 0 by ring; rewrite Rabs_R0; lra].
      replace (- _ - - _) with (- ((dat (snd (rf (A1 x) (A2 x))) idx - dat (snd (rf (A1 y) (A2 y))) idx) / dat d2 idx))
        by (unfold Rdiv; ring).
      apply bound_div; [apply d2g, Hi|]. destruct (L2 idx Hi) as (_ & G). lra.
  Qed.

  Notation it := (iter P Phi).
  Notation lm := (lim P ok Phi okx0 Phix_ok Phix_half).

  (** one pass from amplitudes that agree with a state *)
  Definition pass (t u t' u' : T) : Prop := divided_step t (fst (rfull t u)) d1 t' /\ divided_step u (snd (rfull t u)) d2 u'.
  Lemma step_div r d t : 0 < d -> t - (r + d * t) / d = - (r / d).
  Proof. intros H. field. lra. Qed.
  Lemma near0 a b c : Rabs (a - b) <= c * 0 -> a = b.
  Proof. rewrite Rmult_0_r. intros H. apply Rminus_diag_uniq. pose proof (Rabs_pos (a - b)) as Q.
    destruct (Req_dec (a - b) 0) as [E|E]; [exact E|]. apply Rabs_pos_lt in E. lra. Qed.
  Lemma at_most_teq B t t' : teq t t' -> at_most B t -> at_most B t'.
  Proof. intros (S & E) H idx Hi. rewrite <- S in Hi. rewrite <- E by exact Hi. apply H, Hi. Qed.
  Lemma teq_differ t t' : teq t t' -> differ 0 t t'.
  Proof. intros (S & E). split; [exact S|]. intros idx Hi. rewrite <- E by exact Hi. replace (dat t idx - dat t idx) with 0 by ring. rewrite Rabs_R0. lra. Qed.
  Lemma teq_s (t t' : T) : teq t t' -> teq t' t.
  Proof. intros (S & E). split; [symmetry; exact S|]. intros idx Hi. rewrite <- S in Hi. symmetry. apply E, Hi. Qed.

  Lemma pass_Phi x t u t' u' : ok x -> ball P 1 x -> teq (A1 x) t -> teq (A2 x) u -> pass t u t' u' ->
    teq (A1 (Phi x)) t' /\ teq (A2 (Phi x)) u'.
  Proof.
    intros O1 B1 E1 E2 ((S1 & Q1) & (S2 & Q2)).
    assert (Ot : okT t u) by exact (ok_ext _ _ _ _ O1 E1 E2).
    destruct (ball_at _ B1) as (Ba & Bb).
    destruct (rf_lip _ _ _ _ 0 O1 Ot Ba Bb (at_most_teq _ _ _ E1 Ba) (at_most_teq _ _ _ E2 Bb) (Rle_refl 0) (teq_differ _ _ E1) (teq_differ _ _ E2)) as (L1 & L2).
    destruct (rf_full t u Ot) as (F1 & F2). destruct (ok_sh _ _ Ot) as (St & Su).
    rewrite St in Q1. rewrite Su in Q2. split.
    - split; [cbn [A1 shp]; congruence|]. intros idx Hi. cbn [A1 shp] in Hi.
      rewrite (Q1 idx Hi), (F1 idx Hi), step_div by (pose proof (d1g idx Hi); lra).
      rewrite (proj2 (Phi1 x) idx Hi). rewrite (near0 _ _ _ (proj2 (L1 idx Hi))). reflexivity.
    - split; [cbn [A2 shp]; congruence|]. intros idx Hi. cbn [A2 shp] in Hi.
      rewrite (Q2 idx Hi), (F2 idx Hi), step_div by (pose proof (d2g idx Hi); lra).
      rewrite (proj2 (Phi2 x) idx Hi). rewrite (near0 _ _ _ (proj2 (L2 idx Hi))). reflexivity.
  Qed.
  Lemma Phi_pass x : ok x -> pass (A1 x) (A2 x) (A1 (Phi x)) (A2 (Phi x)).
  Proof.
    intros O1. destruct (rf_full _ _ O1) as (F1 & F2). split; (split; [reflexivity|]); intros idx Hi; cbn [A1 A2 shp] in Hi.
    - rewrite (F1 idx Hi), step_div by (pose proof (d1g idx Hi); lra). exact (proj2 (Phi1 x) idx Hi).
    - rewrite (F2 idx Hi), step_div by (pose proof (d2g idx Hi); lra). exact (proj2 (Phi2 x) idx Hi).
  Qed.

  Definition history (t u : nat -> T) : Prop :=
    t 0%nat = tzeros RK sh1 /\ u 0%nat = tzeros RK sh2 /\ forall k, pass (t k) (u k) (t (S k)) (u (S k)).
  Lemma history_it t u : history t u -> forall k, teq (A1 (it k)) (t k) /\ teq (A2 (it k)) (u k).
  Proof.
    intros (H1 & H2 & H) k. induction k as [|k (E1 & E2)].
    - rewrite H1, H2. split; (split; [reflexivity|]); intros; reflexivity.
    - cbn [iter]. apply pass_Phi with (t k) (u k); try assumption; [|apply (iter_ball P ok Phi okx0 Phix_ok)|apply H].
      apply (iter_ok P ok Phi okx0 Phix_ok).
  Qed.
  Definition zero_res (t u : T) : Prop :=
    (forall idx, inrange sh1 idx -> dat (fst (rfull t u)) idx = 0) /\ (forall idx, inrange sh2 idx -> dat (snd (rfull t u)) idx = 0).
  Definition cut (t u : T) (p : P) : R :=
    match p with
    | (true, idx) => if inrange_dec sh1 idx then dat t idx else 0
    | (false, idx) => if inrange_dec sh2 idx then dat u idx else 0
    end.
  Lemma cut1 t u : shp t = sh1 -> teq (A1 (cut t u)) t.
  Proof. intros S. split; [symmetry; exact S|]. intros idx Hi. cbn [A1 shp dat cut] in *. destruct (inrange_dec sh1 idx); [reflexivity|contradiction]. Qed.
  Lemma cut2 t u : shp u = sh2 -> teq (A2 (cut t u)) u.
  Proof. intros S. split; [symmetry; exact S|]. intros idx Hi. cbn [A2 shp dat cut] in *. destruct (inrange_dec sh2 idx); [reflexivity|contradiction]. Qed.
  Lemma solution_quot r d t : 0 < d -> r + d * t = 0 <-> - (r / d) = t.
  Proof.
    intros H. split; intros E.
    - replace r with (- (d * t)) by lra. field. lra.
    - rewrite <- E. field. lra.
  Qed.

  Theorem solve : exists t u, okT t u /\ at_most (1 / 2) t /\ at_most (1 / 2) u /\ zero_res t u /\
    (forall t' u', okT t' u' -> at_most 1 t' -> at_most 1 u' -> zero_res t' u' -> teq t' t /\ teq u' u) /\
    (exists y z, history y z /\ forall k, okT (y k) (z k)) /\
    (forall y z, history y z -> forall k, differ ((1 / 2) ^ k) (y k) t /\ differ ((1 / 2) ^ k) (z k) u).
  Proof.
    pose proof (lim_ok P ok Phi okx0 okx_lim Phix_ok Phix_half) as Lo.
    pose proof (lim_ball P ok Phi okx0 Phix_ok Phix_half) as Lb.
    pose proof (lim_fixed P ok Phi okx0 okx_lim Phix_ok Phix_half) as Lf.
    exists (A1 lm), (A2 lm). split; [exact Lo|]. split; [intros idx _; apply Lb|]. split; [intros idx _; apply Lb|]. split; [|split; [|split]].
    - destruct (rf_full _ _ Lo) as (F1 & F2). split; intros idx Hi.
      + rewrite (F1 idx Hi). apply solution_quot; [pose proof (d1g idx Hi); lra|]. rewrite <- (proj2 (Phi1 lm) idx Hi). apply Lf.
      + rewrite (F2 idx Hi). apply solution_quot; [pose proof (d2g idx Hi); lra|]. rewrite <- (proj2 (Phi2 lm) idx Hi). apply Lf.
    - intros t u O1 B1 B2 (Z1 & Z2). destruct (ok_sh _ _ O1) as (S1 & S2).
      pose proof (cut1 t u S1) as C1. pose proof (cut2 t u S2) as C2.
      set (x := cut t u) in *.
      assert (Ox : ok x) by exact (ok_ext _ _ _ _ O1 (teq_s _ _ C1) (teq_s _ _ C2)).
      assert (Bx : ball P 1 x).
      { intros [[|] idx]; cbn [x cut].
        - destruct (inrange_dec sh1 idx) as [Hi|Hi]; [apply B1; rewrite S1; exact Hi|rewrite Rabs_R0; lra].
        - destruct (inrange_dec sh2 idx) as [Hi|Hi]; [apply B2; rewrite S2; exact Hi|rewrite Rabs_R0; lra]. }
      assert (Fx : forall p, Phi x p = x p).
      { destruct (ball_at _ Bx) as (Ba & Bb). destruct (rf_full t u O1) as (F1 & F2).
        destruct (rf_lip _ _ _ _ 0 Ox O1 Ba Bb B1 B2 (Rle_refl 0) (teq_differ _ _ C1) (teq_differ _ _ C2)) as (L1 & L2).
        intros [[|] idx]; cbn [Phi].
        - subst x. cbn [cut]. destruct (inrange_dec sh1 idx) as [Hi|Hi]; [|reflexivity]. rewrite (near0 _ _ _ (proj2 (L1 idx Hi))).
          apply solution_quot; [pose proof (d1g idx Hi); lra|]. rewrite <- F1 by exact Hi. apply Z1, Hi.
        - subst x. cbn [cut]. destruct (inrange_dec sh2 idx) as [Hi|Hi]; [|reflexivity]. rewrite (near0 _ _ _ (proj2 (L2 idx Hi))).
          apply solution_quot; [pose proof (d2g idx Hi); lra|]. rewrite <- F2 by exact Hi. apply Z2, Hi. }
      pose proof (lim_unique P ok Phi okx0 Phix_ok Phix_half x Ox Bx Fx) as U.
      split; (split; [assumption|]); intros idx Hi.
      + rewrite <- (proj2 C1 idx) by (rewrite S1 in Hi; exact Hi). apply U.
      + rewrite <- (proj2 C2 idx) by (rewrite S2 in Hi; exact Hi). apply U.
    - exists (fun k => A1 (it k)), (fun k => A2 (it k)). split; [split; [reflexivity|]; split; [reflexivity|]; intros k; cbn [iter]; apply Phi_pass|intros k];
      apply (iter_ok P ok Phi okx0 Phix_ok).
    - intros y z H k. destruct (history_it y z H k) as ((S1 & E1) & (S2 & E2)).
      pose proof (lim_near P ok Phi okx0 Phix_ok Phix_half k) as N.
      split; (split; [symmetry; assumption|]); intros idx Hi.
      + rewrite <- S1 in Hi. rewrite <- (E1 idx Hi). apply N.
      + rewrite <- S2 in Hi. rewrite <- (E2 idx Hi). apply N.
  Qed.
End Solve.
