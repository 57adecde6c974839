(** Proofs for C101. *)
From Coq Require Import Reals List Lra Lia.
From Verif Require Import FTModel FTFacts EnsSpec.
Import ListNotations.
Local Open Scope R_scope.

Lemma total_app a b : total (a ++ b) = total a + total b.
Proof. unfold total. induction a as [|x a IH]; simpl; [lra|]. rewrite IH. lra. Qed.
Lemma total_ext {A} (f g : A -> R) l : (forall x, In x l -> f x = g x) -> total (map f l) = total (map g l).
Proof. intros E. f_equal. apply map_ext_in, E. Qed.
Lemma total_scale {A} c (f : A -> R) l : total (map (fun x => c * f x) l) = c * total (map f l).
Proof. unfold total; induction l as [|x l IH]; simpl; [lra|]. rewrite IH. lra. Qed.
Lemma total_plus {A} (f g : A -> R) l : total (map (fun x => f x + g x) l) = total (map f l) + total (map g l).
Proof. unfold total; induction l as [|x l IH]; simpl; [lra|]. rewrite IH. lra. Qed.
Lemma total_le {A} (f g : A -> R) l : (forall x, In x l -> f x <= g x) -> total (map f l) <= total (map g l).
Proof.
  unfold total; induction l as [|x l IH]; simpl; intros H; [lra|].
  pose proof (H x (or_introl eq_refl)). assert (B := IH (fun y I => H y (or_intror I))). lra.
Qed.
Lemma total_0 {A} (l : list A) : total (map (fun _ => 0) l) = 0.
Proof. unfold total; induction l as [|x l IH]; simpl; [reflexivity|]. rewrite IH. lra. Qed.

Section Ens.
  Variables beta mu : R.
  Definition wsum (eps : list R) (f : list bool -> R) : R :=
    total (map (fun s => f s * boltzmann beta eps mu s) (states (length eps))).
  Definition wt (e : R) : R := exp (- (beta * (e - mu))).

  Lemma wsum_nil f : wsum [] f = f [].
  Proof. unfold wsum, boltzmann. simpl. rewrite Rmult_0_r, Ropp_0, exp_0. lra. Qed.
  Lemma wsum_cons e eps f :
    wsum (e :: eps) f = wsum eps (fun s => f (false :: s)) + wt e * wsum eps (fun s => f (true :: s)).
  Proof.
    unfold wsum. cbn [length states]. rewrite map_app, total_app, !map_map, <- total_scale. f_equal.
    - apply total_ext; intros s _. unfold boltzmann. simpl. do 3 f_equal. ring.
    - apply total_ext; intros s _. unfold boltzmann, wt. simpl.
      replace (- (beta * (e - mu + grand_energy eps mu s)))
        with (- (beta * (e - mu)) + - (beta * grand_energy eps mu s)) by ring.
      rewrite exp_plus. ring.
  Qed.
  Lemma wsum_ext eps f g : (forall s, f s = g s) -> wsum eps f = wsum eps g.
  Proof. intros E. apply total_ext. intros s _. now rewrite E. Qed.
  Lemma wsum_plus eps f g : wsum eps (fun s => f s + g s) = wsum eps f + wsum eps g.
  Proof. unfold wsum. rewrite <- total_plus. apply total_ext. intros; ring. Qed.
  Lemma wsum_scale eps c f : wsum eps (fun s => c * f s) = c * wsum eps f.
  Proof. unfold wsum. rewrite <- total_scale. apply total_ext. intros; ring. Qed.
  Lemma wsum_0 eps : wsum eps (fun _ => 0) = 0.
  Proof. replace (wsum eps (fun _ => 0)) with (wsum eps (fun s => 0 * 0)) by (apply wsum_ext; intros; ring).
    rewrite wsum_scale. ring. Qed.

  Lemma Z_wsum eps : partition beta eps mu = wsum eps (fun _ => 1).
  Proof. apply total_ext. intros; ring. Qed.
  Lemma Z_cons e eps : partition beta (e :: eps) mu = (1 + wt e) * partition beta eps mu.
  Proof. rewrite !Z_wsum, wsum_cons. ring. Qed.
  Lemma Z_nil : partition beta [] mu = 1. Proof. now rewrite Z_wsum, wsum_nil. Qed.
  Lemma wt_pos e : 0 < wt e. Proof. apply exp_pos. Qed.
  Lemma Z_pos eps : 0 < partition beta eps mu.
  Proof.
    induction eps as [|e eps IH]; [rewrite Z_nil; lra|]. rewrite Z_cons. pose proof (wt_pos e).
    apply Rmult_lt_0_compat; lra.
  Qed.
  Lemma Z_ln eps : ln (partition beta eps mu) = total (map (fun e => ln (1 + wt e)) eps).
  Proof.
    induction eps as [|e eps IH]; [now rewrite Z_nil, ln_1|]. rewrite Z_cons. pose proof (wt_pos e).
    rewrite ln_mult, IH; [reflexivity|lra|apply Z_pos].
  Qed.
  Lemma avg eps f : average beta eps mu f = wsum eps f / partition beta eps mu.
  Proof.
    unfold average, wsum, Rdiv. rewrite Rmult_comm, <- total_scale. apply total_ext. intros s _.
    unfold probability. unfold Rdiv. ring.
  Qed.
  Lemma avg_1 eps : average beta eps mu (fun _ => 1) = 1.
  Proof. rewrite avg, <- Z_wsum. pose proof (Z_pos eps). field. lra. Qed.

  (** one level *)
  Lemma filled_S i b s : filled (S i) (b :: s) = filled i s. Proof. reflexivity. Qed.
  Lemma wsum_filled : forall eps i, (i < length eps)%nat ->
    wsum eps (filled i) * (1 + wt (nth i eps 0)) = wt (nth i eps 0) * partition beta eps mu.
  Proof.
    induction eps as [|e eps IH]; intros i Hi; [simpl in Hi; lia|]. rewrite wsum_cons, Z_cons. destruct i as [|i].
    - cbn [nth]. replace (wsum eps (fun s => filled 0 (false :: s))) with 0.
      2:{ symmetry. etransitivity; [|apply wsum_0]. apply wsum_ext. reflexivity. }
      replace (wsum eps (fun s => filled 0 (true :: s))) with (partition beta eps mu).
      2:{ rewrite Z_wsum. apply wsum_ext. reflexivity. }
      ring.
    - cbn [nth]. rewrite (wsum_ext eps (fun s => filled (S i) (false :: s)) (filled i)) by reflexivity.
      rewrite (wsum_ext eps (fun s => filled (S i) (true :: s)) (filled i)) by reflexivity.
      specialize (IH i ltac:(simpl in Hi; lia)). pose proof (wt_pos e).
      transitivity ((1 + wt e) * (wsum eps (filled i) * (1 + wt (nth i eps 0)))); [ring|]. rewrite IH. ring.
  Qed.
  Lemma empty_filled i s : empty i s = 1 - filled i s.
  Proof. unfold empty, filled. destruct (nth i s false); lra. Qed.

  Lemma wt_exp e : wt e * exp (beta * (e - mu)) = 1.
  Proof. unfold wt. rewrite <- exp_plus, Rplus_opp_l. apply exp_0. Qed.
  Lemma avg_filled eps i : (i < length eps)%nat ->
    average beta eps mu (filled i) = 1 / (exp (beta * (nth i eps 0 - mu)) + 1).
  Proof.
    intros Hi. rewrite avg. pose proof (wsum_filled eps i Hi) as E. pose proof (Z_pos eps).
    pose proof (wt_pos (nth i eps 0)). pose proof (wt_exp (nth i eps 0)) as X. pose proof (exp_pos (beta * (nth i eps 0 - mu))).
    set (x := exp (beta * (nth i eps 0 - mu))) in *. set (w := wt (nth i eps 0)) in *. set (Z := partition beta eps mu) in *.
    set (S := wsum eps (filled i)) in *.
    assert (W : S = Z * (1 / (x + 1))).
    { apply Rmult_eq_reg_r with (1 + w); [|lra]. rewrite E.
      assert (Y : w = 1 / x) by (apply Rmult_eq_reg_r with x; [rewrite X; field; lra|lra]). rewrite Y. field. lra. }
    rewrite W. field. lra.
  Qed.
  Lemma avg_plus eps f g : average beta eps mu (fun s => f s + g s) = average beta eps mu f + average beta eps mu g.
  Proof. rewrite !avg, wsum_plus. unfold Rdiv. ring. Qed.
  Lemma avg_scale eps c f : average beta eps mu (fun s => c * f s) = c * average beta eps mu f.
  Proof. rewrite !avg, wsum_scale. unfold Rdiv. ring. Qed.
  Lemma avg_ext eps f g : (forall s, f s = g s) -> average beta eps mu f = average beta eps mu g.
  Proof. intros E. rewrite !avg, (wsum_ext eps f g E). reflexivity. Qed.
  Lemma avg_empty eps i : average beta eps mu (empty i) = 1 - average beta eps mu (filled i).
  Proof.
    rewrite (avg_ext eps (empty i) (fun s => 1 + -1 * filled i s)) by (intros s; rewrite empty_filled; ring).
    rewrite avg_plus, avg_1, avg_scale. ring.
  Qed.

  (** two levels *)
  Lemma wsum_two : forall eps i j, i <> j -> (i < length eps)%nat -> (j < length eps)%nat ->
    wsum eps (fun s => filled i s * filled j s) * partition beta eps mu = wsum eps (filled i) * wsum eps (filled j).
  Proof.
    induction eps as [|e eps IH]; intros i j D Hi Hj; [simpl in Hi; lia|].
    assert (A0 : wsum eps (fun s => filled 0 (false :: s)) = 0).
    { etransitivity; [|apply (wsum_0 eps)]. apply wsum_ext. reflexivity. }
    assert (A1 : wsum eps (fun s => filled 0 (true :: s)) = partition beta eps mu).
    { rewrite Z_wsum. apply wsum_ext. reflexivity. }
    assert (B : forall b k, wsum eps (fun s => filled (S k) (b :: s)) = wsum eps (filled k)).
    { intros. apply wsum_ext. reflexivity. }
    assert (C0 : forall k, wsum eps (fun s => filled 0 (false :: s) * filled (S k) (false :: s)) = 0).
    { intros k. etransitivity; [|apply (wsum_0 eps)]. apply wsum_ext. intros. unfold filled at 1. simpl. ring. }
    assert (C1 : forall k, wsum eps (fun s => filled 0 (true :: s) * filled (S k) (true :: s)) = wsum eps (filled k)).
    { intros k. apply wsum_ext. intros. unfold filled at 1. simpl. rewrite filled_S. ring. }
    rewrite !wsum_cons, Z_cons. destruct i as [|i], j as [|j]; [easy| | |].
    - rewrite C0, C1, A0, A1, !B. ring.
    - rewrite (wsum_ext eps (fun s => filled (S i) (false :: s) * filled 0 (false :: s))
        (fun s => filled 0 (false :: s) * filled (S i) (false :: s))) by (intros; ring).
      rewrite (wsum_ext eps (fun s => filled (S i) (true :: s) * filled 0 (true :: s))
        (fun s => filled 0 (true :: s) * filled (S i) (true :: s))) by (intros; ring).
      rewrite C0, C1, A0, A1, !B. ring.
    - rewrite !B.
      assert (E : forall b, wsum eps (fun s => filled (S i) (b :: s) * filled (S j) (b :: s))
        = wsum eps (fun s => filled i s * filled j s)) by (intros; apply wsum_ext; reflexivity).
      rewrite !E. specialize (IH i j ltac:(lia) ltac:(simpl in Hi; lia) ltac:(simpl in Hj; lia)).
      transitivity ((1 + wt e) * (1 + wt e) * (wsum eps (fun s => filled i s * filled j s) * partition beta eps mu)); [ring|].
      rewrite IH. ring.
  Qed.
  Lemma avg_two eps i j : i <> j -> (i < length eps)%nat -> (j < length eps)%nat ->
    average beta eps mu (fun s => filled i s * filled j s) = average beta eps mu (filled i) * average beta eps mu (filled j).
  Proof.
    intros D Hi Hj. rewrite !avg. pose proof (wsum_two eps i j D Hi Hj) as E. pose proof (Z_pos eps).
    set (Z := partition beta eps mu) in *.
    apply Rmult_eq_reg_r with (Z * Z); [|nra].
    transitivity (wsum eps (fun s => filled i s * filled j s) * Z); [field; lra|]. rewrite E. field. lra.
  Qed.
  Lemma avg_pair eps i j : i <> j -> (i < length eps)%nat -> (j < length eps)%nat ->
    average beta eps mu (fun s => filled i s * empty j s) = average beta eps mu (filled i) * average beta eps mu (empty j).
  Proof.
    intros D Hi Hj.
    rewrite (avg_ext eps _ (fun s => filled i s + -1 * (filled i s * filled j s))) by (intros; rewrite empty_filled; ring).
    rewrite avg_plus, avg_scale, avg_two, avg_empty by assumption. ring.
  Qed.

  (** sums over the levels *)
  Lemma wsum_electrons : forall eps, wsum eps electrons
    = partition beta eps mu * total (map (fun e => 1 / (exp (beta * (e - mu)) + 1)) eps).
  Proof.
    induction eps as [|e eps IH]; [rewrite wsum_nil; unfold electrons, total; simpl; ring|].
    rewrite wsum_cons, Z_cons.
    rewrite (wsum_ext eps (fun s => electrons (false :: s)) electrons) by (intros; unfold electrons, total; simpl; ring).
    rewrite (wsum_ext eps (fun s => electrons (true :: s)) (fun s => 1 + electrons s)) by (intros; unfold electrons, total; simpl; ring).
    rewrite wsum_plus, <- Z_wsum, IH. simpl. fold (total (map (fun e0 => 1 / (exp (beta * (e0 - mu)) + 1)) eps)).
    pose proof (wt_exp e) as X. pose proof (exp_pos (beta * (e - mu))).
    set (x := exp (beta * (e - mu))) in *.
    assert (Y : wt e = 1 / x) by (apply Rmult_eq_reg_r with x; [rewrite X; field; lra|lra]). rewrite Y. field. lra.
  Qed.
  Lemma wsum_energy : forall eps, wsum eps (grand_energy eps mu)
    = partition beta eps mu * total (map (fun e => (e - mu) * (1 / (exp (beta * (e - mu)) + 1))) eps).
  Proof.
    induction eps as [|e eps IH]; [rewrite wsum_nil; unfold total; simpl; ring|].
    rewrite wsum_cons, Z_cons.
    rewrite (wsum_ext eps (fun s => grand_energy (e :: eps) mu (false :: s)) (grand_energy eps mu)) by (intros; simpl; ring).
    rewrite (wsum_ext eps (fun s => grand_energy (e :: eps) mu (true :: s)) (fun s => (e - mu) * 1 + grand_energy eps mu s)) by (intros; simpl; ring).
    rewrite wsum_plus, wsum_scale, <- Z_wsum, IH. simpl.
    fold (total (map (fun e0 => (e0 - mu) * (1 / (exp (beta * (e0 - mu)) + 1))) eps)).
    pose proof (wt_exp e) as X. pose proof (exp_pos (beta * (e - mu))).
    set (x := exp (beta * (e - mu))) in *.
    assert (Y : wt e = 1 / x) by (apply Rmult_eq_reg_r with x; [rewrite X; field; lra|lra]). rewrite Y. field. lra.
  Qed.
  Lemma avg_electrons eps : average beta eps mu electrons = total (map (fun e => 1 / (exp (beta * (e - mu)) + 1)) eps).
  Proof. rewrite avg, wsum_electrons. pose proof (Z_pos eps). field. lra. Qed.
  Lemma avg_energy eps : average beta eps mu (grand_energy eps mu)
    = total (map (fun e => (e - mu) * (1 / (exp (beta * (e - mu)) + 1))) eps).
  Proof. rewrite avg, wsum_energy. pose proof (Z_pos eps). field. lra. Qed.

  (** the functions of the code *)
  Definition omega (eps : list R) : R := - ln (partition beta eps mu) / beta.
  Lemma omega_sum eps : omega eps = total (map (fun e => gp beta e mu) eps).
  Proof.
    unfold omega. rewrite Z_ln. unfold Rdiv. induction eps as [|e eps IH]; simpl; [ring|].
    fold (total (map (fun e => ln (1 + wt e)) eps)). fold (total (map (fun e => gp beta e mu) eps)).
    rewrite <- IH. unfold gp, wt, Rdiv. ring.
  Qed.
  Lemma gp_total eps : beta <> 0 -> within 20 beta eps mu -> total (GP0 beta eps mu) = omega eps.
  Proof.
    intros B W. rewrite omega_sum. unfold GP0. rewrite fill_map. apply total_ext.
    intros e I. apply gp_mid; [exact B|]. specialize (W e I). lra.
  Qed.
  Lemma gp_total_err eps : beta <> 0 ->
    Rabs (total (GP0 beta eps mu) - omega eps) <= INR (length eps) * (exp (-40) / Rabs beta).
  Proof.
    intros B. rewrite omega_sum. unfold GP0. rewrite fill_map. induction eps as [|e eps IH].
    - simpl. rewrite Rminus_eq_0, Rabs_R0. lra.
    - cbn [length map]. rewrite S_INR. cbn [total fold_right].
      fold (total (map (fun e => grand_potential0 beta e mu) eps)). fold (total (map (fun e => gp beta e mu) eps)).
      pose proof (gp_bound beta e mu B) as G.
      replace (grand_potential0 beta e mu + total (map (fun e0 => grand_potential0 beta e0 mu) eps) -
        (gp beta e mu + total (map (fun e0 => gp beta e0 mu) eps)))
        with ((grand_potential0 beta e mu - gp beta e mu) +
          (total (map (fun e0 => grand_potential0 beta e0 mu) eps) - total (map (fun e0 => gp beta e0 mu) eps))) by ring.
      eapply Rle_trans; [apply Rabs_triang|]. lra.
  Qed.

  Lemma ff_nth eps i : (i < length eps)%nat -> nth i (ff beta eps mu) 0 = fermi_function beta (nth i eps 0) mu.
  Proof.
    intros Hi. unfold ff. rewrite fill_map, (nth_indep _ 0 (fermi_function beta 0 mu)) by (now rewrite map_length).
    apply (map_nth (fun e => fermi_function beta e mu)).
  Qed.
  Lemma ffv_nth eps i : (i < length eps)%nat -> nth i (ffv beta eps mu) 0 = vfermi_function beta (nth i eps 0) mu.
  Proof.
    intros Hi. unfold ffv. rewrite fill_map, (nth_indep _ 0 (vfermi_function beta 0 mu)) by (now rewrite map_length).
    apply (map_nth (fun e => vfermi_function beta e mu)).
  Qed.
  Lemma ff_avg eps i : (i < length eps)%nat -> within 30 beta eps mu ->
    nth i (ff beta eps mu) 0 = average beta eps mu (filled i) /\
    nth i (ffv beta eps mu) 0 = average beta eps mu (empty i).
  Proof.
    intros Hi W. rewrite ff_nth, ffv_nth, avg_empty, avg_filled by exact Hi.
    assert (R := W (nth i eps 0) (nth_In eps 0 Hi)). pose proof (fermi_sum beta (nth i eps 0) mu).
    assert (F := fermi_mid beta (nth i eps 0) mu ltac:(lra)). split; lra.
  Qed.
  Lemma ff_avg_err eps i : (i < length eps)%nat ->
    Rabs (nth i (ff beta eps mu) 0 - average beta eps mu (filled i)) < exp (-60) /\
    Rabs (nth i (ffv beta eps mu) 0 - average beta eps mu (empty i)) < exp (-60).
  Proof.
    intros Hi. rewrite ff_nth, ffv_nth, avg_empty, avg_filled by exact Hi.
    assert (F := fermi_bound beta (nth i eps 0) mu). cbv zeta in F. pose proof (fermi_sum beta (nth i eps 0) mu) as S.
    split; [exact F|]. rewrite Rabs_minus_sym. 
    replace (1 - 1 / (exp (beta * (nth i eps 0 - mu)) + 1) - vfermi_function beta (nth i eps 0) mu)
      with (fermi_function beta (nth i eps 0) mu - 1 / (exp (beta * (nth i eps 0 - mu)) + 1)) by lra. exact F.
  Qed.
  Lemma ff_number eps : within 30 beta eps mu -> total (ff beta eps mu) = average beta eps mu electrons.
  Proof.
    intros W. rewrite avg_electrons. unfold ff. rewrite fill_map. apply total_ext. intros e I.
    apply fermi_mid. specialize (W e I). lra.
  Qed.
  Lemma ff_pair eps i j : i <> j -> (i < length eps)%nat -> (j < length eps)%nat -> within 30 beta eps mu ->
    nth i (ff beta eps mu) 0 * nth j (ff beta eps mu) 0 = average beta eps mu (fun s => filled i s * filled j s) /\
    nth i (ff beta eps mu) 0 * nth j (ffv beta eps mu) 0 = average beta eps mu (fun s => filled i s * empty j s).
  Proof.
    intros D Hi Hj W. rewrite (proj1 (ff_avg eps i Hi W)), (proj1 (ff_avg eps j Hj W)), (proj2 (ff_avg eps j Hj W)).
    now rewrite avg_two, avg_pair by assumption.
  Qed.

  Lemma energy_id e : beta <> 0 -> -20 <= beta * (e - mu) <= 20 ->
    grand_potential0 beta e mu + beta * dgrand_potential0 beta e mu = (e - mu) * fermi_function beta e mu.
  Proof.
    intros B W. pose proof (fermi_sum beta e mu) as S.
    unfold grand_potential0, dgrand_potential0. cbv zeta.
    destruct (Rlt_dec (beta * (e - mu)) (-20)); [lra|]. destruct (Rlt_dec 20 (beta * (e - mu))); [lra|].
    replace (vfermi_function beta e mu) with (1 - fermi_function beta e mu) by lra. field. exact B.
  Qed.
  Lemma energy_total eps : beta <> 0 -> within 20 beta eps mu ->
    total (GP0 beta eps mu) + beta * total (dGP0 beta eps mu) = average beta eps mu (grand_energy eps mu).
  Proof.
    intros B W. rewrite avg_energy. unfold GP0, dGP0. rewrite !fill_map, <- total_scale, <- total_plus.
    apply total_ext. intros e I. assert (R := W e I). rewrite energy_id by (trivial; lra). now rewrite fermi_mid by lra.
  Qed.

  (** entropy *)
  Lemma ln_prob eps s : ln (probability beta eps mu s) = - (beta * grand_energy eps mu s) - ln (partition beta eps mu).
  Proof.
    unfold probability, boltzmann, Rdiv. pose proof (Z_pos eps).
    rewrite ln_mult, ln_exp, ln_Rinv; [ring|assumption|apply exp_pos|now apply Rinv_0_lt_compat].
  Qed.
  Lemma avg_lnp eps : average beta eps mu (fun s => ln (probability beta eps mu s))
    = - (beta * average beta eps mu (grand_energy eps mu)) - ln (partition beta eps mu).
  Proof.
    rewrite (avg_ext eps _ (fun s => - beta * grand_energy eps mu s + - ln (partition beta eps mu) * 1))
      by (intros; rewrite ln_prob; ring).
    rewrite avg_plus, !avg_scale, avg_1. ring.
  Qed.
  Lemma entropy eps : beta <> 0 -> within 20 beta eps mu ->
    beta * beta * total (dGP0 beta eps mu) = - average beta eps mu (fun s => ln (probability beta eps mu s)).
  Proof.
    intros B W. rewrite avg_lnp, <- energy_total, gp_total by assumption. unfold omega. field. exact B.
  Qed.
End Ens.

(** derivatives of the grand potential *)
Lemma total_deriv (g d : R -> R -> R) (x : R) (l : list R) :
  (forall e, In e l -> derivable_pt_lim (fun y => g y e) x (d x e)) ->
  derivable_pt_lim (fun y => total (map (g y) l)) x (total (map (d x) l)).
Proof.
  induction l as [|e l IH]; intros H; [exact (d_const 0 x)|].
  exact (d_plus (fun y => g y e) (fun y => total (map (g y) l)) x _ _ (H e (or_introl eq_refl))
    (IH (fun e' I => H e' (or_intror I)))).
Qed.
Lemma omega_dbeta beta mu eps : beta <> 0 -> within 20 beta eps mu ->
  derivable_pt_lim (fun b => - ln (partition b eps mu) / b) beta (total (dGP0 beta eps mu)).
Proof.
  intros B W. unfold dGP0. rewrite fill_map.
  rewrite (total_ext (fun e => dgrand_potential0 beta e mu) (fun e => dgp beta e mu)).
  2:{ intros e I. apply dgp_mid; [exact B|]. specialize (W e I). lra. }
  apply (dlim_local (fun b => total (map (fun e => gp b e mu) eps))).
  - exists 1. split; [lra|]. intros y _. symmetry. exact (omega_sum y mu eps).
  - apply (total_deriv (fun b e => gp b e mu) (fun b e => dgp b e mu)). intros e _. now apply gp_deriv.
Qed.

Lemma gp_dmu b e m : b <> 0 -> derivable_pt_lim (fun y => gp b e y) m (- (1 / (exp (b * (e - m)) + 1))).
Proof.
  intros B. unfold gp. pose proof (exp_pos (b * (e - m))) as P. pose proof (exp_pos (- (b * (e - m)))) as N.
  assert (E : exp (- (b * (e - m))) = / exp (b * (e - m))) by apply exp_Ropp.
  eapply dlim_eq; [|apply d_divc, d_opp, d_ln; [apply d_plus; [apply d_const|apply d_exp, d_opp, d_emm]|lra]].
  cbv beta. rewrite E. field. lra.
Qed.
Lemma omega_dmu beta mu eps : beta <> 0 -> within 30 beta eps mu ->
  derivable_pt_lim (fun m => - ln (partition beta eps m) / beta) mu (- total (ff beta eps mu)).
Proof.
  intros B W. unfold ff. rewrite fill_map.
  replace (- total (map (fun e => fermi_function beta e mu) eps))
    with (total (map (fun e => - (1 / (exp (beta * (e - mu)) + 1))) eps)).
  2:{ rewrite (total_ext _ (fun e => -1 * fermi_function beta e mu)).
      - rewrite total_scale. ring.
      - intros e I. rewrite fermi_mid by (specialize (W e I); lra). ring. }
  apply (dlim_local (fun m => total (map (fun e => gp beta e m) eps))).
  - exists 1. split; [lra|]. intros y _. symmetry. exact (omega_sum beta y eps).
  - apply (total_deriv (fun m e => gp beta e m) (fun m e => - (1 / (exp (beta * (e - m)) + 1)))).
    intros e _. now apply gp_dmu.
Qed.

(** Gibbs' inequality *)
Lemma ln_le x : 0 < x -> ln x <= x - 1.
Proof.
  intros P. destruct (Req_dec x 1) as [->|N]; [rewrite ln_1; lra|].
  pose proof (exp_ineq1 (ln x)) as E. rewrite exp_ln in E by exact P.
  assert (L : ln x <> 0). { intros Z. apply N. rewrite <- ln_1 in Z. apply ln_inv in Z; lra. }
  specialize (E L). lra.
Qed.

Lemma gibbs beta mu eps p : 0 < beta -> distribution (length eps) p ->
  omega beta mu eps <= total (map (fun s => p s * (grand_energy eps mu s + ln (p s) / beta)) (states (length eps))).
Proof.
  intros B [P0 P1]. set (Z := partition beta eps mu). assert (ZP : 0 < Z) by apply Z_pos.
  apply Rmult_le_reg_l with beta; [exact B|]. rewrite <- total_scale.
  unfold omega. fold Z. replace (beta * (- ln Z / beta)) with (- ln Z) by (field; lra).
  assert (Q : total (map (probability beta eps mu) (states (length eps))) = 1).
  { pose proof (avg_1 beta mu eps) as A. unfold average in A. rewrite <- A. apply total_ext. intros; ring. }
  assert (T : forall s, In s (states (length eps)) ->
    (- ln Z + 1) * p s + -1 * probability beta eps mu s <= beta * (p s * (grand_energy eps mu s + ln (p s) / beta))).
  { intros s I. specialize (P0 s I). set (q := probability beta eps mu s).
    assert (QP : 0 < q). { unfold q, probability, Rdiv. apply Rmult_lt_0_compat; [apply exp_pos|now apply Rinv_0_lt_compat]. }
    assert (LQ : ln q = - (beta * grand_energy eps mu s) - ln Z) by apply ln_prob.
    replace (beta * (p s * (grand_energy eps mu s + ln (p s) / beta)))
      with (p s * (beta * grand_energy eps mu s) + p s * ln (p s)) by (field; lra).
    destruct (Rle_lt_or_eq_dec 0 (p s) P0) as [PP|PZ].
    - assert (K := ln_le (q / p s) ltac:(apply Rmult_lt_0_compat; [exact QP|now apply Rinv_0_lt_compat])).
      unfold Rdiv in K. rewrite ln_mult, ln_Rinv in K; [|assumption|assumption|now apply Rinv_0_lt_compat].
      assert (M : p s * (ln q + - ln (p s)) <= p s * (q * / p s - 1)) by (apply Rmult_le_compat_l; lra).
      replace (p s * (q * / p s - 1)) with (q - p s) in M by (field; lra). rewrite LQ in M. lra.
    - rewrite <- PZ. lra. }
  pose proof (total_le _ _ _ T) as E. rewrite total_plus, !total_scale, P1, Q in E. rewrite total_scale. lra.
Qed.

Lemma gibbs_equal beta mu eps : 0 < beta -> within 20 beta eps mu ->
  distribution (length eps) (probability beta eps mu) /\
  total (GP0 beta eps mu)
  = total (map (fun s => probability beta eps mu s *
      (grand_energy eps mu s + ln (probability beta eps mu s) / beta)) (states (length eps))).
Proof.
  intros B W. split.
  - split.
    + intros s _. unfold probability, Rdiv. apply Rmult_le_pos; [left; apply exp_pos|].
      left. apply Rinv_0_lt_compat, Z_pos.
    + pose proof (avg_1 beta mu eps) as A. unfold average in A. rewrite <- A. apply total_ext. intros; ring.
  - rewrite gp_total by (assumption || lra).
    transitivity (average beta eps mu (fun s => grand_energy eps mu s + / beta * ln (probability beta eps mu s))).
    + rewrite avg_plus, avg_scale, avg_lnp. unfold omega. field. lra.
    + apply total_ext. intros; unfold Rdiv; ring.
Qed.

Lemma within_30 beta mu eps : within 20 beta eps mu -> within 30 beta eps mu.
Proof. intros W e I. specialize (W e I). lra. Qed.
