(** The matrix of the Hamiltonian in a basis of determinants times the
    coefficients of a state in the span of the basis. *)
From Coq Require Import List Bool Arith ZArith Lia Ring String.
From Verif Require Import Scalar Tensor PySyntax PySem CIModel CIRep CISpec CIFacts CIStrings CIBases CIFock CIMatrix CILemmas CIVec CIExpSpec CIExp
  CCSpec CCFockSpec FockStates FockExp FockT FockH FockSchr FockPerm CCSchr SpinSpec UFockSpec UFock UFockOps UCCSchr CIExpU CCCI ExModel ExSpec.
Import ListNotations.
Local Open Scope list_scope.

Lemma omap_map {A B C} (g : A -> B) (f : B -> option C) (h : A -> C) l :
  (forall x, In x l -> f (g x) = Some (h x)) -> omap f (map g l) = Some (map h l).
Proof.
  induction l as [|x l IH]; intros H; [reflexivity|]. cbn [map omap]. rewrite (H x) by (left; reflexivity).
  rewrite IH by (intros y Hy; apply H; right; exact Hy). reflexivity.
Qed.

Section ExRow.
  Variable K : cring.
  Local Open Scope K_scope.
  Add Ring KrER : (c_th K).
  Notation opsum := (list (K * list op)).

  Lemma row_sum0 n (A : opsum) (L : list det) psi s : aneutral K n A -> neutral K A -> NoDup L ->
    List.length s = (n + n)%nat ->
    (forall s', List.length s' = (n + n)%nat -> nel (firstn n s') = nel (firstn n s) -> nel s' = nel s -> In s' L \/ psi s' = 0) ->
    eos A psi s = SL L (fun x => amp s A x * psi x).
  Proof.
    intros Au Ne ND Ls Cl.
    rewrite (SL_ext K L _ (fun x => SL A (fun a => fst a * (eow (snd a) (kd x) s * psi x)))).
    2: { intros x _. rewrite amp_eos. unfold eos. rewrite <- SL_mul_r. apply SL_ext. intros a _. ring. }
    rewrite SL_swap. unfold eos. apply SL_ext. intros a Ia. rewrite SL_mul. f_equal.
    unfold aneutral, neutral in *. rewrite Forall_forall in Au, Ne.
    destruct (eow_at K n (snd a) s Ls) as [Z|(g & s' & L' & D & Ca & Cn & E)].
    - rewrite Z. symmetry. apply SL_zero. intros x _. rewrite Z. ring.
    - rewrite E. rewrite (Au a Ia) in Ca. rewrite (Ne a Ia) in Cn.
      rewrite (SL_ext K L _ (fun x => CISpec.sgn g * (kd x s' * psi x))) by (intros x _; rewrite E; ring).
      rewrite SL_mul. f_equal. destruct (in_dec (list_eq_dec bool_dec) s' L) as [I|I].
      + symmetry. apply (delta_sum K L s' psi ND I).
      + destruct (Cl s' L' ltac:(lia) ltac:(lia)) as [I'|Z]; [contradiction|]. rewrite Z. symmetry. apply SL_zero. intros x Ix. unfold kd.
        destruct (det_eqb x s') eqn:Q; [|ring]. apply det_eqb_eq in Q. subst. contradiction.
  Qed.

  Variables n noa nob : nat.
  Hypothesis Ha : (noa <= n)%nat.
  Hypothesis Hb : (nob <= n)%nat.
  Variables ha hb Ia Ib Iab : tensor K.
  Hypothesis Pha : shp ha = [n; n].
  Hypothesis Phb : shp hb = [n; n].
  Hypothesis PIa : shp Ia = [n; n; n; n].
  Hypothesis PIb : shp Ib = [n; n; n; n].
  Hypothesis PIab : shp Iab = [n; n; n; n].
  Notation ha_ := (fun p q => dat ha [p; q]).
  Notation hb_ := (fun p q => dat hb [p; q]).
  Notation Ia_ := (fun p q r s => dat Ia [p; q; r; s]).
  Notation Ib_ := (fun p q r s => dat Ib [p; q; r; s]).
  Notation Iab_ := (fun p q r s => dat Iab [p; q; r; s]).
  Hypothesis SA : pair_symmetric n Ia_.
  Hypothesis SB : pair_symmetric n Ib_.
  Variable c : K.
  Notation HS := (H_spatial_op n ha_ hb_ Ia_ Ib_ Iab_).
  Notation refS := (aufbau n noa ++ aufbau n nob).
  Variable L : list (det * det).
  Hypothesis ND : NoDup L.
  Hypothesis InS : forall x, In x L -> List.length (fst x) = n /\ List.length (snd x) = n /\ nel (fst x) = noa /\ nel (snd x) = nob.

  Definition rows : list (list K) :=
    map (fun x => map (fun y => H_spatial n c ha_ hb_ Ia_ Ib_ Iab_ (lst x) (lst y)) L) L.
  Lemma ci_matrix_ok : ci_matrix (map dpair L) ha hb Ia Ib Iab c = Some rows.
  Proof.
    unfold ci_matrix, rows. apply (omap_map dpair). intros x Ix. apply (omap_map dpair). intros y Iy.
    destruct (InS x Ix) as (X1 & X2 & X3 & X4). destruct (InS y Iy) as (Y1 & Y2 & Y3 & Y4).
    destruct x as [xa xb], y as [ya yb]. cbn [dpair fst snd lst] in *.
    apply (ci_matrixel_spec K n); try assumption; congruence.
  Qed.

  Lemma ND2 : NoDup (map lst L).
  Proof.
    assert (X : forall l, incl l L -> NoDup l -> NoDup (map lst l)).
    { induction l as [|x l IH]; intros I N; [constructor|]. inversion N as [|? ? NI N']; subst. cbn [map]. constructor.
      - intros Hx. apply in_map_iff in Hx as (y & E & Iy). apply NI. assert (y = x); [|subst; exact Iy].
        destruct (InS x (I x (or_introl eq_refl))) as (L1 & _). destruct (InS y (I y (or_intror Iy))) as (L2 & _).
        unfold lst in E. apply (app_inv (fst y) (snd y) (fst x) (snd x) ltac:(lia)) in E as [E1 E2]. destruct x, y; cbn in *; congruence.
      - apply IH; auto. intros y Iy. apply I. right. exact Iy. }
    apply X; [apply incl_refl|exact ND].
  Qed.
  Lemma combine_map_l {A B C} (f : A -> B) (g : A -> C) l : combine (map f l) (map g l) = map (fun y => (f y, g y)) l.
  Proof. induction l as [|y l IH]; [reflexivity|]. cbn. rewrite IH. reflexivity. Qed.

  Variable B : opsum.
  Hypothesis Sup : forall t, List.length t = (n + n)%nat -> nel (firstn n t) = noa -> nel t = (noa + nob)%nat ->
    In t (map lst L) \/ amp t B refS = 0.

  Lemma split_const x y : H_spatial n c ha_ hb_ Ia_ Ib_ Iab_ x y = c * kd y x + amp x HS y.
  Proof.
    rewrite <- H_spatial_amp. unfold H_spatial. cbv zeta.
    assert (Q : braket (K := K) x [] y = kd y x) by reflexivity. rewrite Q. ring.
  Qed.

  Lemma apply_rows : mat_vec rows (coefficients L B refS)
    = map (fun x => c * amp (lst x) B refS + amp (lst x) (opmul HS B) refS) L.
  Proof.
    unfold mat_vec, rows, coefficients. rewrite map_map. apply map_ext_in. intros x Ix.
    rewrite combine_map_l, map_map. cbn [fst snd].
    destruct (InS x Ix) as (X1 & X2 & X3 & X4).
    assert (Lx : List.length (lst x) = (n + n)%nat) by (unfold lst; rewrite app_length; lia).
    assert (Fx : firstn n (lst x) = fst x).
    { unfold lst. rewrite firstn_app, X1, Nat.sub_diag. cbn [firstn]. rewrite app_nil_r, <- X1 at 1. apply firstn_all. }
    assert (Nx : nel (lst x) = (noa + nob)%nat) by (unfold lst; rewrite nel_app; lia).
    change (SL L (fun y => H_spatial n c ha_ hb_ Ia_ Ib_ Iab_ (lst x) (lst y) * amp (lst y) B refS)
      = c * amp (lst x) B refS + amp (lst x) (opmul HS B) refS).
    rewrite (SL_ext K L _ (fun y => c * (kd (lst y) (lst x) * amp (lst y) B refS) + amp (lst x) HS (lst y) * amp (lst y) B refS))
      by (intros y _; rewrite split_const; ring).
    rewrite SL_add, SL_mul. f_equal.
    - f_equal. pose proof (delta_sum K (map lst L) (lst x) (fun t => amp t B refS) ND2 (in_map lst _ _ Ix)) as Q. rewrite SL_map in Q. exact Q.
    - rewrite (amp_eos K (lst x) (opmul HS B)), eos_opmul.
      rewrite (row_sum0 n HS (map lst L) _ (lst x) (aneutral_H K n _ _ _ _ _) (neutral_HS K _ _ _ _ _ _) ND2 Lx).
      + rewrite SL_map. apply SL_ext. intros y _. rewrite (amp_eos K (lst y) B). reflexivity.
      + intros s' Ls' Ea En. rewrite Fx, X3 in Ea. rewrite Nx in En.
        destruct (Sup s' Ls' Ea En) as [I|Z]; [left; exact I|right]. rewrite amp_eos in Z. exact Z.
  Qed.

  Lemma eigen_rows E : eigenvector rows (coefficients L B refS) E <->
    forall x, In x L -> amp (lst x) (opmul HS B) refS = (E - c) * amp (lst x) B refS.
  Proof.
    unfold eigenvector. rewrite apply_rows. unfold coefficients. rewrite map_map.
    assert (G : forall l, (map (fun x => c * amp (lst x) B refS + amp (lst x) (opmul HS B) refS) l = map (fun x : det * det => E * amp (fst x ++ snd x) B refS) l) <->
      (forall x, In x l -> amp (lst x) (opmul HS B) refS = (E - c) * amp (lst x) B refS)).
    { induction l as [|x l IH]; [split; [intros _ x []|reflexivity]|]. cbn [map]. split.
      - intros Q. injection Q as Q1 Q2. intros y [<-|Iy]; [|apply (proj1 IH Q2 y Iy)].
        transitivity (c * amp (lst x) B refS + amp (lst x) (opmul HS B) refS - c * amp (lst x) B refS); [ring|]. rewrite Q1. unfold lst. ring.
      - intros Q. f_equal; [|apply IH; intros y Iy; apply Q; right; exact Iy].
        rewrite (Q x) by (left; reflexivity). unfold lst. ring. }
    apply G.
  Qed.
End ExRow.
