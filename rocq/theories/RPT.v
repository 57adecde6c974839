(** Second order perturbation theory of closed shells. *)
From Coq Require Import List Bool Arith ZArith Lia Ring String.
From Verif Require Import Scalar Tensor PySyntax PySem CCProg CISpec CIExpSpec CIExp CCSpec CCFockSpec CCEquiv CCFock
  UtilsModel UtilsFacts UFockSpec UFock UCCSchr ExSpec ExClosed PTSpec FockPT2 UExamples UPTSpec RPTSpec UPT UEnergy.
Import ListNotations.
Local Open Scope list_scope.

Section RPT.
  Variable K : cring.
  Local Open Scope K_scope.
  Add Ring KrRP : (c_th K).
  Variables n no nv : nat.
  Hypothesis N : (no + nv)%nat = n.
  Variable h : nat -> nat -> K.
  Variable I : nat -> nat -> nat -> nat -> K.
  Hypothesis S : pair_symmetric n I.
  Variables eo ev : nat -> K.
  Variable t : nat -> nat -> nat -> nat -> K.
  Hypothesis U1 : forall a i, (a < nv)%nat -> (i < no)%nat -> exists x, x * (ev a - eo i) = 1.
  Hypothesis U2 : forall a b i j, (a < nv)%nat -> (b < nv)%nat -> (i < no)%nat -> (j < no)%nat -> exists x, x * (ev a + ev b - eo i - eo j) = 1.
  Hypothesis F0 : forall a i, (a < nv)%nat -> (i < no)%nat -> closed_fock no h I (no + a) i = 0.
  Hypothesis Q2 : forall a b i j, (a < nv)%nat -> (b < nv)%nat -> (i < no)%nat -> (j < no)%nat ->
    t a b i j * (ev a + ev b - eo i - eo j) = - I (no + a)%nat (no + b)%nat i j.
  Notation refS := (aufbau n no ++ aufbau n no).
  Notation H0 := (diagonal (n + n) (two_spins n (levels no eo ev) (levels no eo ev))).
  Notation V := (minus (H_spatial_op n h h I I I) H0).
  Notation E0 := ((1 + 1) * sumN no eo).

  Definition vec (m : nat) (e : nat -> K) : tensor K := mkT [m] (fun ix => match ix with [i] => e i | _ => 0 end).
  Definition arr4 (a b c d : nat) (f : nat -> nat -> nat -> nat -> K) : tensor K :=
    mkT [a; b; c; d] (fun ix => match ix with [p; q; r; s] => f p q r s | _ => 0 end).
  Notation T1 := (tzeros K [nv; no]).
  Notation T2ab := (arr4 nv nv no no t).
  Notation T2aa := (arr4 nv nv no no (fun a b i j => t a b i j - t a b j i)).
  Notation Fa := (build1 K no nv (fock_alpha no no h I I)).
  Notation Fb := (build1 K no nv (fock_beta no no h I I)).
  Notation Iaa := (build2 K no nv (anti I)).
  Notation J := (build2_mixed K no nv no nv I).

  Lemma t_sym a b i j : (a < nv)%nat -> (b < nv)%nat -> (i < no)%nat -> (j < no)%nat -> t a b i j = t b a j i.
  Proof.
    intros La Lb Li Lj. destruct (U2 a b i j La Lb Li Lj) as (x & Hx). apply (cancel_r K _ _ _ x Hx).
    rewrite Q2 by assumption. transitivity (t b a j i * (ev b + ev a - eo j - eo i)); [|ring]. rewrite Q2 by assumption.
    rewrite (S (no + a)%nat (no + b)%nat i j) by lia. reflexivity.
  Qed.

  Notation X := (four K no no nv nv (fun i j a b => I i j (no + a)%nat (no + b)%nat * t a b i j)).
  Notation Y := (four K no no nv nv (fun i j a b => I i j (no + b)%nat (no + a)%nat * t a b i j)).
  Lemma pairs_XY : closed_pairs no nv I t = (1 + 1) * X - Y.
  Proof.
    transitivity (four K no no nv nv (fun i j a b => (1 + 1) * (I i j (no + a)%nat (no + b)%nat * t a b i j) + - (1) * (I i j (no + b)%nat (no + a)%nat * t a b i j))).
    - unfold closed_pairs. apply (four_ext K no no nv nv). intros. ring.
    - rewrite four_add, !four_mul. ring.
  Qed.
  Lemma anti_XY : four K no no nv nv (fun i j a b => anti I i j (no + a) (no + b) * (t a b i j - t a b j i)) = (X - Y) + (X - Y).
  Proof.
    assert (EX : X = four K no no nv nv (fun i j a b => I i j (no + b)%nat (no + a)%nat * t a b j i)).
    { rewrite (four_swap K no no nv (fun i j a b => I i j (no + a)%nat (no + b)%nat * t a b i j)). apply four_ext. intros. rewrite (t_sym l k i j) by assumption. reflexivity. }
    assert (EY : Y = four K no no nv nv (fun i j a b => I i j (no + a)%nat (no + b)%nat * t a b j i)).
    { rewrite (four_swap K no no nv (fun i j a b => I i j (no + b)%nat (no + a)%nat * t a b i j)). apply four_ext. intros. rewrite (t_sym l k i j) by assumption. reflexivity. }
    transitivity (X + - (1) * Y + (four K no no nv nv (fun i j a b => I i j (no + b)%nat (no + a)%nat * t a b j i) +
      - (1) * four K no no nv nv (fun i j a b => I i j (no + a)%nat (no + b)%nat * t a b j i))).
    - rewrite <- !four_mul, <- !four_add. apply four_ext. intros. unfold anti. ring.
    - rewrite <- EX, <- EY. ring.
  Qed.

  Lemma r_pt :
    eigenstate (n + n) refS H0 E0 /\
    (exists Psi, first_order (n + n) refS H0 V E0 (amp refS V refS) Psi) /\
    forall Psi, first_order (n + n) refS H0 V E0 (amp refS V refS) Psi -> amp refS (opmul V Psi) refS = closed_pairs no nv I t.
  Proof.
    pose proof (build_ok K n no nv no nv h h I I I N N S S) as HU.
    destruct (D1_spec K (vec nv ev) (vec no eo) nv no eq_refl eq_refl) as (Da & HDa & _ & Va).
    destruct (D2_spec K (vec nv ev) (vec no eo) nv no eq_refl eq_refl) as (Daa & HDaa & _ & Vaa & _).
    destruct (D2u_spec K (vec nv ev) (vec nv ev) (vec no eo) (vec no eo) nv nv no no eq_refl eq_refl eq_refl eq_refl) as (Dab & HDab & _ & Vab).
    cbn [vec dat] in Va, Vaa, Vab.
    assert (Q1 : forall (F : one_e K) f, vo F = cut2 K f no nv 0 no -> (forall a i, (a < nv)%nat -> (i < no)%nat -> f (no + a)%nat i = 0) -> quotient [nv; no] (vo F) Da T1).
    { intros F f -> E. split; [reflexivity|]. intros ix L. inversion L as [|a ? r ? La H1]; subst. inversion H1 as [|i ? r1 ? Li H2]; subst. inversion H2; subst.
      rewrite Va by assumption. split; [apply U1; assumption|]. cbn [tzeros cut2 dat Nat.add]. rewrite E by assumption. ring. }
    assert (Q4 : forall I0 D T f g, shp T = [nv; nv; no; no] ->
      (forall a b i j, (a < nv)%nat -> (b < nv)%nat -> (i < no)%nat -> (j < no)%nat -> dat D [a; b; i; j] = ev a + ev b - eo i - eo j) ->
      (forall a b i j, dat T [a; b; i; j] = f a b i j) -> (forall a b i j, dat I0 [a; b; i; j] = g (no + a)%nat (no + b)%nat i j) ->
      (forall a b i j, (a < nv)%nat -> (b < nv)%nat -> (i < no)%nat -> (j < no)%nat -> f a b i j * (ev a + ev b - eo i - eo j) = - g (no + a)%nat (no + b)%nat i j) ->
      quotient [nv; nv; no; no] I0 D T).
    { intros I0 D T f g ST ED ET EI E. split; [exact ST|]. intros ix L.
      inversion L as [|a ? r ? La H1]; subst. inversion H1 as [|b ? r1 ? Lb H2]; subst.
      inversion H2 as [|i ? r2 ? Li H3]; subst. inversion H3 as [|j ? r3 ? Lj H4]; subst. inversion H4; subst.
      rewrite ED by assumption. split; [apply U2; assumption|]. rewrite ET, EI. apply E; assumption. }
    assert (QF := Q1 Fa (fock_alpha no no h I I) eq_refl (fun a i La Li => eq_trans (fock_a K no h I _ _) (F0 a i La Li))).
    assert (QG := Q1 Fb (fock_beta no no h I I) eq_refl (fun a i La Li => eq_trans (fock_b K n no nv N h I S (no + a)%nat i ltac:(lia) ltac:(lia)) (F0 a i La Li))).
    assert (Qab : quotient [nv; nv; no; no] (fvvoo J) Dab T2ab).
    { apply (Q4 _ _ _ t I); auto; intros; reflexivity. }
    assert (Qaa : quotient [nv; nv; no; no] (vvoo Iaa) Daa T2aa).
    { apply (Q4 _ _ _ (fun a b i j => t a b i j - t a b j i) (anti I)); auto; try (intros; reflexivity).
      intros a b i j La Lb Li Lj. unfold anti. transitivity (t a b i j * (ev a + ev b - eo i - eo j) - t a b j i * (ev a + ev b - eo j - eo i)); [ring|].
      rewrite !Q2 by assumption. ring. }
    destruct (u_pt K n no nv no nv h h I I I Fa Fb Iaa Iaa J (vec no eo) (vec nv ev) (vec no eo) (vec nv ev) Da Da Daa Dab Daa T1 T1 T2aa T2ab T2aa
      HU eq_refl eq_refl eq_refl eq_refl HDa HDa HDaa HDab HDaa QF QG Qaa Qab Qaa) as (PA & PB & e & He & PC).
    assert (EE : sumN no (fun i => dat (vec no eo) [i]) + sumN no (fun i => dat (vec no eo) [i]) = E0) by (change (sumN no eo + sumN no eo = (1 + 1) * sumN no eo); ring).
    rewrite EE in PA, PB, PC.
    split; [exact PA|]. split; [eexists; exact PB|]. intros Psi HP. etransitivity; [exact (PC Psi HP)|].
    pose proof (ump2_formula K no nv no nv T1 T1 T2aa T2ab T2aa (ov Fa) (ov Fb) (oovv Iaa) (oovv Iaa) (foovv J)
      eq_refl eq_refl eq_refl eq_refl eq_refl eq_refl eq_refl eq_refl eq_refl eq_refl) as R.
    pose proof (returns_fun K _ _ _ _ He R) as Z. injection Z as ->.
    rewrite pairs_XY. unfold mp2_sum.
    cbn [build1 build2 build2_mixed ov oovv foovv cut2 cut4 arr4 tzeros dat Nat.add].
    assert (Z : forall f : nat -> nat -> K, two K no nv (fun i a => f i a * 0) = 0).
    { intros f. unfold two. transitivity (sumN no (fun _ => (0 : K))); [|apply sumN_0]. apply sumN_ext. intros i _.
      transitivity (sumN nv (fun _ => (0 : K))); [|apply sumN_0]. apply sumN_ext. intros; ring. }
    rewrite !Z. rewrite anti_XY. unfold quarter. set (x := X). set (y := Y).
    transitivity (chalf * (chalf * ((x - y) + (x - y)) + chalf * ((x - y) + (x - y))) + x); [ring|].
    rewrite !half_two. ring.
  Qed.
End RPT.
