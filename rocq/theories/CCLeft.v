(** Solved Lambda equations: the left eigenvector of exp(-T) H exp(T). *)
From Coq Require Import List Bool Arith ZArith Lia Ring String.
From Verif Require Import Scalar CISpec CIRep CIFacts CIStrings CIFock CIMatrix CILemmas CIVec CIBases CIExpSpec CIExp Tensor PySyntax PySem
  CCProg CCSpec CCFockSpec FockStates FockExp FockT FockSchr CCFock CCSchr CCDensSpec CCDens CCLambda CCEquiv.
Import ListNotations.
Local Open Scope string_scope.
Local Open Scope list_scope.
Notation csgn := CISpec.sgn.

Lemma act1_nel o s g t : act1 o s = Some (g, t) ->
  Z.of_nat (nel t) = (Z.of_nat (nel s) + charge [o])%Z.
Proof.
  rewrite act1_eq. destruct (Nat.ltb_spec (opi o) (List.length s)) as [L|L]; [|discriminate]. cbn [andb].
  destruct (Bool.eqb _ _) eqn:B; [|discriminate]. intros [= _ <-].
  apply eqb_prop in B. pose proof (nel_put (opi o) (opb o) s L) as P.
  destruct o as [p|p]; cbn [opi opb negb charge] in *; rewrite B in P; lia.
Qed.
Lemma act_nel w : forall s g t, act w s = Some (g, t) -> Z.of_nat (nel t) = (Z.of_nat (nel s) + charge w)%Z.
Proof.
  induction w as [|o w IH]; intros s g t E.
  - injection E as _ <-. cbn. lia.
  - rewrite act_cons in E. destruct (act w s) as [[g1 s1]|] eqn:Ew; [|discriminate]. cbn in E.
    destruct (act1 o s1) as [[g2 s2]|] eqn:Eo; [|discriminate]. injection E as _ <-.
    apply IH in Ew. apply act1_nel in Eo. change (o :: w) with ([o] ++ w). rewrite charge_app. lia.
Qed.

Section Left.
  Variable K : cring.
  Local Open Scope K_scope.
  Add Ring KrLeft : (c_th K).
  Variables no nv : nat.
  Notation n := (no + nv)%nat.
  Notation ref := (aufbau n no).

  Lemma eow_kd w s ket : act w ref = Some (s, ket) -> forall u, eow w (kd ref) u = csgn s * kd (K := K) ket u.
  Proof.
    intros E u. rewrite <- braket_eow. unfold braket, kd. rewrite E. destruct (det_eqb ket u); ring.
  Qed.
  Lemma eow_kd_none w : act w ref = None -> forall u, eow w (kd ref) u = 0 :> K.
  Proof. intros E u. rewrite <- braket_eow. unfold braket. rewrite E. reflexivity. Qed.

  Lemma vmin_low k o (psi : state K) : vmin K no nv (S k) psi -> vmin K no nv k (eo o psi).
  Proof.
    intros V t Lt Hv. unfold eo. destruct (_ && _); [|reflexivity].
    rewrite V; [ring|rewrite put_length; auto|]. pose proof (vlev_put_le no (opi o) (negb (opb o)) t). lia.
  Qed.
  Lemma vmin_occ k o (psi : state K) : (opi o < no)%nat -> vmin K no nv k psi -> vmin K no nv k (eo o psi).
  Proof.
    intros L V t Lt Hv. unfold eo. destruct (_ && _); [|reflexivity].
    rewrite V; [ring|rewrite put_length; auto|]. rewrite vlev_put_o by auto. exact Hv.
  Qed.
  Lemma lambda_vmin c l1 l2 psi : vmin K no nv 3 psi -> eos (lambda_op no nv c l1 l2) psi ref = 0.
  Proof.
    intros V.
    assert (R : forall phi, vmin K no nv 1 phi -> phi ref = 0).
    { intros phi Vp. apply Vp; [apply aufbau_length|]. rewrite vlev_aufbau. lia. }
    unfold lambda_op, eos. rewrite SL_cons, SL_app. cbn [fst snd eow].
    rewrite (R psi) by (apply (vmin_mono K no nv 3); auto).
    rewrite !SL_zero; [ring| |].
    - intros x Hx.
      repeat match goal with
      | H : In _ (seq _ _) |- _ => apply in_seq in H
      | H : In _ (flat_map _ _) |- _ => apply in_flat_map in H as (? & ? & ?)
      | H : In _ (map _ _) |- _ => apply in_map_iff in H as (? & <- & ?)
      end. cbn [fst snd eow]. rewrite R; [ring|].
      apply vmin_occ; [cbn; lia|]. apply vmin_occ; [cbn; lia|]. apply vmin_low, vmin_low, V.
    - intros x Hx.
      repeat match goal with
      | H : In _ (seq _ _) |- _ => apply in_seq in H
      | H : In _ (flat_map _ _) |- _ => apply in_flat_map in H as (? & ? & ?)
      | H : In _ (map _ _) |- _ => apply in_map_iff in H as (? & <- & ?)
      end. cbn [fst snd eow]. rewrite R; [ring|].
      apply vmin_occ; [cbn; lia|]. apply (vmin_mono K no nv 2); [lia|]. apply vmin_low, V.
  Qed.

  Section Main.
  Variable h : nat -> nat -> K.
  Variable g : nat -> nat -> nat -> nat -> K.
  Variable F : one_e K.
  Variable I : two_e K.
  Hypothesis AG : antisym_ints (no + nv) g.
  Hypothesis BF : blocks1 no nv (fock no h g) F.
  Hypothesis BI : blocks2 no nv g I.
  Variable inv : nat -> K.
  Variable M : nat.
  Hypothesis HI : inverts inv M.
  Hypothesis HM : (nv < M)%nat.
  Variables T1 T2 L1 L2 : tensor K.
  Hypothesis H1 : t1_ok no nv T1.
  Hypothesis H2 : t2_ok no nv T2.
  Hypothesis HL1 : l1_ok no nv L1.
  Hypothesis HL2 : l2_ok no nv L2.
  Notation H := (H_op n h g).
  Notation Hbar := (transformed inv M (cluster no nv T1 T2) H).
  Notation Lam := (lambda_op no nv 1 (fun i a => dat L1 [i; a]) (fun i j a b => dat L2 [i; j; a; b])).
  Notation C w := (cc_commutator inv M no nv 1 T1 T2 L1 L2 H [(1, w)]).
  Notation dv := (dev K no nv (d1 K T1) (d2 K T2) inv M H).

  Lemma comm_eos w : C w = eos Lam (eos Hbar (eow w (kd ref))) ref - eos Lam (eow w (eos Hbar (kd ref))) ref.
  Proof.
    unfold cc_commutator, commutator. rewrite amp_eos, eos_opmul.
    transitivity (1 * eos Lam (eos Hbar (eow w (kd ref))) ref - eos Lam (eow w (eos Hbar (kd ref))) ref); [|ring].
    apply eos_lin. intros u _. rewrite eos_app, eos_opscale, !eos_opmul.
    assert (E : forall phi v, eos [((1 : K), w)] phi v = eow w phi v).
    { intros. unfold eos, SL. cbn [map lsum fst snd]. ring. }
    rewrite E. rewrite (eos_ext K Hbar (eos [(1, w)] (kd ref)) (eow w (kd ref)) u) by (intros v _; apply E). ring.
  Qed.

  Lemma comm_dev E w : Forall (exc_op no nv) w -> vmin K no nv 3 (dv E) ->
    C w = eos Lam (eos Hbar (eow w (kd ref))) ref - E * eos Lam (eow w (kd ref)) ref.
  Proof.
    intros Hw V. rewrite comm_eos.
    assert (Q : eos Lam (eow w (eos Hbar (kd ref))) ref = E * eos Lam (eow w (kd ref)) ref - - (1) * 0).
    { pose proof (lambda_vmin 1 (fun i a => dat L1 [i; a]) (fun i j a b => dat L2 [i; j; a; b]) (eow w (dv E))
        (vmin_word K no nv 3 w _ Hw V)) as Z.
      transitivity (E * eos Lam (eow w (kd ref)) ref - - (1) * eos Lam (eow w (dv E)) ref); [|rewrite Z; reflexivity].
      rewrite (eos_lin K Lam _ (eow w (kd ref)) (fun u => - (1) * eow w (dv E) u) E ref).
      - rewrite eos_mul. ring.
      - intros u _. rewrite (eow_ext K w (eos Hbar (kd ref)) (fun v => E * kd ref v + dv E v) u).
        + rewrite eow_add, eow_mul. ring.
        + intros v _. unfold dev. change (T_op no nv (d1 K T1) (d2 K T2)) with (cluster no nv T1 T2). ring. }
    rewrite Q. ring.
  Qed.

  Lemma comm_ket E w s ket : Forall (exc_op no nv) w -> vmin K no nv 3 (dv E) -> act w ref = Some (s, ket) ->
    C w = csgn s * (amp ref (opmul Lam Hbar) ket - E * amp ref Lam ket).
  Proof.
    intros Hw V A. rewrite (comm_dev E w Hw V). rewrite !amp_eos, eos_opmul.
    rewrite (eos_ext K Lam (eos Hbar (eow w (kd ref))) (fun u => csgn s * eos Hbar (kd ket) u) ref).
    - rewrite (eos_ext K Lam (eow w (kd ref)) (fun u => csgn s * kd ket u) ref) by (intros u _; apply eow_kd; auto).
      rewrite !eos_mul. ring.
    - intros u _. rewrite <- eos_mul. apply eos_ext. intros v _. apply eow_kd; auto.
  Qed.
  Lemma comm_none E w : Forall (exc_op no nv) w -> vmin K no nv 3 (dv E) -> act w ref = None -> C w = 0.
  Proof.
    intros Hw V A. rewrite (comm_dev E w Hw V).
    assert (Z : forall (B : list (K * list op)) phi u, (forall v, phi v = 0) -> eos B phi u = 0).
    { intros B phi u Hp. unfold eos. apply SL_zero. intros a _. rewrite eow_zero; [ring|auto]. }
    rewrite (Z Lam (eos Hbar _)) by (intros; apply Z, eow_kd_none, A).
    rewrite Z by (apply eow_kd_none, A). ring.
  Qed.

  Lemma act_excited w s ket : charge w = 0%Z -> act w ref = Some (s, ket) -> excited (vlev no ket) ref ket.
  Proof.
    intros Q A. apply vlev_excited.
    - rewrite (act_length _ _ _ _ A). apply aufbau_length.
    - apply act_nel in A. rewrite Q, nel_aufbau in A by lia. lia.
  Qed.

  (** the bra <0|(1 + Lambda) is a left eigenvector in the space of singles and doubles *)
  Lemma left_iff E R1 R2 : t2_ok no nv R2 -> amp ref Hbar ref = E ->
    (forall a i s bra, (a < nv)%nat -> (i < no)%nat -> act [Cre (no + a); Ann i] ref = Some (s, bra) ->
       amp bra Hbar ref = csgn s * dat R1 [a; i]) ->
    (forall a b i j s bra, (a < nv)%nat -> (b < nv)%nat -> (i < no)%nat -> (j < no)%nat ->
       act [Cre (no + a); Cre (no + b); Ann j; Ann i] ref = Some (s, bra) ->
       amp bra Hbar ref = csgn s * dat R2 [a; b; i; j]) ->
    (forall a i, (a < nv)%nat -> (i < no)%nat -> dat R1 [a; i] = 0) ->
    (forall a b i j, (a < nv)%nat -> (b < nv)%nat -> (i < no)%nat -> (j < no)%nat -> dat R2 [a; b; i; j] = 0) ->
    forall M1 M2, lambda_are K no nv h g inv M T1 T2 L1 L2 M1 M2 ->
    ((forall i a, (i < no)%nat -> (a < nv)%nat -> dat M1 [i; a] = 0) /\
     (forall i j a b, (i < no)%nat -> (j < no)%nat -> (a < nv)%nat -> (b < nv)%nat -> dat M2 [i; j; a; b] = 0)
     <-> forall k ket, (k <= 2)%nat -> excited k ref ket -> amp ref (opmul Lam Hbar) ket = E * amp ref Lam ket).
  Proof.
    intros O2 HE P1 P2 Z1 Z2 M1 M2 (_ & _ & Q1 & Q2).
    assert (V : vmin K no nv 3 (dv E)).
    { apply (vmin_dev_zero K no nv h g inv M HI HM T1 T2 H2 E R1 R2 O2 HE P1 P2). auto. }
    assert (X1 : forall a i, (a < nv)%nat -> (i < no)%nat -> Forall (exc_op no nv) [Cre (no + a); Ann i]).
    { intros. repeat constructor; cbn; lia. }
    assert (X2 : forall a b i j, (a < nv)%nat -> (b < nv)%nat -> (i < no)%nat -> (j < no)%nat ->
      Forall (exc_op no nv) [Cre (no + a); Cre (no + b); Ann j; Ann i]).
    { intros. repeat constructor; cbn; lia. }
    assert (Sub : forall x y : K, x - y = 0 -> x = y).
    { intros x y Z. transitivity (x - y + y); [ring|]. rewrite Z. ring. }
    split.
    - intros [N1 N2] k ket Lk Xk. destruct k as [|[|[|k]]]; [| | |lia].
      + apply excited0 in Xk. subst ket.
        rewrite !amp_eos, eos_opmul.
        pose proof (lambda_vmin 1 (fun i a => dat L1 [i; a]) (fun i j a b => dat L2 [i; j; a; b]) _ V) as LZ.
        apply Sub. rewrite <- LZ. symmetry.
        transitivity (1 * eos Lam (eos Hbar (kd ref)) ref - eos Lam (fun u => E * kd ref u) ref); [|rewrite eos_mul; ring].
        apply eos_lin. intros u _. unfold dev.
        change (T_op no nv (d1 K T1) (d2 K T2)) with (cluster no nv T1 T2). ring.
      + destruct (single_word no nv ket Xk) as (a & i & s & La & Li & A).
        apply Sub. apply (sgn_zero K s). rewrite <- (comm_ket E _ s ket (X1 a i La Li) V A).
        rewrite <- Q1 by auto. auto.
      + destruct (double_word no nv ket Xk) as (a & b & i & j & s & La & Lb & Li & Lj & A).
        apply Sub. apply (sgn_zero K s). rewrite <- (comm_ket E _ s ket (X2 a b i j La Lb Li Lj) V A).
        rewrite <- Q2 by auto. auto.
    - intros Y. split.
      + intros i a Li La. rewrite Q1 by auto.
        destruct (word_single no nv a i La Li) as (s & ket & A & L & Vk).
        rewrite (comm_ket E _ s ket (X1 a i La Li) V A).
        rewrite (Y (vlev no ket) ket); [ring|lia|eapply act_excited; [|exact A]; reflexivity].
      + intros i j a b Li Lj La Lb. rewrite Q2 by auto.
        destruct (act [Cre (no + a); Cre (no + b); Ann j; Ann i] ref) as [[s ket]|] eqn:A.
        2:{ apply (comm_none E); auto. }
        rewrite (comm_ket E _ s ket (X2 a b i j La Lb Li Lj) V A).
        rewrite (Y (vlev no ket) ket); [ring| |eapply act_excited; [|exact A]; reflexivity].
        destruct (Nat.eq_dec a b) as [->|Nab].
        { exfalso. rewrite act_act4 in A by (rewrite ?aufbau_length; lia). unfold act4 in A.
          rewrite Nat.eqb_refl in A. rewrite !andb_false_r in A. discriminate. }
        destruct (Nat.eq_dec i j) as [->|Nij].
        { exfalso. rewrite act_act4 in A by (rewrite ?aufbau_length; lia). unfold act4 in A.
          rewrite Nat.eqb_refl in A. cbn [negb] in A. rewrite ?andb_false_r in A. discriminate. }
        destruct (word_double no nv a b i j La Lb Li Lj Nab Nij) as (s' & ket' & A' & L & Vk).
        rewrite A in A'. injection A' as <- <-. exact Vk.
  Qed.
  End Main.
End Left.
