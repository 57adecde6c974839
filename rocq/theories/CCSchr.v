(** Vanishing CCSD residuals and the Schroedinger equation. *)
From Coq Require Import List Bool Arith ZArith Lia Ring String.
From Verif Require Import Scalar Tensor PySyntax PySem CCProg CISpec CIFacts CIStrings CILemmas CIExpSpec CIExp CCSpec CCFockSpec
  FockStates FockExp FockT FockSchr CCEquiv CCSym CCFock.
Import ListNotations.
Local Open Scope list_scope.

Section CCSchr.
  Variable K : cring.
  Local Open Scope K_scope.
  Add Ring KrCS : (c_th K).
  Variables no nv : nat.
  Variable h : nat -> nat -> K.
  Variable g : nat -> nat -> nat -> nat -> K.
  Variable F : one_e K.
  Variable I : two_e K.
  Hypothesis AG : antisym_ints (no + nv) g.
  Hypothesis BF : blocks1 no nv (fock no h g) F.
  Hypothesis BI : blocks2 no nv g I.
  Variable inv : nat -> K.
  Variable M : nat.
  Hypothesis HI : inverts inv M.
  Hypothesis HM : (nv < M)%nat.
  Variables T1 T2 : tensor K.
  Hypothesis H1 : t1_ok no nv T1.
  Hypothesis H2 : t2_ok no nv T2.
  Notation n := (no + nv)%nat.
  Notation ref := (aufbau n no).
  Notation H := (H_op n h g).
  Notation T := (cluster no nv T1 T2).

  Lemma self_opp (x : K) : x = - x -> x = 0.
  Proof.
    intros E. transitivity (chalf * (x + x)); [|rewrite E at 1; ring].
    transitivity ((1 + 1) * chalf * x); [rewrite half_two; ring|ring].
  Qed.

  Lemma projections f : f = "ccsd_simple"%string \/ f = "ccsd_stanton"%string ->
    exists R1 R2,
      returns (K := K) f [py_one_e F; py_two_e I; arr T1; arr T2] (tup [arr R1; arr R2]) /\
      t1_ok no nv R1 /\ t2_ok no nv R2 /\
      (forall a i s bra, (a < nv)%nat -> (i < no)%nat -> act [Cre (no + a); Ann i] ref = Some (s, bra) ->
         amp bra (transformed inv M T H) ref = CISpec.sgn s * dat R1 [a; i]) /\
      (forall a b i j s bra, (a < nv)%nat -> (b < nv)%nat -> (i < no)%nat -> (j < no)%nat ->
         act [Cre (no + a); Cre (no + b); Ann j; Ann i] ref = Some (s, bra) ->
         amp bra (transformed inv M T H) ref = CISpec.sgn s * dat R2 [a; b; i; j]).
  Proof.
    intros Hf. assert (P : exists R1 R2,
      returns (K := K) f [py_one_e F; py_two_e I; arr T1; arr T2] (tup [arr R1; arr R2]) /\
      shp R1 = [nv; no] /\ shp R2 = [nv; nv; no; no] /\
      (forall a i s bra, (a < nv)%nat -> (i < no)%nat -> act [Cre (no + a); Ann i] ref = Some (s, bra) ->
         amp bra (transformed inv M T H) ref = CISpec.sgn s * dat R1 [a; i]) /\
      (forall a b i j s bra, (a < nv)%nat -> (b < nv)%nat -> (i < no)%nat -> (j < no)%nat ->
         act [Cre (no + a); Cre (no + b); Ann j; Ann i] ref = Some (s, bra) ->
         amp bra (transformed inv M T H) ref = CISpec.sgn s * dat R2 [a; b; i; j])).
    { destruct Hf as [-> | ->].
      - exact (ccsd_simple_projections K no nv h g F I AG BF BI inv M HI HM T1 T2 H1 H2).
      - exact (ccsd_stanton_projections K no nv h g F I inv M T1 T2 AG BF BI HI HM H1 H2). }
    destruct P as (R1 & R2 & HR & _ & _ & P1 & P2). exists R1, R2.
    assert (Hf' : In f ["ccsd_simple"; "ccsd_stanton"; "lccsd_simple"]%string) by (destruct Hf as [-> | ->]; cbn; auto).
    destruct BF as [OF _]. pose proof (blocks_I_ok K no nv g I AG BI) as OI.
    destruct (ccsd_antisym K no nv F I T1 T2 f Hf' OF OI H1 H2) as (S1 & S2 & HS & O1 & O2).
    pose proof (returns_fun K _ _ _ _ HR HS) as Q. injection Q as -> ->. auto.
  Qed.

  Notation Hbar := (transformed inv M T H).
  Notation X := (opexp inv M T).

  Lemma anti1 a b i j : (a < nv)%nat -> (b < nv)%nat -> (i < no)%nat -> (j < no)%nat ->
    dat T2 [a; b; i; j] = - dat T2 [b; a; i; j].
  Proof. exact (proj1 (t2_anti K no nv T2 H2) a b i j). Qed.
  Lemma anti2 a b i j : (a < nv)%nat -> (b < nv)%nat -> (i < no)%nat -> (j < no)%nat ->
    dat T2 [a; b; i; j] = - dat T2 [a; b; j; i].
  Proof. exact (proj2 (t2_anti K no nv T2 H2) a b i j). Qed.

  Definition d1 : nat -> nat -> K := fun a i => dat T1 [a; i].
  Definition d2 : nat -> nat -> nat -> nat -> K := fun a b i j => dat T2 [a; b; i; j].
  Notation dv := (dev K no nv d1 d2 inv M H).
  Notation rs := (res K no nv d1 d2 inv M H).

  Lemma sgn_zero s (x : K) : CISpec.sgn s * x = 0 -> x = 0.
  Proof.
    intros E. destruct s; cbn in E.
    - transitivity (- (- (1) * x)); [ring|]. rewrite E. ring.
    - transitivity (1 * x); [ring|exact E].
  Qed.

  Lemma dev_amp E t : t <> ref -> dv E t = amp t Hbar ref.
  Proof.
    intros N. unfold dev. rewrite <- amp_eos. unfold kd.
    destruct (det_eqb ref t) eqn:Q; [apply det_eqb_eq in Q; congruence|].
    change (T_op no nv d1 d2) with T. ring.
  Qed.
  Lemma res_amp E t : rs E t = amp t (opmul H X) ref - E * amp t X ref.
  Proof. unfold res. rewrite !amp_eos, eos_opmul. reflexivity. Qed.

  Lemma ref_neq k t : excited (S k) ref t -> t <> ref.
  Proof. intros (_ & _ & D) ->. rewrite ndiff_refl in D. lia. Qed.

  Lemma dev_nf E : nfix K no nv (Z.of_nat no) (dv E).
  Proof. exact (dev_nfix K no nv d1 d2 anti1 anti2 inv M HI HM H (H_in K no nv h g) (neutral_H K no nv h g) E). Qed.

  Lemma vmin_dev_zero E R1 R2 : t2_ok no nv R2 ->
    amp ref Hbar ref = E ->
    (forall a i s bra, (a < nv)%nat -> (i < no)%nat -> act [Cre (no + a); Ann i] ref = Some (s, bra) ->
       amp bra Hbar ref = CISpec.sgn s * dat R1 [a; i]) ->
    (forall a b i j s bra, (a < nv)%nat -> (b < nv)%nat -> (i < no)%nat -> (j < no)%nat ->
       act [Cre (no + a); Cre (no + b); Ann j; Ann i] ref = Some (s, bra) ->
       amp bra Hbar ref = CISpec.sgn s * dat R2 [a; b; i; j]) ->
    ((forall a i, (a < nv)%nat -> (i < no)%nat -> dat R1 [a; i] = 0) /\
     (forall a b i j, (a < nv)%nat -> (b < nv)%nat -> (i < no)%nat -> (j < no)%nat -> dat R2 [a; b; i; j] = 0)
     <-> vmin K no nv 3 (dv E)).
  Proof.
    intros O2 HE P1 P2. rewrite vmin_levels.
    2:{ exact (dev_nf E). }
    split.
    - intros [Z1 Z2] k t Lk Xk. destruct k as [|[|[|k]]]; [| | |lia].
      + assert (t = ref) as ->.
        { destruct Xk as (L & _ & D). symmetry. apply ndiff_zero; auto. }
        unfold dev. rewrite <- amp_eos. change (T_op no nv d1 d2) with T. rewrite HE. unfold kd.
        rewrite det_eqb_refl. ring.
      + rewrite dev_amp by (apply (ref_neq 0); auto).
        destruct (single_word no nv t Xk) as (a & i & s & La & Li & Ea).
        rewrite (P1 a i s t La Li Ea), Z1 by auto. ring.
      + rewrite dev_amp by (apply (ref_neq 1); auto).
        destruct (double_word no nv t Xk) as (a & b & i & j & s & La & Lb & Li & Lj & Ea).
        rewrite (P2 a b i j s t La Lb Li Lj Ea), Z2 by auto. ring.
    - intros V0.
      assert (V : vmin K no nv 3 (dv E)).
      { apply vmin_levels; [exact (dev_nf E)|exact V0]. }
      clear V0. split.
      + intros a i La Li. destruct (word_single no nv a i La Li) as (s & t & Ea & L & Vt).
        apply (sgn_zero s). rewrite <- (P1 a i s t La Li Ea). rewrite <- (dev_amp E).
        * apply V; auto. lia.
        * intros ->. destruct (word_single_neq no nv a i s La Li Ea).
      + intros a b i j La Lb Li Lj. destruct O2 as (S2 & B1 & B2).
        destruct (Nat.eq_dec a b) as [->|Nab].
        { apply self_opp. apply B1. rewrite S2. repeat constructor; auto. }
        destruct (Nat.eq_dec i j) as [->|Nij].
        { apply self_opp. apply B2. rewrite S2. repeat constructor; auto. }
        destruct (word_double no nv a b i j La Lb Li Lj Nab Nij) as (s & t & Ea & L & Vt).
        apply (sgn_zero s). rewrite <- (P2 a b i j s t La Lb Li Lj Ea). rewrite <- (dev_amp E).
        * apply V; auto. lia.
        * intros ->. destruct (word_double_neq no nv a b i j s La Lb Li Lj Ea).
  Qed.

  (** <0|H exp(T)|0> is the number E with <0|exp(-T) H exp(T)|0> = E *)
  Lemma energy_exp E : amp ref Hbar ref = E -> amp ref (opmul H X) ref = E.
  Proof.
    intros HE. assert (D : vmin K no nv 1 (dv E)).
    { apply vmin_levels; [exact (dev_nf E)|]. intros k t Lk Xk. assert (k = 0%nat) by lia. subst k.
      assert (t = ref) as -> by (destruct Xk as (L & _ & D); symmetry; apply ndiff_zero; auto).
      unfold dev. rewrite <- amp_eos. change (T_op no nv d1 d2) with T. rewrite HE. unfold kd. rewrite det_eqb_refl. ring. }
    apply (vmin_dev_res K no nv d1 d2 anti1 anti2 inv M HI HM H (H_in K no nv h g) E 1) in D.
    assert (L : List.length ref = n) by apply aufbau_length.
    assert (V : (vlev no ref < 1)%nat) by (rewrite vlev_aufbau; lia).
    pose proof (D ref L V) as Z.
    rewrite res_amp in Z. assert (N : amp ref X ref = 1) by (rewrite amp_eos; apply exp_ref_ref; auto).
    rewrite N in Z. transitivity (amp ref (opmul H X) ref - E * 1 + E); [ring|]. rewrite Z. ring.
  Qed.
  Lemma energy_sum : exists e,
    returns (K := K) "cc_energy" [arr T1; arr T2; arr (ov F); arr (oovv I)] (numv e) /\
    amp ref (opmul H X) ref = amp ref H ref + e.
  Proof.
    destruct (cc_energy_expectation K no nv h g F I AG BF BI inv M HI HM T1 T2 H1 H2) as (e & He & Ee).
    exists e. split; [exact He|]. apply energy_exp. exact Ee.
  Qed.

  Lemma levels3 (P : nat -> Prop) : (forall k, (k < 3)%nat -> P k) <-> (forall k, (k <= 2)%nat -> P k).
  Proof. split; intros Q k Hk; apply Q; lia. Qed.

  Lemma schroedinger f : f = "ccsd_simple"%string \/ f = "ccsd_stanton"%string ->
    exists e R1 R2,
      returns (K := K) "cc_energy" [arr T1; arr T2; arr (ov F); arr (oovv I)] (numv e) /\
      returns (K := K) f [py_one_e F; py_two_e I; arr T1; arr T2] (tup [arr R1; arr R2]) /\
      t1_ok no nv R1 /\ t2_ok no nv R2 /\ amp ref X ref = 1 /\
      ((forall a i, (a < nv)%nat -> (i < no)%nat -> dat R1 [a; i] = 0) /\
       (forall a b i j, (a < nv)%nat -> (b < nv)%nat -> (i < no)%nat -> (j < no)%nat -> dat R2 [a; b; i; j] = 0)
       <-> forall k t, (k <= 2)%nat -> excited k ref t ->
             amp t (opmul H X) ref = (amp ref H ref + e) * amp t X ref) /\
      ((no <= 2)%nat \/ (nv <= 2)%nat ->
       (forall a i, (a < nv)%nat -> (i < no)%nat -> dat R1 [a; i] = 0) ->
       (forall a b i j, (a < nv)%nat -> (b < nv)%nat -> (i < no)%nat -> (j < no)%nat -> dat R2 [a; b; i; j] = 0) ->
       forall t, List.length t = n -> amp t (opmul H X) ref = (amp ref H ref + e) * amp t X ref).
  Proof.
    intros Hf. destruct (projections f Hf) as (R1 & R2 & HR & O1 & O2 & P1 & P2).
    destruct (cc_energy_expectation K no nv h g F I AG BF BI inv M HI HM T1 T2 H1 H2) as (e & He & Ee).
    exists e, R1, R2. split; [exact He|]. split; [exact HR|]. split; [exact O1|]. split; [exact O2|].
    set (E := amp ref H ref + e) in *.
    assert (Q := vmin_dev_zero E R1 R2 O2 Ee P1 P2).
    assert (NF : nfix K no nv (Z.of_nat no) (rs E)) by (apply res_nfix; auto using neutral_H).
    assert (DR : vmin K no nv 3 (dv E) <-> vmin K no nv 3 (rs E)).
    { exact (vmin_dev_res K no nv d1 d2 anti1 anti2 inv M HI HM H (H_in K no nv h g) E 3). }
    assert (Sub : forall x y : K, x - y = 0 -> x = y).
    { intros x y Z. transitivity (x - y + y); [ring|]. rewrite Z. ring. }
    split; [rewrite amp_eos; apply exp_ref_ref; auto|]. split.
    - rewrite Q, DR, (vmin_levels K no nv 3 (rs E) NF). split; intros S k t Lk Xk.
      + apply Sub. rewrite <- res_amp. apply (S k t); [lia|exact Xk].
      + rewrite res_amp. rewrite (S k t) by (auto; lia). ring.
    - intros Small Z1 Z2 t L. apply Sub. rewrite <- res_amp.
      destruct (Nat.eq_dec (nel t) no) as [N|N]; [|apply NF; auto; lia].
      pose proof (vlev_excited no nv t L N) as Xt.
      destruct (excited_bound _ _ _ Xt) as [B1 B2]. rewrite aufbau_length, nel_aufbau in * by lia.
      apply (proj1 DR (proj1 Q (conj Z1 Z2))); auto. lia.
  Qed.
End CCSchr.
