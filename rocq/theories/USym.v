(** The results of the unrestricted and restricted functions have the
    permutational symmetry of their arguments.  Unrestricted: read off from the
    spin-orbital functions.  Restricted density matrices: symbolic runs. *)
From Coq Require Import List Bool Arith ZArith Lia Ring String.
From Verif Require Import Scalar Tensor PySyntax PySem PySim Sym SymSound Norm CCProg CCSpec Engine
  Tools SOCtx NpModel SpinModel SpinSpec SpinFacts SpinRound SpinOut CCSpin RCtx CCRest CCShapes Public
  CCEquiv CCSym PropertiesSpin.
Import ListNotations.
Local Open Scope string_scope.

Definition usp (noa nva nob nvb : nat) (s : space) : nat :=
  match s with so => noa | sv => nva | sO => nob | sV => nvb end.

Section USym.
  Variable K : cring.
  Local Open Scope K_scope.
  Add Ring KrUS : (c_th K).
  Notation T := (tensor K).

  Lemma inr4' a b c d i j k l : inrange [a; b; c; d] [i; j; k; l] ->
    (i < a /\ j < b /\ k < c /\ l < d)%nat.
  Proof.
    intros H. inversion H; subst. inversion H5; subst. inversion H7; subst. inversion H9; subst. auto.
  Qed.

  (** like-spin blocks of an antisymmetric array *)
  Lemma lead_blocks a c d b e f (t : T) bl (aa bb : T) :
    holds [a; a; c; d] [b; b; e; f] t bl ->
    bl [false; false; false; false] = Some aa -> bl [true; true; true; true] = Some bb ->
    shp aa = [a; a; c; d] -> shp bb = [b; b; e; f] -> antisym_lead t -> antisym_lead aa /\ antisym_lead bb.
  Proof.
    intros H Ea Eb Sa Sb At. pose proof H as (St & _). cbn [sums] in St.
    split; intros i j k l R; [rewrite Sa in R|rewrite Sb in R]; apply inr4' in R; destruct R as (R1 & R2 & R3 & R4).
    - pose proof (At i j k l) as Q. rewrite St in Q.
      pose proof (entry4 K _ _ _ _ _ _ _ _ t bl false false false false i j k l H R1 R2 R3 R4) as E1.
      pose proof (entry4 K _ _ _ _ _ _ _ _ t bl false false false false j i k l H R2 R1 R3 R4) as E2.
      cbn [at_spin] in E1, E2. rewrite Ea in E1, E2. rewrite <- E1, <- E2. apply Q.
      repeat constructor; lia.
    - pose proof (At (a + i) (a + j) (c + k) (d + l))%nat as Q. rewrite St in Q.
      pose proof (entry4 K _ _ _ _ _ _ _ _ t bl true true true true i j k l H R1 R2 R3 R4) as E1.
      pose proof (entry4 K _ _ _ _ _ _ _ _ t bl true true true true j i k l H R2 R1 R3 R4) as E2.
      cbn [at_spin] in E1, E2. rewrite Eb in E1, E2. rewrite <- E1, <- E2. apply Q.
      repeat constructor; lia.
  Qed.
  Lemma tail_blocks a c d b e f (t : T) bl (aa bb : T) :
    holds [a; c; d; d] [b; e; f; f] t bl ->
    bl [false; false; false; false] = Some aa -> bl [true; true; true; true] = Some bb ->
    shp aa = [a; c; d; d] -> shp bb = [b; e; f; f] -> antisym_tail t -> antisym_tail aa /\ antisym_tail bb.
  Proof.
    intros H Ea Eb Sa Sb At. pose proof H as (St & _). cbn [sums] in St.
    split; intros i j k l R; [rewrite Sa in R|rewrite Sb in R]; apply inr4' in R; destruct R as (R1 & R2 & R3 & R4).
    - pose proof (At i j k l) as Q. rewrite St in Q.
      pose proof (entry4 K _ _ _ _ _ _ _ _ t bl false false false false i j k l H R1 R2 R3 R4) as E1.
      pose proof (entry4 K _ _ _ _ _ _ _ _ t bl false false false false i j l k H R1 R2 R4 R3) as E2.
      cbn [at_spin] in E1, E2. rewrite Ea in E1, E2. rewrite <- E1, <- E2. apply Q.
      repeat constructor; lia.
    - pose proof (At (a + i) (c + j) (d + k) (d + l))%nat as Q. rewrite St in Q.
      pose proof (entry4 K _ _ _ _ _ _ _ _ t bl true true true true i j k l H R1 R2 R3 R4) as E1.
      pose proof (entry4 K _ _ _ _ _ _ _ _ t bl true true true true i j l k H R1 R2 R4 R3) as E2.
      cbn [at_spin] in E1, E2. rewrite Eb in E1, E2. rewrite <- E1, <- E2. apply Q.
      repeat constructor; lia.
  Qed.

  Lemma teq_lead (t u : T) a c d : shp t = [a; a; c; d] -> teq t u -> antisym_lead t -> antisym_lead u.
  Proof.
    intros S [E H] A i j k l R. rewrite <- E in R.
    rewrite <- (H _ R), (A _ _ _ _ R). rewrite H; auto. rewrite S in R |- *.
    apply inr4' in R. repeat constructor; lia.
  Qed.
  Lemma teq_tail (t u : T) a c d : shp t = [a; c; d; d] -> teq t u -> antisym_tail t -> antisym_tail u.
  Proof.
    intros S [E H] A i j k l R. rewrite <- E in R.
    rewrite <- (H _ R), (A _ _ _ _ R). rewrite H; auto. rewrite S in R |- *.
    apply inr4' in R. repeat constructor; lia.
  Qed.

  Variables noa nva nob nvb : nat.
  Notation n := (usp noa nva nob nvb).

  Ltac fit := repeat first [apply Forall2_nil | apply Forall2_cons | split | apply fit_obj | apply fit_tup
    | apply fit_arr | reflexivity | assumption].

  Lemma uccsd_sym Fa Fb Ia Ib (Iab : two_e_full K) T1a T1b T2aa T2ab T2bb :
    u_ham_ok noa nva nob nvb Fa Fb Ia Ib Iab ->
    u_amps_ok noa nva nob nvb T1a T1b T2aa T2ab T2bb ->
    exists ta tb aa ab bb,
      returns "uccsd_stanton" [py_one_e Fa; py_one_e Fb; py_two_e Ia; py_two_e Ib; py_two_e_full Iab;
          tup [arr T1a; arr T1b]; tup [arr T2aa; arr T2ab; arr T2bb]]
        (tup [tup [arr ta; arr tb]; tup [arr aa; arr ab; arr bb]]) /\
      u_amps_ok noa nva nob nvb ta tb aa ab bb.
  Proof.
    intros HH HT.
    destruct (C08_uccsd_is_spin_orbital_ccsd K noa nva nob nvb Fa Fb Ia Ib Iab T1a T1b T2aa T2ab T2bb HH HT)
      as (F & I & T1 & T2 & S1 & S2 & ta & tb & aa & ab & bb & S1' & S2' & EF & EI & E1 & E2 & R1 & R2 & _ & _ & E4 & Q4).
    destruct HH as (F1 & F2 & I1 & I2 & I3), HT as (A1 & A2 & A3 & A4 & A5).
    destruct (F_to_spin_ok K Fa Fb noa nva nob nvb F1 F2) as (F' & EF' & OF & _).
    destruct (int_to_spin2_ok K Ia Ib Iab noa nva nob nvb I1 I2 I3) as (I' & EI' & OI & _).
    destruct (T1_to_spin_ok K T1a T1b noa nva nob nvb A1 A2) as (t1 & ET1 & OT1 & _).
    destruct (T2_to_spin_ok K T2aa T2ab T2bb noa nva nob nvb A3 A4 A5) as (t2 & ET2 & OT2 & _).
    assert (F' = F) by congruence. assert (I' = I) by congruence. assert (t1 = T1) by congruence.
    assert (t2 = T2) by congruence. subst.
    destruct (ccsd_antisym K (noa + nob) (nva + nvb) F I T1 T2 "ccsd_stanton") as (X1 & X2 & RX & O1 & O2); auto.
    { cbn. auto. }
    pose proof (returns_fun K _ _ _ _ RX R1) as Q. injection Q as -> ->.
    exists ta, tb, aa, ab, bb. split; [exact R2|].
    assert (SH : shp ta = [nva; noa] /\ shp tb = [nvb; nob] /\ shp aa = [nva; nva; noa; noa] /\
      shp ab = [nva; nvb; noa; nob] /\ shp bb = [nvb; nvb; nob; nob]).
    { assert (FA : Forall2 (fits n) [py_one_e Fa; py_one_e Fb; py_two_e Ia; py_two_e Ib; py_two_e_full Iab;
          tup [arr T1a; arr T1b]; tup [arr T2aa; arr T2ab; arr T2bb]] [F_; Fb_; I_; Ib_; Iab_; uT1; uT2]).
      { unfold one_e_ok, two_e_ok, two_e_shape, two_e_full_ok, t1_ok, t2_ok in *. intuition. fit. }
      destruct (public_ok K n "uccsd_stanton" [F_; Fb_; I_; Ib_; Iab_; uT1; uT2] (STup [uT1; uT2]) _
        ltac:(simpl; tauto) FA) as (v & Rv & Fv).
      rewrite (returns_fun K _ _ _ _ Rv R2) in Fv. clear - Fv. unfold tup in Fv.
      repeat match goal with
      | H : fits _ (XTup _) _ |- _ => inversion H; clear H; subst
      | H : fits _ (arr _) _ |- _ => inversion H; clear H; subst
      | H : Forall2 _ (_ :: _) _ |- _ => inversion H; clear H; subst
      end. cbn in *. auto. }
    destruct SH as (Z1 & Z2 & Z3 & Z4 & Z5).
    destruct (T2_to_spin_holds K aa ab bb noa nva nob nvb Z3 Z4 Z5) as (t & Et & Ht).
    assert (t = S2') by congruence. subst t.
    destruct O2 as (Y1 & Y2 & Y3).
    apply (teq_lead _ _ _ _ _ Y1 Q4) in Y2. apply (teq_tail _ _ _ _ _ Y1 Q4) in Y3.
    destruct (lead_blocks _ _ _ _ _ _ _ _ aa bb Ht eq_refl eq_refl Z3 Z5 Y2).
    destruct (tail_blocks _ _ _ _ _ _ _ _ aa bb Ht eq_refl eq_refl Z3 Z5 Y3).
    repeat split; auto.
  Qed.

  Lemma ulambda_sym Fa Fb Ia Ib (Iab : two_e_full K) L1a L1b L2aa L2ab L2bb T1a T1b T2aa T2ab T2bb :
    u_ham_ok noa nva nob nvb Fa Fb Ia Ib Iab ->
    u_lams_ok noa nva nob nvb L1a L1b L2aa L2ab L2bb ->
    u_amps_ok noa nva nob nvb T1a T1b T2aa T2ab T2bb ->
    exists la lb aa ab bb,
      returns "uccsd_lambda_opt" [py_one_e Fa; py_one_e Fb; py_two_e Ia; py_two_e Ib; py_two_e_full Iab;
          tup [arr L1a; arr L1b]; tup [arr L2aa; arr L2ab; arr L2bb];
          tup [arr T1a; arr T1b]; tup [arr T2aa; arr T2ab; arr T2bb]]
        (tup [tup [arr la; arr lb]; tup [arr aa; arr ab; arr bb]]) /\
      u_lams_ok noa nva nob nvb la lb aa ab bb.
  Proof.
    intros HH HL HT.
    destruct (C16_ulambda_is_spin_orbital_lambda K noa nva nob nvb Fa Fb Ia Ib Iab L1a L1b L2aa L2ab L2bb
      T1a T1b T2aa T2ab T2bb HH HL HT)
      as (F & I & L1 & L2 & T1 & T2 & S1 & S2 & ta & tb & aa & ab & bb & S1' & S2' & EF & EI & EL1 & EL2 & E1 & E2
        & R1 & R2 & _ & _ & E4 & Q4).
    destruct HH as (F1 & F2 & I1 & I2 & I3), HT as (A1 & A2 & A3 & A4 & A5), HL as (B1 & B2 & B3 & B4 & B5).
    destruct (F_to_spin_ok K Fa Fb noa nva nob nvb F1 F2) as (F' & EF' & OF & _).
    destruct (int_to_spin2_ok K Ia Ib Iab noa nva nob nvb I1 I2 I3) as (I' & EI' & OI & _).
    destruct (T1_to_spin_ok K T1a T1b noa nva nob nvb A1 A2) as (t1 & ET1 & OT1 & _).
    destruct (T2_to_spin_ok K T2aa T2ab T2bb noa nva nob nvb A3 A4 A5) as (t2 & ET2 & OT2 & _).
    destruct (T1_to_spin_ok K L1a L1b nva noa nvb nob B1 B2) as (l1 & EL1' & OL1 & _).
    destruct (T2_to_spin_ok K L2aa L2ab L2bb nva noa nvb nob B3 B4 B5) as (l2 & EL2' & OL2 & _).
    assert (F' = F) by congruence. assert (I' = I) by congruence. assert (t1 = T1) by congruence.
    assert (t2 = T2) by congruence. assert (l1 = L1) by congruence. assert (l2 = L2) by congruence. subst.
    destruct (lambda_antisym K (noa + nob) (nva + nvb) F I L1 L2 T1 T2 "ccsd_lambda_opt") as (X1 & X2 & RX & O1 & O2); auto.
    { cbn. tauto. }
    pose proof (returns_fun K _ _ _ _ RX R1) as Q. injection Q as -> ->.
    exists ta, tb, aa, ab, bb. split; [exact R2|].
    assert (SH : shp ta = [noa; nva] /\ shp tb = [nob; nvb] /\ shp aa = [noa; noa; nva; nva] /\
      shp ab = [noa; nob; nva; nvb] /\ shp bb = [nob; nob; nvb; nvb]).
    { assert (FA : Forall2 (fits n) [py_one_e Fa; py_one_e Fb; py_two_e Ia; py_two_e Ib; py_two_e_full Iab;
          tup [arr L1a; arr L1b]; tup [arr L2aa; arr L2ab; arr L2bb];
          tup [arr T1a; arr T1b]; tup [arr T2aa; arr T2ab; arr T2bb]] [F_; Fb_; I_; Ib_; Iab_; uL1; uL2; uT1; uT2]).
      { unfold one_e_ok, two_e_ok, two_e_shape, two_e_full_ok, t1_ok, t2_ok, l1_ok, l2_ok in *. intuition. fit. }
      destruct (public_ok K n "uccsd_lambda_opt" [F_; Fb_; I_; Ib_; Iab_; uL1; uL2; uT1; uT2] (STup [uL1; uL2]) _
        ltac:(simpl; tauto) FA) as (v & Rv & Fv).
      rewrite (returns_fun K _ _ _ _ Rv R2) in Fv. clear - Fv. unfold tup in Fv.
      repeat match goal with
      | H : fits _ (XTup _) _ |- _ => inversion H; clear H; subst
      | H : fits _ (arr _) _ |- _ => inversion H; clear H; subst
      | H : Forall2 _ (_ :: _) _ |- _ => inversion H; clear H; subst
      end. cbn in *. auto. }
    destruct SH as (Z1 & Z2 & Z3 & Z4 & Z5).
    destruct (T2_to_spin_holds K aa ab bb nva noa nvb nob Z3 Z4 Z5) as (t & Et & Ht).
    assert (t = S2') by congruence. subst t.
    destruct O2 as (Y1 & Y2 & Y3).
    apply (teq_lead _ _ _ _ _ Y1 Q4) in Y2. apply (teq_tail _ _ _ _ _ Y1 Q4) in Y3.
    destruct (lead_blocks _ _ _ _ _ _ _ _ aa bb Ht eq_refl eq_refl Z3 Z5 Y2).
    destruct (tail_blocks _ _ _ _ _ _ _ _ aa bb Ht eq_refl eq_refl Z3 Z5 Y3).
    repeat split; auto.
  Qed.

  (** density matrices *)
  Section Rdm.
    Variables T1a T1b T2aa T2ab T2bb L1a L1b L2aa L2ab L2bb : T.
    Hypothesis HT : u_amps_ok noa nva nob nvb T1a T1b T2aa T2ab T2bb.
    Hypothesis HL : u_lams_ok noa nva nob nvb L1a L1b L2aa L2ab L2bb.
    Definition uargs := [arr T1a; arr T1b; arr T2aa; arr T2ab; arr T2bb; arr L1a; arr L1b;
      arr L2aa; arr L2ab; arr L2bb].
    Lemma uargs_fit : Forall2 (fits n) uargs urdm_args.
    Proof.
      unfold uargs, urdm_args, u_amps_ok, u_lams_ok, t1_ok, t2_ok, l1_ok, l2_ok in *.
      destruct HT as (? & ? & (? & _) & ? & ? & _), HL as (? & ? & (? & _) & ? & ? & _). fit.
    Qed.

    (** shapes of the first two arrays of the result of [g] *)
    Lemma two_shapes g us A B rest : In (g, urdm_args, STup (SArr A :: SArr B :: rest)) public_functions ->
      returns g uargs (tup (map arr us)) ->
      shp (pick us 0) = map n A /\ shp (pick us 1) = map n B.
    Proof.
      intros HI R. destruct (public_ok K n _ _ _ _ HI uargs_fit) as (v & Rv & Fv).
      rewrite (returns_fun K _ _ _ _ Rv R) in Fv. clear - Fv. unfold tup in Fv.
      inversion Fv as [| |vs l FF|]; subst. destruct us as [|u [|w us]]; cbn [map] in FF.
      - inversion FF.
      - inversion FF as [|x y xs ys F1 F2]; subst. inversion F2.
      - inversion FF as [|x y xs ys F1 F2]; subst. inversion F2 as [|x' y' xs' ys' F3 F4]; subst.
        inversion F1; subst. inversion F3; subst. auto.
    Qed.

    (** spin-orbital amplitudes *)
    Lemma spin_args : exists T1 T2 L1 L2,
      T1_to_spin T1a T1b noa nva nob nvb = Some T1 /\ T2_to_spin T2aa T2ab T2bb noa nva nob nvb = Some T2 /\
      T1_to_spin L1a L1b nva noa nvb nob = Some L1 /\ T2_to_spin L2aa L2ab L2bb nva noa nvb nob = Some L2 /\
      t1_ok (noa + nob) (nva + nvb) T1 /\ t2_ok (noa + nob) (nva + nvb) T2 /\
      l1_ok (noa + nob) (nva + nvb) L1 /\ l2_ok (noa + nob) (nva + nvb) L2.
    Proof.
      destruct HT as (A1 & A2 & A3 & A4 & A5), HL as (B1 & B2 & B3 & B4 & B5).
      destruct (T1_to_spin_ok K T1a T1b noa nva nob nvb A1 A2) as (t1 & ET1 & OT1 & _).
      destruct (T2_to_spin_ok K T2aa T2ab T2bb noa nva nob nvb A3 A4 A5) as (t2 & ET2 & OT2 & _).
      destruct (T1_to_spin_ok K L1a L1b nva noa nvb nob B1 B2) as (l1 & EL1' & OL1 & _).
      destruct (T2_to_spin_ok K L2aa L2ab L2bb nva noa nvb nob B3 B4 B5) as (l2 & EL2' & OL2 & _).
      exists t1, t2, l1, l2. repeat (split; [assumption|]). assumption.
    Qed.

    Ltac find_in := match goal with |- In _ ?l => let l' := eval hnf in l in change l with l';
      repeat first [left; reflexivity | right] end.

    Lemma lead_use (f g : string) (vs : list (pyval K)) m a c d b e h (bl : list T -> list bool -> option T) A B rest :
      (exists S us, returns f vs (arr S) /\ returns g uargs (tup (map arr us)) /\ List.length us = m /\
        holds [a; a; c; d] [b; b; e; h] S (bl us)) ->
      (exists P, returns f vs (arr P) /\ antisym_lead P) ->
      In (g, urdm_args, STup (SArr A :: SArr B :: rest)) public_functions ->
      map n A = [a; a; c; d] -> map n B = [b; b; e; h] ->
      (forall us, bl us [false; false; false; false] = Some (pick us 0)) ->
      (forall us, bl us [true; true; true; true] = Some (pick us 1)) ->
      exists us, returns g uargs (tup (map arr us)) /\ antisym_lead (pick us 0) /\ antisym_lead (pick us 1).
    Proof.
      intros (S & us & R1 & R2 & _ & Hh) (P & RP & AP) HI EA EB Q1 Q2.
      pose proof (returns_fun _ _ _ _ _ RP R1) as Q. injection Q as ->.
      exists us. split; [exact R2|]. destruct (two_shapes _ _ _ _ _ HI R2) as (Z0 & Z1).
      rewrite EA in Z0. rewrite EB in Z1.
      exact (lead_blocks _ _ _ _ _ _ _ _ _ _ Hh (Q1 us) (Q2 us) Z0 Z1 AP).
    Qed.
    Lemma tail_use (f g : string) (vs : list (pyval K)) m a c d b e h (bl : list T -> list bool -> option T) A B rest :
      (exists S us, returns f vs (arr S) /\ returns g uargs (tup (map arr us)) /\ List.length us = m /\
        holds [a; c; d; d] [b; e; h; h] S (bl us)) ->
      (exists P, returns f vs (arr P) /\ antisym_tail P) ->
      In (g, urdm_args, STup (SArr A :: SArr B :: rest)) public_functions ->
      map n A = [a; c; d; d] -> map n B = [b; e; h; h] ->
      (forall us, bl us [false; false; false; false] = Some (pick us 0)) ->
      (forall us, bl us [true; true; true; true] = Some (pick us 1)) ->
      exists us, returns g uargs (tup (map arr us)) /\ antisym_tail (pick us 0) /\ antisym_tail (pick us 1).
    Proof.
      intros (S & us & R1 & R2 & _ & Hh) (P & RP & AP) HI EA EB Q1 Q2.
      pose proof (returns_fun _ _ _ _ _ RP R1) as Q. injection Q as ->.
      exists us. split; [exact R2|]. destruct (two_shapes _ _ _ _ _ HI R2) as (Z0 & Z1).
      rewrite EA in Z0. rewrite EB in Z1.
      exact (tail_blocks _ _ _ _ _ _ _ _ _ _ Hh (Q1 us) (Q2 us) Z0 Z1 AP).
    Qed.

    Lemma urdm_lead f : In f ["uccsd_2rdm_cdab"; "uccsd_2rdm_klij"; "uccsd_2rdm_abij"; "uccsd_2rdm_bcai";
        "uccsd_2rdm_jkai"] ->
      exists us, returns f uargs (tup (map arr us)) /\ antisym_lead (pick us 0) /\ antisym_lead (pick us 1).
    Proof.
      intros HI. destruct spin_args as (T1 & T2 & L1 & L2 & E1 & E2 & E3 & E4 & O1 & O2 & O3 & O4).
      destruct (C21_urdm_blocks K noa nva nob nvb T1a T1b T2aa T2ab T2bb L1a L1b L2aa L2ab L2bb T1 T2 L1 L2 c0
        HT HL E1 E2 E3 E4) as (C & _).
      pose proof (fun g Hg => rdm_lead_antisym K (noa + nob) (nva + nvb) T1 T2 L1 L2 g Hg O1 O2 O3 O4) as A.
      rewrite !app_nil_r in C. rewrite Forall_forall in C.
      cbn [In] in HI. destruct HI as [<-|[<-|[<-|[<-|[<-|[]]]]]].
      - eapply lead_use; [refine (C (_, _, _, _, _, _) _); do 5 right; left; reflexivity|apply A; cbn; tauto|find_in
          |reflexivity|reflexivity|reflexivity|reflexivity].
      - eapply lead_use; [refine (C (_, _, _, _, _, _) _); do 7 right; left; reflexivity|apply A; cbn; tauto|find_in
          |reflexivity|reflexivity|reflexivity|reflexivity].
      - eapply lead_use; [refine (C (_, _, _, _, _, _) _); do 10 right; left; reflexivity|apply A; cbn; tauto|find_in
          |reflexivity|reflexivity|reflexivity|reflexivity].
      - eapply lead_use; [refine (C (_, _, _, _, _, _) _); do 8 right; left; reflexivity|apply A; cbn; tauto|find_in
          |reflexivity|reflexivity|reflexivity|reflexivity].
      - eapply lead_use; [refine (C (_, _, _, _, _, _) _); do 4 right; left; reflexivity|apply A; cbn; tauto|find_in
          |reflexivity|reflexivity|reflexivity|reflexivity].
    Qed.
    Lemma urdm_tail f : In f ["uccsd_2rdm_cdab"; "uccsd_2rdm_klij"; "uccsd_2rdm_abij"; "uccsd_2rdm_ciab";
        "uccsd_2rdm_kaij"] ->
      exists us, returns f uargs (tup (map arr us)) /\ antisym_tail (pick us 0) /\ antisym_tail (pick us 1).
    Proof.
      intros HI. destruct spin_args as (T1 & T2 & L1 & L2 & E1 & E2 & E3 & E4 & O1 & O2 & O3 & O4).
      destruct (C21_urdm_blocks K noa nva nob nvb T1a T1b T2aa T2ab T2bb L1a L1b L2aa L2ab L2bb T1 T2 L1 L2 c0
        HT HL E1 E2 E3 E4) as (C & _).
      pose proof (fun g Hg => rdm_tail_antisym K (noa + nob) (nva + nvb) T1 T2 L1 L2 g Hg O1 O2 O3 O4) as A.
      rewrite !app_nil_r in C. rewrite Forall_forall in C.
      cbn [In] in HI. destruct HI as [<-|[<-|[<-|[<-|[<-|[]]]]]].
      - eapply tail_use; [refine (C (_, _, _, _, _, _) _); do 5 right; left; reflexivity|apply A; cbn; tauto|find_in
          |reflexivity|reflexivity|reflexivity|reflexivity].
      - eapply tail_use; [refine (C (_, _, _, _, _, _) _); do 7 right; left; reflexivity|apply A; cbn; tauto|find_in
          |reflexivity|reflexivity|reflexivity|reflexivity].
      - eapply tail_use; [refine (C (_, _, _, _, _, _) _); do 10 right; left; reflexivity|apply A; cbn; tauto|find_in
          |reflexivity|reflexivity|reflexivity|reflexivity].
      - eapply tail_use; [refine (C (_, _, _, _, _, _) _); do 3 right; left; reflexivity|apply A; cbn; tauto|find_in
          |reflexivity|reflexivity|reflexivity|reflexivity].
      - eapply tail_use; [refine (C (_, _, _, _, _, _) _); do 9 right; left; reflexivity|apply A; cbn; tauto|find_in
          |reflexivity|reflexivity|reflexivity|reflexivity].
    Qed.
  End Rdm.
End USym.

(** restricted two-electron density matrices with both pairs in one space *)
Definition rpair_list : list string := ["rccsd_2rdm_cdab"; "rccsd_2rdm_klij"; "rccsd_2rdm_abij"].
Definition rpair_chk (f : string) (cs : list cert) : bool :=
  run_form FArr f (rR false) && Nat.eqb (List.length (s_sh (get_arr (run_s f (rR false))))) 4 &&
  aeq_chk r_tb (get_arr (run_s f (rR false))) (s_swap p_both (get_arr (run_s f (rR false)))) cs.
Definition rpair_find (f : string) : list cert :=
  find_aeq r_tb (get_arr (run_s f (rR false))) (s_swap p_both (get_arr (run_s f (rR false)))).
Definition rpair_cs := Eval vm_compute in map rpair_find rpair_list.
Lemma rpair_ok : forallb (fun fc => rpair_chk (fst fc) (snd fc)) (combine rpair_list rpair_cs) = true.
Proof. vm_compute. reflexivity. Qed.

Lemma rrdm_pair (K : cring) no nv (T1 T2 L1 L2 : tensor K) f :
  In f rpair_list ->
  shp T1 = [nv; no] -> shp T2 = [nv; nv; no; no] -> pair_sym T2 ->
  shp L1 = [no; nv] -> shp L2 = [no; no; nv; nv] -> pair_sym L2 ->
  exists r, returns f [arr T1; arr T2; arr L1; arr L2] (arr r) /\ pair_sym r.
Proof.
  intros Hf H1 H2 P2 H3 H4 P4.
  assert (exists c, rpair_chk f c = true) as (c & Hc).
  { pose proof rpair_ok as G. cbn [rpair_list rpair_cs combine forallb fst snd] in G.
    apply andb_prop in G. destruct G as (G1 & G). apply andb_prop in G. destruct G as (G2 & G).
    apply andb_prop in G. destruct G as (G3 & _).
    destruct Hf as [<-|[<-|[<-|[]]]]; eauto. }
  unfold rpair_chk in Hc. apply andb_prop in Hc. destruct Hc as (Hc & C2).
  apply andb_prop in Hc. destruct Hc as (C0 & C1). apply Nat.eqb_eq in C1.
  set (rh := rrho K no nv T1 T2 L1 L2 c0).
  pose proof (rargs_ok K no nv T1 T2 L1 L2 c0 H1 H2 H3 H4 false) as HA.
  destruct (run_arr_sound K (so_dim no nv) rh _ _ _ C0 HA) as (r & R1 & A1).
  exists r. split; [exact R1|]. unfold pair_sym, swap_both.
  eapply aeq_sound; [exact C2|exact (rrho_sym K no nv T1 T2 L1 L2 c0 H2 P2 H4 P4)|exact A1|].
  apply swap_sound; auto.
Qed.
