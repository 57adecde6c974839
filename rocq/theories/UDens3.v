(** Unrestricted CCSD over spatial orbitals: Lambda equations, left eigenvector,
    Lagrangian. *)
From Coq Require Import List Bool Arith ZArith Lia Ring String Factorial.
From Verif Require Import Scalar Tensor PySyntax PySem CCProg CISpec CIFacts CIStrings CIFock CILemmas CIExpSpec CIExp
  CCSpec CCFockSpec CCDensSpec CIMatrix CIVec FockStates FockExp FockT FockH FockSchr FockPerm NpModel SpinModel SpinSpec SpinFacts SpinRound CCEquiv CCSym CCFock CCSchr
  CCLambda CCLeft CCSpin UFockSpec UFock UFockOps UCCSchr UDensSpec UDens.
Import ListNotations.
Local Open Scope list_scope.

Section Entries.
  Variable K : cring.
  Local Open Scope K_scope.
  Lemma spin_entries1 (S S' ta tb : tensor K) noa nva nob nvb : T1_to_spin ta tb noa nva nob nvb = Some S' -> teq S S' ->
    shp ta = [nva; noa] -> shp tb = [nvb; nob] ->
    forall s1 s2 a i, (a < side_len s1 nva nvb)%nat -> (i < side_len s2 noa nob)%nat ->
      dat S [at_spin nva s1 a; at_spin noa s2 i] = match spin2 ta tb [s1; s2] with Some u => dat u [a; i] | None => 0 end.
  Proof.
    intros E1 Q1 Pa Pb. destruct (T1_to_spin_holds K ta tb noa nva nob nvb Pa Pb) as (x & Ex & H1). rewrite E1 in Ex. injection Ex as <-.
    intros s1 s2 a i La Li. rewrite <- (entry2 K _ _ _ _ _ _ s1 s2 a i H1 La Li). apply (proj2 Q1). rewrite (proj1 Q1), (proj1 H1).
    cbn [sums]. repeat constructor; unfold at_spin, side_len in *; destruct s1, s2; lia.
  Qed.
  Lemma spin_entries2 (S S' aa ab bb : tensor K) noa nva nob nvb : T2_to_spin aa ab bb noa nva nob nvb = Some S' -> teq S S' ->
    shp aa = [nva; nva; noa; noa] -> shp ab = [nva; nvb; noa; nob] -> shp bb = [nvb; nvb; nob; nob] ->
    forall s1 s2 s3 s4 a b i j, (a < side_len s1 nva nvb)%nat -> (b < side_len s2 nva nvb)%nat -> (i < side_len s3 noa nob)%nat -> (j < side_len s4 noa nob)%nat ->
      dat S [at_spin nva s1 a; at_spin nva s2 b; at_spin noa s3 i; at_spin noa s4 j]
      = match spin4_anti aa ab bb [s1; s2; s3; s4] with Some u => dat u [a; b; i; j] | None => 0 end.
  Proof.
    intros E2 Q2 Pa Pab Pb. destruct (T2_to_spin_holds K aa ab bb noa nva nob nvb Pa Pab Pb) as (x & Ex & H2). rewrite E2 in Ex. injection Ex as <-.
    intros s1 s2 s3 s4 a b i j La Lb Li Lj. rewrite <- (entry4 K _ _ _ _ _ _ _ _ _ _ s1 s2 s3 s4 a b i j H2 La Lb Li Lj). apply (proj2 Q2).
    rewrite (proj1 Q2), (proj1 H2). cbn [sums]. repeat constructor; unfold at_spin, side_len in *; destruct s1, s2, s3, s4; lia.
  Qed.
End Entries.

Section Neutral.
  Variable K : cring.
  Local Open Scope K_scope.
  Add Ring KrNe : (c_th K).
  Variable n : nat.
  Notation opsum := (list (K * list op)).
  Notation aneutral := (aneutral K n).

  Lemma aneutral_mul (A B : opsum) : aneutral A -> aneutral B -> aneutral (opmul A B).
  Proof.
    intros HA HB. apply Forall_forall. intros x Hx. unfold opmul in Hx. apply in_flat_map in Hx as (u & Hu & Hx).
    apply in_map_iff in Hx as (v & <- & Hv). cbn [snd]. rewrite acharge_app.
    unfold UCCSchr.aneutral in *. rewrite Forall_forall in HA, HB. rewrite (HA u Hu), (HB v Hv). reflexivity.
  Qed.
  Lemma aneutral_scale x (A : opsum) : aneutral A -> aneutral (opscale x A).
  Proof. intros HA. unfold UCCSchr.aneutral, opscale. apply Forall_map. exact HA. Qed.
  Lemma aneutral_transformed inv M (T A : opsum) : aneutral T -> aneutral A -> aneutral (transformed inv M T A).
  Proof.
    intros HT HA. unfold transformed. apply aneutral_mul; [apply aneutral_exp, aneutral_scale, HT|].
    apply aneutral_mul; [exact HA|]. apply aneutral_exp, HT.
  Qed.
  Lemma aneutral_L noa nva nob nvb c (L1a L1b L2aa L2ab L2bb : tensor K) : (noa + nva)%nat = n -> (nob + nvb)%nat = n ->
    aneutral (u_lambda n noa nva nob nvb c L1a L1b L2aa L2ab L2bb).
  Proof.
    intros Na Nb. unfold u_lambda. cbv zeta. apply Forall_cons; [reflexivity|]. rewrite !Forall_app.
    repeat split; apply Forall_forall; intros x Hx.
    1, 2: apply in_flat_map in Hx as (i & Hi & Hx); apply in_map_iff in Hx as (a & <- & Ha); apply in_seq in Hi, Ha; cbn [snd acharge];
      repeat match goal with |- context[Nat.ltb ?x ?y] => destruct (Nat.ltb_spec x y); try lia end; reflexivity.
    all: apply in_flat_map in Hx as (i & Hi & Hx); apply in_flat_map in Hx as (j & Hj & Hx); apply in_flat_map in Hx as (a & Ha & Hx);
      apply in_map_iff in Hx as (b & <- & Hb); apply in_seq in Hi, Hj, Ha, Hb; cbn [snd acharge];
      repeat match goal with |- context[Nat.ltb ?x ?y] => destruct (Nat.ltb_spec x y); try lia end; reflexivity.
  Qed.
  Lemma afix_kd t : afix K n (Z.of_nat (nel (firstn n t))) (kd t).
  Proof.
    intros u L D. unfold kd. destruct (det_eqb t u) eqn:E; [|reflexivity]. apply det_eqb_eq in E. subst u. congruence.
  Qed.
  Lemma amp_off (A : opsum) s t : aneutral A -> List.length s = (n + n)%nat -> nel (firstn n s) <> nel (firstn n t) -> amp s A t = 0.
  Proof.
    intros HA L D. rewrite amp_eos. apply (afix_eos K n A _ (kd t) HA (afix_kd t) s L). lia.
  Qed.
End Neutral.

Section UDens3.
  Variable K : cring.
  Local Open Scope K_scope.
  Add Ring KrUD3 : (c_th K).
  Variables n noa nva nob nvb : nat.
  Variables ha hb : nat -> nat -> K.
  Variables Ia Ib Iab : nat -> nat -> nat -> nat -> K.
  Variables Fa Fb : one_e K.
  Variables Iaa Ibb : two_e K.
  Variable J : two_e_full K.
  Hypothesis HU : u_hamiltonian n noa nva nob nvb ha hb Ia Ib Iab Fa Fb Iaa Ibb J.
  Variables T1a T1b T2aa T2ab T2bb : tensor K.
  Hypothesis HT : u_amps_ok noa nva nob nvb T1a T1b T2aa T2ab T2bb.
  Variables L1a L1b L2aa L2ab L2bb : tensor K.
  Hypothesis HL : u_lams_ok noa nva nob nvb L1a L1b L2aa L2ab L2bb.
  Variable inv : nat -> K.
  Variable M : nat.
  Hypothesis HI : inverts inv M.
  Hypothesis HM : (nva + nvb < M)%nat.
  Notation no := (noa + nob)%nat.
  Notation nv := (nva + nvb)%nat.
  Notation HS := (H_spatial_op n ha hb Ia Ib Iab).
  Notation TS := (u_cluster n noa nva nob nvb T1a T1b T2aa T2ab T2bb).
  Notation LS := (u_lambda n noa nva nob nvb 1 L1a L1b L2aa L2ab L2bb).
  Notation A0 := (aufbau n noa).
  Notation B0 := (aufbau n nob).
  Notation refS := (A0 ++ B0).
  Notation ref := (aufbau (no + nv) no).
  Notation hc := (hC K n noa nva nob ha hb).
  Notation gc := (gC K n noa nva nob Ia Ib Iab).
  Notation H := (H_op (no + nv) hc gc).
  Notation COMM w := (u_commutator inv M n noa nva nob nvb 1 T1a T1b T2aa T2ab T2bb L1a L1b L2aa L2ab L2bb HS [(1, w)]).

  Let Na : (noa + nva)%nat = n. Proof. exact (proj1 HU). Qed.
  Let Nb : (nob + nvb)%nat = n. Proof. exact (proj1 (proj2 HU)). Qed.

  Lemma dots_spin (L1 L2 S1 S2 S1' S2' ta tb aa ab bb : tensor K) :
    T1_to_spin L1a L1b nva noa nvb nob = Some L1 -> T2_to_spin L2aa L2ab L2bb nva noa nvb nob = Some L2 ->
    T1_to_spin ta tb noa nva nob nvb = Some S1' -> teq S1 S1' -> T2_to_spin aa ab bb noa nva nob nvb = Some S2' -> teq S2 S2' ->
    shp ta = [nva; noa] -> shp tb = [nvb; nob] -> shp aa = [nva; nva; noa; noa] ->
    shp ab = [nva; nvb; noa; nob] -> shp bb = [nvb; nvb; nob; nob] ->
    dot2 no nv (dat L1) (dat S1) + quarter * dot4 no no nv nv (dat L2) (dat S2)
    = dot2 noa nva (dat L1a) (dat ta) + dot2 nob nvb (dat L1b) (dat tb) +
      (quarter * dot4 noa noa nva nva (dat L2aa) (dat aa) + quarter * dot4 nob nob nvb nvb (dat L2bb) (dat bb) +
       dot4 noa nob nva nvb (dat L2ab) (dat ab)).
  Proof.
    intros E3 E4 E1 Q1 E2 Q2 P1 P2 P3 P4 P5. destruct HL as (O1 & O2 & O3 & O4 & O5).
    assert (TR : forall x : tensor K, teq x x) by (intros x; split; auto).
    pose proof (spin_entries1 K L1 L1 L1a L1b nva noa nvb nob E3 (TR _) O1 O2) as X1.
    pose proof (spin_entries2 K L2 L2 L2aa L2ab L2bb nva noa nvb nob E4 (TR _) (proj1 O3) O4 (proj1 O5)) as X2.
    pose proof (spin_entries1 K S1 S1' ta tb noa nva nob nvb E1 Q1 P1 P2) as Y1.
    pose proof (spin_entries2 K S2 S2' aa ab bb noa nva nob nvb E2 Q2 P3 P4 P5) as Y2.
    set (M1 := spin2 (K := K)) in *. set (M2 := spin4_anti (K := K)) in *.
    change (dot2 no nv (dat L1) (dat S1)) with (UFockOps.S2 no nv (fun i a => dat L1 [i; a] * dat S1 [a; i])).
    change (dot4 no no nv nv (dat L2) (dat S2)) with (UFockOps.S4 no no nv nv (fun i j a b => dat L2 [i; j; a; b] * dat S2 [a; b; i; j])).
    rewrite S2_spin, S4_spin.
    assert (Z1 : forall s1 s2, UFockOps.S2 (side_len s1 noa nob) (side_len s2 nva nvb) (fun i a =>
        dat L1 [at_spin noa s1 i; at_spin nva s2 a] * dat S1 [at_spin nva s2 a; at_spin noa s1 i])
      = UFockOps.S2 (side_len s1 noa nob) (side_len s2 nva nvb) (fun i a =>
          match M1 L1a L1b [s1; s2] with Some u => dat u [i; a] | None => 0 end * match M1 ta tb [s2; s1] with Some u => dat u [a; i] | None => 0 end)).
    { intros s1 s2. apply S2_ext. intros i a Li La. rewrite X1, Y1 by assumption. reflexivity. }
    assert (Z2 : forall s1 s2 s3 s4, UFockOps.S4 (side_len s1 noa nob) (side_len s2 noa nob) (side_len s3 nva nvb) (side_len s4 nva nvb) (fun i j a b =>
        dat L2 [at_spin noa s1 i; at_spin noa s2 j; at_spin nva s3 a; at_spin nva s4 b] * dat S2 [at_spin nva s3 a; at_spin nva s4 b; at_spin noa s1 i; at_spin noa s2 j])
      = UFockOps.S4 (side_len s1 noa nob) (side_len s2 noa nob) (side_len s3 nva nvb) (side_len s4 nva nvb) (fun i j a b =>
          match M2 L2aa L2ab L2bb [s1; s2; s3; s4] with Some u => dat u [i; j; a; b] | None => 0 end *
          match M2 aa ab bb [s3; s4; s1; s2] with Some u => dat u [a; b; i; j] | None => 0 end)).
    { intros s1 s2 s3 s4. apply S4_ext. intros i j a b Li Lj La Lb. rewrite X2, Y2 by assumption. reflexivity. }
    unfold SB. rewrite !Z1, !Z2. clear Z1 Z2. subst M1 M2.
    cbn [side_len spin2 spin4_anti spin4 tneg swap_both swap_ket swap_bra swap map nth dat shp].
    rewrite (S2_zero K noa nvb (fun _ _ => 0 * 0)), (S2_zero K nob nva (fun _ _ => 0 * 0)) by (intros; ring).
    repeat match goal with |- context[UFockOps.S4 ?a ?b ?c ?d (fun _ _ _ _ => 0 * 0)] =>
      rewrite (S4_zero K a b c d (fun _ _ _ _ => 0 * 0)) by (intros; ring) end.
    change (dot2 noa nva (dat L1a) (dat ta)) with (UFockOps.S2 noa nva (fun i a => dat L1a [i; a] * dat ta [a; i])).
    change (dot2 nob nvb (dat L1b) (dat tb)) with (UFockOps.S2 nob nvb (fun i a => dat L1b [i; a] * dat tb [a; i])).
    change (dot4 noa noa nva nva (dat L2aa) (dat aa)) with (UFockOps.S4 noa noa nva nva (fun i j a b => dat L2aa [i; j; a; b] * dat aa [a; b; i; j])).
    change (dot4 nob nob nvb nvb (dat L2bb) (dat bb)) with (UFockOps.S4 nob nob nvb nvb (fun i j a b => dat L2bb [i; j; a; b] * dat bb [a; b; i; j])).
    change (dot4 noa nob nva nvb (dat L2ab) (dat ab)) with (UFockOps.S4 noa nob nva nvb (fun i j a b => dat L2ab [i; j; a; b] * dat ab [a; b; i; j])).
    set (X := UFockOps.S4 noa nob nva nvb (fun i j a b => dat L2ab [i; j; a; b] * dat ab [a; b; i; j])).
    assert (N1 : UFockOps.S4 noa nob nvb nva (fun i j a b => - dat L2ab [i; j; b; a] * - dat ab [b; a; i; j]) = X).
    { rewrite S4_34. apply S4_ext. intros. ring. }
    assert (N2 : UFockOps.S4 nob noa nva nvb (fun i j a b => - dat L2ab [j; i; a; b] * - dat ab [a; b; j; i]) = X).
    { rewrite S4_12. apply S4_ext. intros. ring. }
    assert (N3 : UFockOps.S4 nob noa nvb nva (fun i j a b => dat L2ab [j; i; b; a] * dat ab [b; a; j; i]) = X).
    { rewrite S4_12, S4_34. apply S4_ext. intros. ring. }
    rewrite N1, N2, N3.
    assert (Q : X = quarter * (X + X + (X + X))).
    { transitivity (((1 + 1) * chalf) * ((1 + 1) * chalf) * X); [rewrite half_two; ring|unfold quarter; ring]. }
    rewrite Q at 5. ring.
  Qed.
  Lemma carried_H : carried K noa nob nva nvb H HS.
  Proof. apply carried_acts. apply (acts_H K n noa nva nob nvb ha hb Ia Ib Iab Fa Fb Iaa Ibb J HU M HM). Qed.

  Notation Hbar := (transformed inv M TS HS).
  Lemma u_lambda_main : exists e ta tb aa ab bb la lb laa lab lbb,
    returns (K := K) "ucc_energy" [tup [arr T1a; arr T1b]; tup [arr T2aa; arr T2ab; arr T2bb];
      arr (ov Fa); arr (ov Fb); arr (oovv Iaa); arr (oovv Ibb); arr (foovv J)] (numv e) /\
    returns (K := K) "uccsd_stanton" [py_one_e Fa; py_one_e Fb; py_two_e Iaa; py_two_e Ibb; py_two_e_full J;
        tup [arr T1a; arr T1b]; tup [arr T2aa; arr T2ab; arr T2bb]]
      (tup [tup [arr ta; arr tb]; tup [arr aa; arr ab; arr bb]]) /\
    returns (K := K) "uccsd_lambda_opt" [py_one_e Fa; py_one_e Fb; py_two_e Iaa; py_two_e Ibb;
        py_two_e_full J; tup [arr L1a; arr L1b]; tup [arr L2aa; arr L2ab; arr L2bb];
        tup [arr T1a; arr T1b]; tup [arr T2aa; arr T2ab; arr T2bb]]
      (tup [tup [arr la; arr lb]; tup [arr laa; arr lab; arr lbb]]) /\
    (shp la = [noa; nva] /\ shp lb = [nob; nvb] /\ shp laa = [noa; noa; nva; nva] /\
     shp lab = [noa; nob; nva; nvb] /\ shp lbb = [nob; nob; nvb; nvb]) /\
    ((forall i a, (i < noa)%nat -> (a < nva)%nat -> dat la [i; a] = COMM [Cre (noa + a); Ann i]) /\
     (forall i a, (i < nob)%nat -> (a < nvb)%nat -> dat lb [i; a] = COMM [Cre (n + (nob + a)); Ann (n + i)]) /\
     (forall i j a b, (i < noa)%nat -> (j < noa)%nat -> (a < nva)%nat -> (b < nva)%nat ->
        dat laa [i; j; a; b] = COMM [Cre (noa + a); Cre (noa + b); Ann j; Ann i]) /\
     (forall i j a b, (i < noa)%nat -> (j < nob)%nat -> (a < nva)%nat -> (b < nvb)%nat ->
        dat lab [i; j; a; b] = COMM [Cre (noa + a); Cre (n + (nob + b)); Ann (n + j); Ann i]) /\
     (forall i j a b, (i < nob)%nat -> (j < nob)%nat -> (a < nvb)%nat -> (b < nvb)%nat ->
        dat lbb [i; j; a; b] = COMM [Cre (n + (nob + a)); Cre (n + (nob + b)); Ann (n + j); Ann (n + i)])) /\
    (u_solved noa nva nob nvb ta tb aa ab bb ->
     (u_lambda_solved noa nva nob nvb la lb laa lab lbb <->
      forall x, u_space 2 A0 B0 x ->
        amp refS (opmul LS Hbar) (fst x ++ snd x) = (amp refS HS refS + e) * amp refS LS (fst x ++ snd x))) /\
    u_expect inv M n noa nva nob nvb 1 T1a T1b T2aa T2ab T2bb L1a L1b L2aa L2ab L2bb HS
    = amp refS HS refS + (e +
        (dot2 noa nva (dat L1a) (dat ta) + dot2 nob nvb (dat L1b) (dat tb) +
         (quarter * dot4 noa noa nva nva (dat L2aa) (dat aa) + quarter * dot4 nob nob nvb nvb (dat L2bb) (dat bb) +
          dot4 noa nob nva nvb (dat L2ab) (dat ab)))).
  Proof.
    assert (HH : u_ham_ok noa nva nob nvb Fa Fb Iaa Ibb J) by (eapply ham_ok; eassumption).
    destruct (uccsd_spin_shapes K _ _ _ _ _ _ _ _ _ _ _ _ _ _ HH HT)
      as (F & I & T1 & T2 & S1 & S2 & ta & tb & aa & ab & bb & S1' & S2' & EF & EI & E1 & E2 & RS & RU & Q1 & Q1' & Q2 & Q2' & P1 & P2 & P3 & P4 & P5).
    destruct (ulambda_spin_shapes K _ _ _ _ _ _ _ _ _ _ _ _ _ _ _ _ _ _ _ HH HL HT)
      as (F' & I' & L1 & L2 & T1' & T2' & M1 & M2 & la & lb & laa & lab & lbb & M1' & M2' & EF' & EI' & E3 & E4 & E1' & E2' & RL & RUL & G1 & G1' & G2 & G2' & N1 & N2 & N3 & N4 & N5).
    rewrite EF in EF'. injection EF' as <-. rewrite EI in EI'. injection EI' as <-.
    rewrite E1 in E1'. injection E1' as <-. rewrite E2 in E2'. injection E2' as <-.
    pose proof HU as (_ & _ & PA & PB & BFa & BFb & BIa & BIb & BJ).
    pose proof (F_blocks K n noa nva nob nvb Na Nb ha hb Ia Ib Iab Fa Fb BFa BFb F EF) as BF.
    pose proof (I_blocks K n noa nva nob nvb Na Nb Ia Ib Iab Iaa Ibb J BIa BIb BJ I EI) as BI.
    pose proof (anti_gC K n noa nva nob nvb Na Nb Ia Ib Iab PA PB) as AG.
    pose proof HT as (O1 & O2 & O3 & O4 & O5). pose proof HL as (O1l & O2l & O3l & O4l & O5l).
    pose proof (T1_to_spin_ok K T1a T1b noa nva nob nvb O1 O2) as (T1'' & X1 & OT1 & _). rewrite E1 in X1. injection X1 as <-.
    pose proof (T2_to_spin_ok K T2aa T2ab T2bb noa nva nob nvb O3 O4 O5) as (T2'' & X2 & OT2 & _). rewrite E2 in X2. injection X2 as <-.
    pose proof (T1_to_spin_ok K L1a L1b nva noa nvb nob O1l O2l) as (L1'' & X3 & OL1 & _). rewrite E3 in X3. injection X3 as <-.
    pose proof (T2_to_spin_ok K L2aa L2ab L2bb nva noa nvb nob O3l O4l O5l) as (L2'' & X4 & OL2 & _). rewrite E4 in X4. injection X4 as <-.
    change (l1_ok no nv L1) in OL1. change (l2_ok no nv L2) in OL2.
    destruct (cc_energy_expectation K no nv hc gc F I AG BF BI inv M HI HM T1 T2 OT1 OT2) as (e & He & Ee).
    destruct (en_sound K _ _ _ _ _ _ _ _ _ _ _ _ _ _ _ _ _ _ _ _ _ c10_chk1 HH HT EF EI E1 E2) as (e' & He' & HeU).
    pose proof (returns_fun K _ _ _ _ He He') as X. injection X as <-.
    destruct (projections K no nv hc gc F I AG BF BI inv M HI HM T1 T2 OT1 OT2 "ccsd_stanton"%string (or_intror eq_refl))
      as (R1 & R2 & HR & OR1 & OR2 & PR1 & PR2).
    pose proof (returns_fun K _ _ _ _ RS HR) as X. injection X as <- <-.
    destruct (lambda_all_are K no nv hc gc F I AG BF BI inv M HI HM T1 T2 L1 L2 OT1 OT2 OL1 OL2 "ccsd_lambda_opt"%string
      ltac:(cbn; auto)) as (M1'' & M2'' & HM12 & LA).
    pose proof (returns_fun K _ _ _ _ RL HM12) as X. injection X as <- <-.
    exists e, ta, tb, aa, ab, bb, la, lb, laa, lab, lbb.
    split; [exact HeU|]. split; [exact RU|]. split; [exact RUL|]. split; [auto|].
    assert (E0 : amp refS HS refS = amp ref H ref) by (apply (amp_carried_ref K n noa nva nob nvb Na Nb _ _ carried_H)).
    pose proof (acts_TU K n noa nva nob nvb Na Nb T1a T1b T2aa T2ab T2bb T1 T2 HT E1 E2) as AT.
    pose proof (acts_LU K n noa nva nob nvb Na Nb L1a L1b L2aa L2ab L2bb L1 L2 HL E3 E4 1) as AL.
    split; [|split].
    - (* the entries *)
      destruct LA as (_ & _ & LA1 & LA2).
      pose proof (spin_entries1 K M1 M1' la lb nva noa nvb nob G1 G1' N1 N2) as Y1.
      pose proof (spin_entries2 K M2 M2' laa lab lbb nva noa nvb nob G2 G2' N3 N4 N5) as Y2.
      assert (CU : forall w, Forall (fun o => (opi o < no + nv)%nat) w ->
        COMM (map (pio noa nob nva) w) = cc_commutator inv M no nv 1 T1 T2 L1 L2 H [(1, w)]).
      { intros w Hw. apply (commutator_u K n noa nva nob nvb Na Nb T1a T1b T2aa T2ab T2bb T1 T2 HT E1 E2 L1a L1b L2aa L2ab L2bb L1 L2 HL E3 E4 inv M 1);
          [exact carried_H|apply (word_carried K n noa nva nob nvb Na Nb w Hw)]. }
      assert (PV : forall s a, (a < side_len s nva nvb)%nat -> pix noa nob nva (no + at_spin nva s a) = at_spin n s (side_len s noa nob + a)).
      { intros s a L. exact (pi_at n noa nva nob nvb Na Nb true s a L). }
      assert (PO : forall s i, (i < side_len s noa nob)%nat -> pix noa nob nva (at_spin noa s i) = at_spin n s i).
      { intros s i L. exact (pi_at n noa nva nob nvb Na Nb false s i L). }
      assert (BO : forall s i, (i < side_len s noa nob)%nat -> (at_spin noa s i < no)%nat) by (intros [|] i; cbn; lia).
      assert (BV : forall s i, (i < side_len s nva nvb)%nat -> (at_spin nva s i < nv)%nat) by (intros [|] i; cbn; lia).
      assert (C1 : forall s1 s2 i a, (i < side_len s1 noa nob)%nat -> (a < side_len s2 nva nvb)%nat ->
        match spin2 la lb [s1; s2] with Some u => dat u [i; a] | None => 0 end
        = COMM [Cre (at_spin n s2 (side_len s2 noa nob + a)); Ann (at_spin n s1 i)]).
      { intros s1 s2 i a Li La. rewrite <- Y1 by assumption. rewrite LA1 by auto.
        rewrite <- CU by (repeat constructor; cbn [opi]; [pose proof (BV s2 a La); lia|pose proof (BO s1 i Li); lia]).
        cbn [map pio]. rewrite PV, PO by assumption. reflexivity. }
      assert (C2 : forall s1 s2 s3 s4 i j a b, (i < side_len s1 noa nob)%nat -> (j < side_len s2 noa nob)%nat -> (a < side_len s3 nva nvb)%nat -> (b < side_len s4 nva nvb)%nat ->
        match spin4_anti laa lab lbb [s1; s2; s3; s4] with Some u => dat u [i; j; a; b] | None => 0 end
        = COMM [Cre (at_spin n s3 (side_len s3 noa nob + a)); Cre (at_spin n s4 (side_len s4 noa nob + b)); Ann (at_spin n s2 j); Ann (at_spin n s1 i)]).
      { intros s1 s2 s3 s4 i j a b Li Lj La Lb. rewrite <- Y2 by assumption. rewrite LA2 by auto.
        rewrite <- CU by (repeat constructor; cbn [opi]; [pose proof (BV s3 a La)|pose proof (BV s4 b Lb)|pose proof (BO s2 j Lj)|pose proof (BO s1 i Li)]; lia).
        cbn [map pio]. rewrite !PV, !PO by assumption. reflexivity. }
      repeat split.
      + intros i a Li La. exact (C1 false false i a Li La).
      + intros i a Li La. exact (C1 true true i a Li La).
      + intros i j a b Li Lj La Lb. exact (C2 false false false false i j a b Li Lj La Lb).
      + intros i j a b Li Lj La Lb. exact (C2 false true false true i j a b Li Lj La Lb).
      + intros i j a b Li Lj La Lb. exact (C2 true true true true i j a b Li Lj La Lb).
    - (* left eigenvector *)
      intros SV. apply (solved_spin K noa nva nob nvb S1 S2 ta tb aa ab bb S1' S2' Q1 Q1' Q2 Q2' P1 P2 P3 P4 P5) in SV as [Z1 Z2].
      pose proof (left_iff K no nv hc gc inv M HI HM T1 T2 L1 L2 OT2 _ S1 S2 OR2 Ee PR1 PR2 Z1 Z2 M1 M2 LA) as IFF.
      change (u_lambda_solved noa nva nob nvb la lb laa lab lbb) with (u_solved nva noa nvb nob la lb laa lab lbb).
      rewrite <- (solved_spin K nva noa nvb nob M1 M2 la lb laa lab lbb M1' M2' G1 G1' G2 G2' N1 N2 N3 N4 N5).
      rewrite IFF. clear IFF. rewrite <- E0.
      set (LC := lambda_op no nv 1 (fun i a => dat L1 [i; a]) (fun i j a b => dat L2 [i; j; a; b])) in *.
      set (HC := transformed inv M (cluster no nv T1 T2) H).
      assert (CL : carried K noa nob nva nvb LC LS) by (apply carried_acts, AL).
      assert (CP : carried K noa nob nva nvb (opmul LC HC) (opmul LS Hbar)).
      { apply carried_mul; [exact CL|]. apply carried_transformed; [exact AT|exact carried_H]. }
      pose proof (lenU n noa nob) as LR. destruct (mix_refU K n noa nva nob nvb Na Nb) as [MR SR].
      assert (EQ : forall u, List.length u = (n + n)%nat ->
        (amp refS (opmul LS Hbar) u = (amp refS HS refS + e) * amp refS LS u <->
         amp ref (opmul LC HC) (mix noa nva nob u) = (amp refS HS refS + e) * amp ref LC (mix noa nva nob u))).
      { intros u Lu. rewrite (amp_carried K n noa nva nob nvb Na Nb _ _ refS u CP LR Lu), (amp_carried K n noa nva nob nvb Na Nb _ _ refS u CL LR Lu).
        rewrite MR, SR. set (sx := CISpec.sgn (eps noa nva nob u)). set (x := amp ref (opmul LC HC) _). set (y := amp ref LC _).
        assert (SS : sx * sx = 1) by (apply (sg_sq K noa nva nob u)).
        split; intros Q.
        - transitivity (sx * sx * x); [rewrite SS; ring|]. transitivity (sx * (1 * sx * x)); [ring|]. rewrite Q.
          transitivity (sx * sx * ((amp refS HS refS + e) * y)); [ring|rewrite SS; ring].
        - rewrite Q. ring. }
      pose proof (excited_mix K n noa nva nob nvb ha hb Ia Ib Iab Fa Fb Iaa Ibb J HU M HM) as EM.
      assert (INV : forall t, List.length t = (no + nv)%nat -> exists u, List.length u = (n + n)%nat /\ t = mix noa nva nob u).
      { intros t L. pose proof Na. pose proof Nb. exists (mix noa nob nva t). rewrite (mix_length noa nob nva nvb) by lia. split; [lia|].
        symmetry. apply (mix_mix noa nob nva nvb). lia. }
      split.
      + intros S [x y] (ka & kb & (La & Na' & Da) & (Lb & Nb' & Db) & Lk). cbn [fst snd] in *. rewrite aufbau_length in La, Lb.
        assert (L : List.length (x ++ y) = (n + n)%nat) by (rewrite app_length; lia).
        apply EQ; [exact L|]. apply (S (ka + kb)%nat); [exact Lk|]. apply EM; [exact L|].
        split; [rewrite L, LR; reflexivity|]. split; [rewrite !nel_app; lia|]. rewrite ndiff_app by (rewrite aufbau_length; auto). lia.
      + intros S k t Lk Xk. pose proof (proj1 Xk) as Lt. rewrite aufbau_length in Lt. destruct (INV t Lt) as (u & Lu & ->).
        apply EM in Xk; [|exact Lu]. apply EQ; [exact Lu|].
        destruct (Nat.eq_dec (nel (firstn n u)) noa) as [Ea|Ea].
        * destruct (excited_u K n noa nva nob nvb ha hb Ia Ib Iab Fa Fb Iaa Ibb J HU M HM k u Xk Ea) as [(ka & kb & Xa & Xb & Lab) Eu].
          rewrite Eu. apply (S (firstn n u, skipn n u)). exists ka, kb. split; [exact Xa|]. split; [exact Xb|]. lia.
        * assert (FR : nel (firstn n refS) = noa).
          { rewrite firstn_app, aufbau_length, Nat.sub_diag, firstn_all2 by (rewrite aufbau_length; lia). cbn [firstn].
            rewrite app_nil_r. apply nel_aufbau. pose proof Na. lia. }
          pose proof (aneutral_L K n noa nva nob nvb 1 L1a L1b L2aa L2ab L2bb Na Nb) as NL.
          assert (NP : aneutral K n (opmul LS Hbar)).
          { apply aneutral_mul; [exact NL|]. apply aneutral_transformed; [apply aneutral_T; [exact Na|exact Nb]|apply aneutral_H]. }
          rewrite (amp_off K n _ refS u NP LR) by congruence. rewrite (amp_off K n _ refS u NL LR) by congruence. ring.
    - (* Lagrangian *)
      rewrite (expect_u K n noa nva nob nvb Na Nb T1a T1b T2aa T2ab T2bb T1 T2 HT E1 E2 L1a L1b L2aa L2ab L2bb L1 L2 HL E3 E4 inv M 1 _ _ carried_H).
      destruct (lagrangian_expect K no nv hc gc F I AG BF BI inv M HI HM T1 T2 L1 L2 OT1 OT2) as (e' & R1 & R2 & He'' & HRs & LG).
      pose proof (returns_fun K _ _ _ _ He He'') as X. injection X as <-.
      destruct (ccsd_stanton_simple K no nv F I T1 T2 (proj1 BF) (blocks_I_ok K no nv gc I AG BI) OT1 OT2) as (r & s & Hr & Hs & Xrs).
      rewrite (returns_fun K _ _ _ _ Hr HRs), (returns_fun K _ _ _ _ Hs RS) in Xrs.
      assert (TQ : teq R1 S1 /\ teq R2 S2).
      { inversion Xrs as [| |vs ws Hv|]. inversion Hv as [|? ? ? ? Ha Hb]. inversion Hb as [|? ? ? ? Hc Hd]. inversion Ha. inversion Hc. auto. }
      rewrite LG, E0. f_equal. f_equal.
      rewrite <- (dots_spin L1 L2 S1 S2 S1' S2' ta tb aa ab bb E3 E4 Q1 Q1' Q2 Q2' P1 P2 P3 P4 P5).
      destruct TQ as [[ZS1 D1] [ZS2 D2]]. rewrite ZS1 in D1. rewrite ZS2 in D2.
      unfold t1_ok in OR1. rewrite OR1 in D1. rewrite (proj1 OR2) in D2. f_equal.
      + unfold dot2. apply sumN_ext. intros i Li. apply sumN_ext. intros a La. rewrite D1 by (repeat constructor; assumption). reflexivity.
      + f_equal. unfold dot4. apply sumN_ext. intros i Li. apply sumN_ext. intros j Lj. apply sumN_ext. intros a La. apply sumN_ext. intros b Lb.
        rewrite D2 by (repeat constructor; assumption). reflexivity.
  Qed.
End UDens3.
