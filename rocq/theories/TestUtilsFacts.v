(** Facts about the model of test_utils.py. *)
From Coq Require Import List Bool Arith Ring Lia.
From Verif Require Import Scalar Tensor NpModel CCSpec SpinSpec SpinFacts UtilsModel UtilsSpec SpinRound UtilsFacts
  TestUtilsModel TestUtilsSpec.
Import ListNotations.

Section Facts.
  Notation sides := SpinFacts.sides (only parsing).
  Variable K : cring.
  Local Open Scope K_scope.
  Add Ring Kr : (c_th K).
  Notation T := (tensor K).

  Lemma shape_refl sh : shape_eqb sh sh = true.
  Proof. induction sh as [|d sh IH]; [reflexivity|]. cbn. rewrite Nat.eqb_refl. exact IH. Qed.

  Lemma iadd_eq p (x : T) sh : shp x = sh -> is_perm p (length sh) = true ->
    map (fun k => nth k sh 0%nat) p = sh ->
    iadd_tr K p x = Some (mkT sh (fun idx => dat x idx + dat x (untrans p (length sh) idx))).
  Proof.
    intros <- P M. unfold iadd_tr, ttrans. rewrite P. cbn [bindo]. unfold tadd. cbn [shp dat].
    rewrite M, shape_refl. reflexivity.
  Qed.
  Lemma isub_eq p (x : T) sh : shp x = sh -> is_perm p (length sh) = true ->
    map (fun k => nth k sh 0%nat) p = sh ->
    isub_tr K p x = Some (mkT sh (fun idx => dat x idx + - dat x (untrans p (length sh) idx))).
  Proof.
    intros <- P M. unfold isub_tr, ttrans. rewrite P. cbn [bindo]. unfold tsub, tadd, tneg. cbn [shp dat].
    rewrite M, shape_refl. reflexivity.
  Qed.
  Ltac steps := repeat (first
    [ erewrite iadd_eq by reflexivity | erewrite isub_eq by reflexivity
    | unfold ttrans; cbn [shp random length is_perm seq forallb existsb Nat.eqb andb orb] ];
    cbn [bindo shp dat length]).

  Lemma part_slice (Itot : T) no nv ss : shp Itot = [no + nv; no + nv; no + nv; no + nv]%nat ->
    length ss = 4%nat ->
    exists u, tslice (sides ss [no; no; no; no]%nat) Itot = Some u /\ is_part no nv Itot ss u.
  Proof.
    intros S L. destruct (ov_slice K Itot [no; no; no; no]%nat [nv; nv; nv; nv]%nat ss S eq_refl L) as (u & E & S' & H).
    exists u. split; [exact E|]. split; [exact S'|]. rewrite S'. exact H.
  Qed.

  Ltac part S ss := let u := fresh "u" in let E := fresh "E" in
    destruct (part_slice _ _ _ ss S eq_refl) as (u & E & ?);
    cbn [sides combine map side fst snd] in E; rewrite E; cbn [bindo]; clear E.

  Lemma in4 a b c d i j k l : inrange [a; b; c; d] [i; j; k; l] <-> (i < a /\ j < b /\ k < c /\ l < d)%nat.
  Proof.
    unfold inrange. split.
    - intros H. inversion H; subst. inversion H5; subst. inversion H7; subst. inversion H9; subst. auto.
    - intros (A & B & C & D). auto.
  Qed.

  Lemma F2len (x y : list nat) : Forall2 lt x y -> length x = length y.
  Proof. induction 1; cbn; congruence. Qed.
  Lemma len4 a b c d idx : inrange [a; b; c; d] idx -> Nat.eqb (length idx) 4 = false -> False.
  Proof. intros R. 
    assert (E : length idx = 4%nat) by exact (F2len _ _ R).
    rewrite E. discriminate. Qed.

  (** parts of an antisymmetric array are antisymmetric where that makes sense *)
  Lemma part_lead no nv (Itot u : T) s s3 s4 : shp Itot = [no + nv; no + nv; no + nv; no + nv]%nat ->
    antisym_lead Itot -> is_part no nv Itot [s; s; s3; s4] u -> antisym_lead u.
  Proof.
    intros S A [Hs Hd] i j k l R. rewrite !Hd; [|rewrite Hs in *; cbn [sels] in *; apply in4 in R; apply in4; tauto|assumption].
    cbn [ats]. apply A. rewrite S. rewrite Hs in R. cbn [sels] in R. apply in4 in R. apply in4.
    unfold at_spin, side_len in *. destruct s, s3, s4; lia.
  Qed.
  Lemma part_tail no nv (Itot u : T) s1 s2 s : shp Itot = [no + nv; no + nv; no + nv; no + nv]%nat ->
    antisym_tail Itot -> is_part no nv Itot [s1; s2; s; s] u -> antisym_tail u.
  Proof.
    intros S A [Hs Hd] i j k l R. rewrite !Hd; [|rewrite Hs in *; cbn [sels] in *; apply in4 in R; apply in4; tauto|assumption].
    cbn [ats]. apply A. rewrite S. rewrite Hs in R. cbn [sels] in R. apply in4 in R. apply in4.
    unfold at_spin, side_len in *. destruct s, s1, s2; lia.
  Qed.

  Lemma parts_ok no nv (Itot : T) I : shp Itot = [no + nv; no + nv; no + nv; no + nv]%nat ->
    antisym_lead Itot -> antisym_tail Itot -> parts no nv Itot I -> two_e_ok no nv I.
  Proof.
    intros S A B (H1 & H2 & H3 & H4 & H5 & H6 & H7 & H8 & H9). split.
    - repeat (split; [first [apply H1|apply H2|apply H3|apply H4|apply H5|apply H6|apply H7|apply H8|apply H9]|]). apply H9.
    - repeat (split || (eapply part_lead; eassumption) || (eapply part_tail; eassumption)).
  Qed.

  Lemma R_F roo rov rvv no nv : exists F, make_random_F K roo rov rvv no nv = Some F /\
    one_e_ok no nv F /\ symmetric (oo F) /\ symmetric (vv F) /\
    (forall a i, (a < nv)%nat -> (i < no)%nat -> dat (vo F) [a; i] = dat (ov F) [i; a]) /\
    (forall i j, dat (oo F) [i; j] = roo [i; j] + roo [j; i]) /\ (forall i a, dat (ov F) [i; a] = rov [i; a]) /\
    (forall a b, dat (vv F) [a; b] = rvv [a; b] + rvv [b; a]).
  Proof.
    unfold make_random_F. steps. eexists. split; [reflexivity|].
    split; [repeat split|]. split; [|split; [|split; [|split; [|split]]]]; try reflexivity.
    - intros p q _. cbn. ring.
    - intros p q _. cbn. ring.
  Qed.

  Lemma R_I r no nv : exists Itot I, make_random_I K r no nv = Some I /\
    shp Itot = [no + nv; no + nv; no + nv; no + nv]%nat /\ pair_sym Itot /\
    (forall p q s t, dat Itot [p; q; s; t] = r [p; q; s; t] + r [q; p; t; s]) /\
    parts no nv Itot I /\ two_e_shape no nv I.
  Proof.
    unfold make_random_I. steps. set (Itot := mkT _ _).
    assert (S : shp Itot = [no + nv; no + nv; no + nv; no + nv]%nat) by reflexivity.
    part S [true; true; true; true]. part S [true; true; true; false]. part S [true; false; true; true].
    part S [true; true; false; false]. part S [true; false; true; false]. part S [false; false; true; true].
    part S [true; false; false; false]. part S [false; false; false; true]. part S [false; false; false; false].
    exists Itot. eexists. split; [reflexivity|]. split; [exact S|]. split; [|split; [reflexivity|split]].
    - split; [reflexivity|]. intros idx R. rewrite S in R.
      destruct idx as [|i [|j [|k [|l [|]]]]]; try (exfalso; exact (len4 _ _ _ _ _ R eq_refl)).
      unfold swap_both, swap, Itot. cbn. ring.
    - unfold parts. cbn. tauto.
    - unfold two_e_shape. cbn. unfold is_part in *. cbn [sels side_len] in *. tauto.
  Qed.

  Lemma I_anti_tot (r : list nat -> K) n : exists x,
    (let? Itot := isub_tr K [0; 1; 3; 2]%nat (random K [n; n; n; n] r) in
     let? Itot := isub_tr K [1; 0; 2; 3]%nat Itot in
     iadd_tr K [1; 0; 3; 2]%nat Itot) = Some x /\ shp x = [n; n; n; n] /\ antisym_lead x /\ antisym_tail x /\ antisymmetrized r x.
  Proof.
    steps. eexists. split; [reflexivity|]. split; [reflexivity|].
    repeat split; intros i j k l _; cbn; ring.
  Qed.

  Lemma I_anti_eq r no nv : exists Itot I, make_random_I_anti K r no nv = Some I /\
    shp Itot = [no + nv; no + nv; no + nv; no + nv]%nat /\ antisym_lead Itot /\ antisym_tail Itot /\ antisymmetrized r Itot /\
    parts no nv Itot I.
  Proof.
    unfold make_random_I_anti. cbv zeta.
    destruct (I_anti_tot r (no + nv)) as (Itot & E & S & A & B & Z).
    destruct (isub_tr K [0; 1; 3; 2]%nat _) as [x1|]; [cbn [bindo] in *|discriminate].
    destruct (isub_tr K [1; 0; 2; 3]%nat x1) as [x2|]; [cbn [bindo] in *|discriminate].
    rewrite E. cbn [bindo].
    part S [true; true; true; true]. part S [true; true; true; false]. part S [true; false; true; true].
    part S [true; true; false; false]. part S [true; false; true; false]. part S [false; false; true; true].
    part S [true; false; false; false]. part S [false; false; false; true]. part S [false; false; false; false].
    exists Itot. eexists. split; [reflexivity|]. split; [exact S|]. split; [exact A|]. split; [exact B|]. split; [exact Z|].
    unfold parts. cbn. tauto.
  Qed.

  Lemma R_I_anti r no nv : exists Itot I, make_random_I_anti K r no nv = Some I /\
    shp Itot = [no + nv; no + nv; no + nv; no + nv]%nat /\ antisym_lead Itot /\ antisym_tail Itot /\ antisymmetrized r Itot /\
    parts no nv Itot I /\ two_e_ok no nv I.
  Proof.
    destruct (I_anti_eq r no nv) as (Itot & I & E & S & A & B & Z & P). exists Itot, I.
    repeat (split; [assumption|]). exact (parts_ok no nv Itot I S A B P).
  Qed.

  Lemma trans_part (Itot u : T) no nv s1 s2 s3 s4 : shp Itot = [no + nv; no + nv; no + nv; no + nv]%nat ->
    antisym_lead Itot -> antisym_tail Itot -> is_part no nv Itot [s1; s2; s3; s4] u ->
    exists v, ttrans [1; 0; 3; 2]%nat u = Some v /\ is_part no nv Itot [s2; s1; s4; s3] v.
  Proof.
    intros S A B [Hs Hd]. unfold ttrans. rewrite Hs. cbn [sels length].
    change (is_perm [1; 0; 3; 2]%nat 4) with true. cbn iota. eexists. split; [reflexivity|].
    split; [reflexivity|]. cbn [shp dat map nth]. intros idx R.
    destruct idx as [|i [|j [|k [|l [|]]]]]; try (exfalso; exact (len4 _ _ _ _ _ R eq_refl)).
    change (untrans [1; 0; 3; 2]%nat 4 [i; j; k; l]) with [j; i; l; k].
    apply in4 in R. rewrite Hd by (rewrite Hs; cbn [sels]; apply in4; tauto).
    cbn [ats]. rewrite A, B.
    - ring.
    - rewrite S. apply in4. unfold at_spin, side_len in *. destruct s1, s2, s3, s4; lia.
    - rewrite S. apply in4. unfold at_spin, side_len in *. destruct s1, s2, s3, s4; lia.
  Qed.

  Ltac tpart S A B H := let v := fresh "v" in let E := fresh "E" in
    destruct (trans_part _ _ _ _ _ _ _ _ S A B H) as (v & E & ?); rewrite E; cbn [bindo]; clear E.

  Lemma R_Ifull r no nv : exists Itot I, make_random_Ifull K r no nv = Some I /\
    shp Itot = [no + nv; no + nv; no + nv; no + nv]%nat /\ antisym_lead Itot /\ antisym_tail Itot /\ antisymmetrized r Itot /\
    parts_full no nv Itot I /\ two_e_full_ok no nv no nv I.
  Proof.
    unfold make_random_Ifull. cbv zeta.
    destruct (I_anti_tot r (no + nv)) as (Itot & E & S & A & B & Z).
    destruct (isub_tr K [0; 1; 3; 2]%nat _) as [x1|]; [cbn [bindo] in *|discriminate].
    destruct (isub_tr K [1; 0; 2; 3]%nat x1) as [x2|]; [cbn [bindo] in *|discriminate].
    rewrite E. cbn [bindo].
    part S [true; true; true; true]. part S [true; true; true; false]. tpart S A B H0.
    part S [true; false; true; true]. tpart S A B H2.
    part S [true; true; false; false]. part S [true; false; true; false]. tpart S A B H5.
    part S [false; true; true; false]. tpart S A B H7.
    part S [false; false; true; true].
    part S [true; false; false; false]. tpart S A B H10.
    part S [false; false; false; true]. tpart S A B H12.
    part S [false; false; false; false].
    exists Itot. eexists. split; [reflexivity|]. split; [exact S|]. split; [exact A|]. split; [exact B|]. split; [exact Z|].
    split.
    - unfold parts_full. cbn. tauto.
    - unfold two_e_full_ok. cbn. unfold is_part in *. cbn [sels side_len] in *. tauto.
  Qed.

  Lemma R_Itot r n : exists I, make_random_Itot K r n = Some I /\ shp I = [n; n; n; n] /\
    forall p q s t, inrange (shp I) [p; q; s; t] ->
      dat I [p; q; s; t] = dat I [q; p; t; s] /\ dat I [p; q; s; t] = dat I [s; t; p; q] /\
      dat I [p; q; s; t] = dat I [t; s; q; p] /\
      dat I [p; q; s; t] = (c1 + c1) * (r [p; q; s; t] + r [q; p; t; s] + r [s; t; p; q] + r [t; s; q; p]).
  Proof.
    unfold make_random_Itot. cbv zeta. steps. eexists. split; [reflexivity|]. split; [reflexivity|].
    intros p q s t _. repeat split; cbn; ring.
  Qed.

  Lemma R_T r1 r2 no nv : exists T1 T2, make_random_T K r1 r2 no nv = Some (T1, T2) /\
    t1_ok no nv T1 /\ t2_ok no nv T2 /\ (forall a i, dat T1 [a; i] = r1 [a; i]) /\ antisymmetrized r2 T2.
  Proof.
    unfold make_random_T. cbv zeta. steps. do 2 eexists. split; [reflexivity|]. split; [reflexivity|].
    split; [split; [reflexivity|]; split; intros i j k l _; cbn; ring|].
    split; [reflexivity|]. intros i j k l _; cbn; ring.
  Qed.
  Lemma R_L r1 r2 no nv : exists L1 L2, make_random_L K r1 r2 no nv = Some (L1, L2) /\
    l1_ok no nv L1 /\ l2_ok no nv L2 /\ (forall i a, dat L1 [i; a] = r1 [i; a]) /\ antisymmetrized r2 L2.
  Proof.
    unfold make_random_L. cbv zeta. steps. do 2 eexists. split; [reflexivity|]. split; [reflexivity|].
    split; [split; [reflexivity|]; split; intros i j k l _; cbn; ring|].
    split; [reflexivity|]. intros i j k l _; cbn; ring.
  Qed.
  Lemma R_T_spatial ra rb raa rbb rab noa nva nob nvb :
    let (T1a, T1b) := make_random_T1_spatial K ra rb noa nva nob nvb in
    exists T2aa T2ab T2bb, make_random_T2_spatial K raa rbb rab noa nva nob nvb = Some (T2aa, T2ab, T2bb) /\
    u_amps_ok noa nva nob nvb T1a T1b T2aa T2ab T2bb /\
    (forall a i, dat T1a [a; i] = ra [a; i]) /\ (forall a i, dat T1b [a; i] = rb [a; i]) /\
    antisymmetrized raa T2aa /\ antisymmetrized rbb T2bb /\
    (forall a b i j, dat T2ab [a; b; i; j] = rab [a; b; i; j]).
  Proof.
    unfold make_random_T1_spatial, make_random_T2_spatial. cbv zeta. steps.
    do 3 eexists. split; [reflexivity|]. split.
    - unfold u_amps_ok, t2_ok. split; [reflexivity|]. split; [reflexivity|]. split; [|split; [reflexivity|]];
      (split; [reflexivity|]; split; intros i j k l _; cbn; ring).
    - do 2 (split; [reflexivity|]). split; [|split; [|reflexivity]]; intros i j k l _; cbn; ring.
  Qed.
  Lemma R_ft_integrals r1 r2 n : exists F I, make_random_ft_integrals K r1 r2 n = Some (F, I) /\
    shp F = [n; n] /\ symmetric F /\ shp I = [n; n; n; n] /\ antisym_lead I /\ antisym_tail I /\
    (forall p q, dat F [p; q] = r1 [p; q] + r1 [q; p]) /\ antisymmetrized r2 I.
  Proof.
    unfold make_random_ft_integrals. cbv zeta. steps. do 2 eexists. split; [reflexivity|]. split; [reflexivity|].
    split; [intros p q _; cbn; ring|]. split; [reflexivity|].
    do 2 (split; [intros i j k l _; cbn; ring|]). split; [reflexivity|]. intros i j k l _; cbn; ring.
  Qed.
  Lemma R_ft_T r1 r2 ng n : exists T1 T2, make_random_ft_T K r1 r2 ng n = Some (T1, T2) /\
    shp T1 = [ng; n; n] /\ shp T2 = [ng; n; n; n; n] /\ antisym_ft T2 /\
    (forall g p q, dat T1 [g; p; q] = r1 [g; p; q]) /\ antisymmetrized_ft r2 T2.
  Proof.
    unfold make_random_ft_T. cbv zeta. steps. do 2 eexists. split; [reflexivity|]. split; [reflexivity|].
    split; [reflexivity|]. split; [intros g i j k l _; split; cbn; ring|].
    split; [reflexivity|]. intros g i j k l _; cbn; ring.
  Qed.
  Lemma R_ft_T_spatial ra rb raa rbb rab ng na nb :
    (let (T1a, T1b) := make_random_ft_T1_spatial K ra rb ng na nb in
     shp T1a = [ng; na; na] /\ shp T1b = [ng; nb; nb] /\
     (forall g p q, dat T1a [g; p; q] = ra [g; p; q]) /\ (forall g p q, dat T1b [g; p; q] = rb [g; p; q])) /\
    exists T2aa T2ab T2bb, make_random_ft_T2_spatial K raa rbb rab ng na nb = Some (T2aa, T2ab, T2bb) /\
    shp T2aa = [ng; na; na; na; na] /\ antisym_ft T2aa /\ shp T2ab = [ng; na; nb; na; nb] /\
    shp T2bb = [ng; nb; nb; nb; nb] /\ antisym_ft T2bb /\
    antisymmetrized_ft raa T2aa /\ antisymmetrized_ft rbb T2bb /\
    (forall g p q s t, dat T2ab [g; p; q; s; t] = rab [g; p; q; s; t]).
  Proof.
    unfold make_random_ft_T1_spatial, make_random_ft_T2_spatial. cbv zeta. split; [repeat split; reflexivity|]. steps.
    do 3 eexists. split; [reflexivity|]. split; [reflexivity|].
    split; [intros g i j k l _; split; cbn; ring|]. do 2 (split; [reflexivity|]).
    split; [intros g i j k l _; split; cbn; ring|]. split; [|split; [|reflexivity]]; intros g i j k l _; cbn; ring.
  Qed.
  Lemma R_ft_D r n : exists d1 d2, make_random_ft_D K r n = Some (d1, d2) /\ make_random_ft_D1 K r n = Some d1 /\
    shp d1 = [n; n] /\ shp d2 = [n; n; n; n] /\
    (forall p q, (p < n)%nat -> (q < n)%nat -> dat d1 [p; q] = - dat d1 [q; p] /\ dat d1 [p; q] = r [p] - r [q]) /\
    (forall p q s t, inrange (shp d2) [p; q; s; t] ->
       dat d2 [p; q; s; t] = - dat d2 [s; t; p; q] /\ dat d2 [p; q; s; t] = dat d2 [q; p; s; t] /\
       dat d2 [p; q; s; t] = dat d1 [p; s] + dat d1 [q; t]).
  Proof.
    unfold make_random_ft_D, make_random_ft_D1. cbv zeta. set (e := random K [n] r).
    destruct (D1_spec K e e n n eq_refl eq_refl) as (d1 & E1 & S1 & V1).
    destruct (D2_spec K e e n n eq_refl eq_refl) as (d2 & E2 & S2 & V2 & _).
    rewrite E1, E2. cbn [bindo]. exists d1, d2. do 4 (split; [auto|]). split.
    - intros p q Hp Hq. rewrite !V1 by assumption. split; [ring|reflexivity].
    - intros p q s t R. rewrite S2 in R. apply in4 in R. destruct R as (A & B & C & D).
      rewrite !V2, !V1 by assumption. repeat split; ring.
  Qed.
  Lemma R_ft_D2 r1 r2 n1 n2 : exists d2, make_random_ft_D2 K r1 r2 n1 n2 = Some d2 /\ shp d2 = [n1; n2; n1; n2] /\
    (forall p q s t, inrange (shp d2) [p; q; s; t] -> dat d2 [p; q; s; t] = - dat d2 [s; t; p; q] /\
       dat d2 [p; q; s; t] = r1 [p] + r2 [q] - r1 [s] - r2 [t]).
  Proof.
    unfold make_random_ft_D2. cbv zeta.
    destruct (D2u_spec K (random K [n1] r1) (random K [n2] r2) (random K [n1] r1) (random K [n2] r2) n1 n2 n1 n2
      eq_refl eq_refl eq_refl eq_refl) as (d2 & E2 & S2 & V2).
    exists d2. split; [exact E2|]. split; [exact S2|]. intros p q s t R. rewrite S2 in R. apply in4 in R.
    destruct R as (A & B & C & D). rewrite !V2 by assumption. split; [ring|reflexivity].
  Qed.
  Lemma R_gen r n1o n1v n2o n2v n3o n3v n4o n4v :
    exists b, make_random_Ifull_gen K r n1o n1v n2o n2v n3o n3v n4o n4v = Some b /\
    forall ss, length ss = 4%nat ->
      is_block [n1o; n2o; n3o; n4o] [n1v; n2v; n3v; n4v]
        (mkT [n1o + n1v; n2o + n2v; n3o + n3v; n4o + n4v]%nat r) b ss.
  Proof. exact (full_blocks K (random K _ r) n1o n1v n2o n2v n3o n3v n4o n4v eq_refl). Qed.
End Facts.
