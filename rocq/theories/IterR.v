(** The iteration for closed shells: instance of the general convergence
    theorem for amplitudes with the symmetry T2[abij] = T2[baji]. *)
From Coq Require Import List Bool Arith Lia String Reals Lra.
From Verif Require Import Scalar Tensor PySyntax PySem CCProg CCSpec SymSound CCShapes CCEquiv CCSym CovSpec Public Cov CovThm
  RoundSpec UtilsModel UtilsFacts ShiftSpec Resp RespReal NegSpec SpinSpec IterSpec Lips Banach Iter IterCC IterD PropertiesCov PropertiesShift
  PropertiesRest.
Import ListNotations.
Local Open Scope R_scope.

Definition scJ (h : R) (J : two_e_full RK) : two_e_full RK :=
  TwoEF _ (sc h (fvvvv J)) (sc h (fvvvo J)) (sc h (fvvov J)) (sc h (fvovv J)) (sc h (fovvv J)) (sc h (fvvoo J))
          (sc h (fvovo J)) (sc h (fvoov J)) (sc h (fovvo J)) (sc h (fovov J)) (sc h (foovv J)) (sc h (fooov J))
          (sc h (foovo J)) (sc h (fovoo J)) (sc h (fvooo J)) (sc h (foooo J)).

Section ScaleJ.
  Variables no nv : nat.
  Notation n := (n2 no nv).
  Variable h : R.
  Hypothesis h0 : 0 < h.
  Variable J : two_e_full RK.
  Hypotheses (HJ : two_e_full_ok no nv no nv J) (BJ : at_most_J h J).
  Ltac fields := unfold Ir_, eri16, py_two_e_full, scJ, arr;
    cbn [related related3 fvvvv fvvvo fvvov fvovv fovvv fvvoo fvovo fvoov fovvo fovov foovv fooov foovo fovoo fvooo foooo].
  Lemma scJ_bounded : bounded n 1 Ir_ (py_two_e_full (scJ h J)).
  Proof.
    destruct HJ as (? & ? & ? & ? & ? & ? & ? & ? & ? & ? & ? & ? & ? & ? & ? & ?).
    destruct BJ as (? & ? & ? & ? & ? & ? & ? & ? & ? & ? & ? & ? & ? & ? & ? & ?).
    unfold bounded. fields.
    repeat (split; [split; [reflexivity|split; [reflexivity|apply sc_bounded; assumption]]|]). exact Logic.I.
  Qed.
  Lemma scJ_near d : 0 <= d -> near n d Ir_ (py_two_e_full (scJ h J)) (py_two_e_full (scJ h J)).
  Proof.
    intros Hd. destruct HJ as (? & ? & ? & ? & ? & ? & ? & ? & ? & ? & ? & ? & ? & ? & ? & ?).
    unfold near. fields.
    repeat (split; [split; [reflexivity|split; [reflexivity|apply near_up; [exact Hd|]; apply near_refl; assumption]]|]). exact Logic.I.
  Qed.
  Lemma scJ_comb : combined (K := RK) n h 0 Ir_ (py_two_e_full (scJ h J)) (py_two_e_full (scJ h J)) (py_two_e_full J).
  Proof.
    destruct HJ as (? & ? & ? & ? & ? & ? & ? & ? & ? & ? & ? & ? & ? & ? & ? & ?).
    unfold combined. fields.
    repeat (split; [do 3 (split; [reflexivity|]); apply sc_combined; assumption|]). exact Logic.I.
  Qed.
End ScaleJ.

Notation rf_name := "rccsd_stanton"%string.
Lemma r_pub : In (rf_name, [F_; Ir_; T1_; T2_], STup [T1_; T2_]) public_functions.
Proof. find_in. Qed.
Lemma r_ham : In (rf_name, [true; true; false; false]) hamiltonian_arguments.
Proof. find_in. Qed.

Definition lip_const_r (no nv : nat) (C : R) : Prop :=
  0 <= C /\ forall h F J (T1 T2 T1' T2' : tensor RK) d, 0 < h -> one_e_ok no nv F -> two_e_full_ok no nv no nv J -> at_most_F h F -> at_most_J h J ->
    shp T1 = [nv; no] -> shp T2 = [nv; nv; no; no] -> shp T1' = [nv; no] -> shp T2' = [nv; nv; no; no] ->
    at_most 1 T1 -> at_most 1 T2 -> at_most 1 T1' -> at_most 1 T2' -> 0 <= d -> differ d T1 T1' -> differ d T2 T2' ->
    exists r s r' s', returns rf_name [py_one_e F; py_two_e_full J; arr T1; arr T2] (tup [arr r; arr s]) /\
      returns rf_name [py_one_e F; py_two_e_full J; arr T1'; arr T2'] (tup [arr r'; arr s']) /\
      shp r = [nv; no] /\ shp s = [nv; nv; no; no] /\ at_most (C * h) r /\ at_most (C * h) s /\
      differ (C * h * d) r r' /\ differ (C * h * d) s s'.
Lemma lip_r no nv : exists C, lip_const_r no nv C.
Proof.
  destruct (lipschitz (n2 no nv) rf_name _ _ 1 r_pub ltac:(lra)) as (C & C0 & H).
  exists C. split; [exact C0|].
  intros h F I T1 T2 T1' T2' d h0 HF HI BF BI S1 S2 S3 S4 B1 B2 B3 B4 Hd N1 N2.
  destruct (H [py_one_e (scF h F); py_two_e_full (scJ h I); arr T1; arr T2] [py_one_e (scF h F); py_two_e_full (scJ h I); arr T1'; arr T2'] d) as (u & v & Ru & Rv & Bu & Bv & Nuv).
  - split; [exact (scF_bounded no nv h h0 F HF BF)|]. split; [exact (scJ_bounded no nv h h0 I HI BI)|].
    split; [exact (amp_bounded no nv [sv; so] T1 S1 B1)|]. split; [exact (amp_bounded no nv [sv; sv; so; so] T2 S2 B2)|exact Logic.I].
  - split; [exact (scF_bounded no nv h h0 F HF BF)|]. split; [exact (scJ_bounded no nv h h0 I HI BI)|].
    split; [exact (amp_bounded no nv [sv; so] T1' S3 B3)|]. split; [exact (amp_bounded no nv [sv; sv; so; so] T2' S4 B4)|exact Logic.I].
  - exact Hd.
  - split; [exact (scF_near no nv h F HF d Hd)|]. split; [exact (scJ_near no nv h I HI d Hd)|].
    split; [exact (amp_near no nv [sv; so] d T1 T1' S1 N1)|]. split; [exact (amp_near no nv [sv; sv; so; so] d T2 T2' S2 N2)|exact Logic.I].
  - assert (W : forall t1 t2, shp t1 = [nv; no] -> shp t2 = [nv; nv; no; no] ->
      combined_args (K := RK) (n2 no nv) h 0 [true; true; false; false] [F_; Ir_; T1_; T2_]
        [py_one_e (scF h F); py_two_e_full (scJ h I); arr t1; arr t2] [py_one_e (scF h F); py_two_e_full (scJ h I); arr t1; arr t2]
        [py_one_e F; py_two_e_full I; arr t1; arr t2]).
    { intros t1 t2 E1 E2. split; [exact (scF_comb no nv h h0 F HF)|]. split; [exact (scJ_comb no nv h h0 I HI)|].
      split; [exact (amp_same no nv [sv; so] t1 E1)|]. split; [exact (amp_same no nv [sv; sv; so; so] t2 E2)|exact Logic.I]. }
    destruct (C73_linear_in_hamiltonian RK (n2 no nv) h 0 rf_name _ _ _ _ _ _ r_ham r_pub (W T1 T2 S1 S2)) as (x & y & w & Rx & Ry & Rw & Cw).
    destruct (C73_linear_in_hamiltonian RK (n2 no nv) h 0 rf_name _ _ _ _ _ _ r_ham r_pub (W T1' T2' S3 S4)) as (x' & y' & z & Rx' & Ry' & Rz & Cz).
    rewrite (returns_fun _ _ _ _ _ Rx Ru), (returns_fun _ _ _ _ _ Ry Ru) in Cw.
    rewrite (returns_fun _ _ _ _ _ Rx' Rv), (returns_fun _ _ _ _ _ Ry' Rv) in Cz.
    destruct (pair_scaled no nv h h0 C d [sv; so] [sv; sv; so; so] u v w z (Rmult_le_pos _ _ C0 Hd) Bu Nuv Cw Cz)
      as (r & s & r' & s' & -> & -> & E1 & E2 & A1 & A2 & A3 & A4).
    exists r, s, r', s'. split; [exact Rw|]. split; [exact Rz|]. split; [exact E1|]. split; [exact E2|]. auto.
Qed.

Section PairOps.
  Variables p q : nat.
  Notation T := (tensor RK).
  (** arrays unchanged by exchanging both pairs *)
  Definition pair4 (t : T) : Prop := shp t = [p; p; q; q] /\ pair_sym t.
  Lemma pair4_at t : pair4 t <-> shp t = [p; p; q; q] /\
    forall i j k l, inrange [p; p; q; q] [i; j; k; l] -> dat t [i; j; k; l] = dat t [j; i; l; k].
  Proof.
    split; intros (S & H); (split; [exact S|]).
    - intros i j k l Hi. destruct H as (_ & H). rewrite S in H. exact (H _ Hi).
    - split; [cbn; rewrite S; reflexivity|]. rewrite S. intros idx Hi. destruct (len4 _ _ _ _ _ Hi) as (i & j & k & l & ->). exact (H _ _ _ _ Hi).
  Qed.
  Lemma pair4_ext t t' : pair4 t -> teq t t' -> pair4 t'.
  Proof.
    intros H (E & Q). apply pair4_at in H. destruct H as (S & H). rewrite S in E, Q. apply pair4_at. split; [symmetry; exact E|].
    intros i j k l Hi. apply in4 in Hi as Hj. destruct Hj as (J1 & J2 & J3 & J4). rewrite <- !Q by (apply in4; auto). apply H, Hi.
  Qed.
  Lemma pair4_zero : pair4 (tzeros RK [p; p; q; q]).
  Proof. apply pair4_at. split; [reflexivity|]. intros i j k l _. reflexivity. Qed.
  Lemma pair4_tends y t : (forall k, pair4 (y k)) -> tends [p; p; q; q] y t -> pair4 t.
  Proof.
    intros H (S & C). apply pair4_at. split; [exact S|]. intros i j k l Hi. apply in4 in Hi as Hj. destruct Hj as (J1 & J2 & J3 & J4).
    eapply UL_sequence; [apply C; exact Hi|]. assert (C2 : Un_cv (fun m => dat (y m) [j; i; l; k]) (dat t [j; i; l; k])) by (apply C, in4; auto).
    intros eps He. destruct (C2 eps He) as (N & HN). exists N. intros m Hm.
    specialize (H m). apply pair4_at in H. rewrite (proj2 H _ _ _ _ Hi). apply HN, Hm.
  Qed.
  Lemma pair4_quotient r d t : pair4 r -> (forall i j k l, inrange [p; p; q; q] [i; j; k; l] ->
      dat d [i; j; k; l] = dat d [j; i; k; l] /\ dat d [i; j; k; l] = dat d [i; j; l; k]) ->
    quotient [p; p; q; q] r d t -> pair4 t.
  Proof.
    intros H D (St & Q). apply pair4_at in H. destruct H as (S & H). apply pair4_at. split; [exact St|].
    intros i j k l Hi. apply in4 in Hi as Hj. destruct Hj as (J1 & J2 & J3 & J4).
    destruct (D _ _ _ _ Hi) as (D1 & _). assert (Hi2 : inrange [p; p; q; q] [j; i; k; l]) by (apply in4; auto). destruct (D _ _ _ _ Hi2) as (_ & D2).
    rewrite (Q _ Hi), (Q [j; i; l; k]) by (apply in4; auto). rewrite (H _ _ _ _ Hi), D1, D2. reflexivity.
  Qed.
End PairOps.

Section R.
  Variables no nv : nat.
  Notation T := (tensor RK).
  Variable res : string -> list (pyval RK) -> T -> T -> T * T.
  Hypothesis res_eq : forall f args t u r s, returns f args (tup [arr r; arr s]) -> res f args t u = (r, s).
  Variable C g : R.
  Variables (F0 F : one_e RK) (J : two_e_full RK) (eo ev d1 d2 : T).
  Hypothesis HC : lip_const_r no nv C.
  Hypotheses (HF : one_e_ok no nv F0) (HJ : two_e_full_ok no nv no nv J) (PJ : pair_sym_full J)
    (HE : energy_shift no nv eo ev F0 F) (HG : gap no nv eo ev g).
  Variable h : R.
  Hypotheses (h0 : 0 < h) (Ch : C * h <= g / 2) (BF : at_most_F h F0) (BJ : at_most_J h J).
  Hypotheses (E1 : D1 ev eo = Some d1) (E2 : D2 ev eo = Some d2).
  Notation sh1 := [nv; no].
  Notation sh2 := [nv; nv; no; no].

  Definition ok_r (t u : T) : Prop := shp t = sh1 /\ pair4 nv no u.
  Definition rf_r (t u : T) : T * T := res rf_name [py_one_e F0; py_two_e_full J; arr t; arr u] t u.
  Definition rfull_r (t u : T) : T * T := res rf_name [py_one_e F; py_two_e_full J; arr t; arr u] t u.
  Lemma ok_r_step t u t' u' : ok_r t u -> quotient sh1 (fst (rf_r t u)) d1 t' ->
    quotient sh2 (snd (rf_r t u)) d2 u' -> ok_r t' u'.
  Proof.
    intros (O1 & O2 & O3) (S1 & _) Q.
    destruct (C09_rccsd_is_closed_shell_uccsd RK no nv F0 J t u HF HJ PJ O1 O2 O3) as (r & s & ta & tb & aa & ab & bb & R & _ & _ & _ & _ & _ & _ & P).
    destruct HC as (_ & L).
    destruct (C98_restricted_denominators RK no nv F0 F J eo ev t u HF HJ O1 O2 O3 HE) as (e1 & e2 & r2 & s2 & r' & s' & _ & G2 & R2 & _ & _ & (P2 & _)).
    pose proof (returns_fun _ _ _ _ _ R R2) as X. injection X as <- <-.
    assert (Ss : shp s = sh2).
    { destruct P2 as (S3 & _). cbn [times shp] in S3. rewrite O2 in S3. symmetry. exact S3. }
    unfold rf_r in Q. rewrite (res_eq _ _ _ _ _ _ R) in Q. split; [exact S1|].
    exact (pair4_quotient nv no s d2 u' (Logic.conj Ss P) (proj2 (d2_facts no nv g F0 F eo ev d2 HE HG E2)) Q).
  Qed.
  Lemma r_lip t u t' u' d : ok_r t u -> ok_r t' u' -> at_most 1 t -> at_most 1 u -> at_most 1 t' -> at_most 1 u' ->
    0 <= d -> differ d t t' -> differ d u u' ->
    (forall idx, inrange sh1 idx -> Rabs (dat (fst (rf_r t u)) idx) <= g / 2 /\ Rabs (dat (fst (rf_r t u)) idx - dat (fst (rf_r t' u')) idx) <= g / 2 * d) /\
    (forall idx, inrange sh2 idx -> Rabs (dat (snd (rf_r t u)) idx) <= g / 2 /\ Rabs (dat (snd (rf_r t u)) idx - dat (snd (rf_r t' u')) idx) <= g / 2 * d).
  Proof.
    intros (O1 & O2) (O3 & O4) B1 B2 B3 B4 Hd N1 N2.
    destruct HC as (C0 & L).
    destruct (L h F0 J t u t' u' d h0 HF HJ BF BJ O1 (proj1 O2) O3 (proj1 O4) B1 B2 B3 B4 Hd N1 N2)
      as (r & s & r' & s' & R & R' & S1 & S2 & A1 & A2 & (_ & A3) & (_ & A4)).
    unfold rf_r. rewrite (res_eq _ _ _ _ _ _ R), (res_eq _ _ _ _ _ _ R'). cbn [fst snd].
    assert (M : C * h * d <= g / 2 * d) by (apply Rmult_le_compat_r; assumption).
    rewrite S1 in A3. rewrite S2 in A4.
    split; intros idx Hi.
    - split; [eapply Rle_trans; [apply A1; rewrite S1; exact Hi|exact Ch]|eapply Rle_trans; [apply A3, Hi|exact M]].
    - split; [eapply Rle_trans; [apply A2; rewrite S2; exact Hi|exact Ch]|eapply Rle_trans; [apply A4, Hi|exact M]].
  Qed.
  Lemma r_full t u : ok_r t u ->
    exists r s, returns rf_name [py_one_e F; py_two_e_full J; arr t; arr u] (tup [arr r; arr s]) /\ shp r = sh1 /\ shp s = sh2 /\
    (forall idx, inrange sh1 idx -> dat r idx = dat (fst (rf_r t u)) idx + dat d1 idx * dat t idx :> R) /\
    (forall idx, inrange sh2 idx -> dat s idx = dat (snd (rf_r t u)) idx + dat d2 idx * dat u idx :> R).
  Proof.
    intros (O1 & O2 & O3).
    destruct (C98_restricted_denominators RK no nv F0 F J eo ev t u HF HJ O1 O2 O3 HE) as (e1 & e2 & r & s & r' & s' & G1 & G2 & R & R' & (P1 & _) & (P2 & _)).
    rewrite E1 in G1. injection G1 as <-. rewrite E2 in G2. injection G2 as <-.
    exists r', s'. split; [exact R'|]. unfold rf_r. rewrite (res_eq _ _ _ _ _ _ R). cbn [fst snd].
    destruct P1 as (S1 & S2 & P1), P2 as (S3 & S4 & P2). cbn [times shp] in S1, S3. rewrite O1 in S1. rewrite O2 in S3.
    rewrite <- S1 in P1, S2. rewrite <- S3 in P2, S4. split; [exact S2|]. split; [exact S4|]. split; [exact P1|exact P2].
  Qed.

  Theorem r_converges : exists t u, shp t = sh1 /\ shp u = sh2 /\ pair_sym u /\ at_most (1 / 2) t /\ at_most (1 / 2) u /\
    solves_r rf_name F J t u /\
    (forall t' u', shp t' = sh1 -> shp u' = sh2 -> pair_sym u' -> at_most 1 t' -> at_most 1 u' -> solves_r rf_name F J t' u' -> teq t' t /\ teq u' u) /\
    (exists y z, iterates_r no nv rf_name F J eo ev y z) /\
    (forall y z, iterates_r no nv rf_name F J eo ev y z -> forall k, differ ((1 / 2) ^ k) (y k) t /\ differ ((1 / 2) ^ k) (z k) u).
  Proof.
    assert (FE : forall t u r s, returns rf_name [py_one_e F; py_two_e_full J; arr t; arr u] (tup [arr r; arr s]) -> rfull_r t u = (r, s))
      by (intros; apply res_eq; assumption).
    assert (W : exists t u, ok_r t u /\ at_most (1 / 2) t /\ at_most (1 / 2) u /\ zero_res sh1 sh2 rfull_r t u /\
      (forall t' u', ok_r t' u' -> at_most 1 t' -> at_most 1 u' -> zero_res sh1 sh2 rfull_r t' u' -> teq t' t /\ teq u' u) /\
      (exists y z, history sh1 sh2 d1 d2 rfull_r y z /\ forall k, ok_r (y k) (z k)) /\
      (forall y z, history sh1 sh2 d1 d2 rfull_r y z -> forall k, differ ((1 / 2) ^ k) (y k) t /\ differ ((1 / 2) ^ k) (z k) u)).
    { apply (solve sh1 sh2 d1 d2 g ok_r rf_r rfull_r (proj1 HG)).
      - exact (d1_sd no nv g F0 F eo ev d1 HE HG E1).
      - exact (proj1 (d2_facts no nv g F0 F eo ev d2 HE HG E2)).
      - intros t u (O1 & O2 & _). split; assumption.
      - intros t u t' u' (O1 & O2) T1 T2. split; [destruct T1 as (S & _); congruence|exact (pair4_ext nv no u u' O2 T2)].
      - split; [reflexivity|apply pair4_zero].
      - intros y z t u H T1 T2. split; [exact (proj1 T1)|]. apply (pair4_tends nv no z); [intros k; apply H|exact T2].
      - exact ok_r_step.
      - exact r_lip.
      - intros t u O. destruct (r_full t u O) as (r & s & R & _ & _ & P1 & P2). rewrite (FE _ _ _ _ R). split; [exact P1|exact P2]. }
    destruct W as (t & u & (O1 & O2 & O3) & B1 & B2 & Z & U & (y & z & Hy & Oy) & N).
    assert (Z' : forall t u, ok_r t u -> zero_res sh1 sh2 rfull_r t u <-> solves_r rf_name F J t u).
    { intros t' u' O. destruct (r_full t' u' O) as (r & s & R & S1 & S2 & _). unfold zero_res. rewrite (FE _ _ _ _ R). cbn [fst snd]. split.
      - intros (Z1 & Z2). exists r, s. rewrite S1, S2. auto.
      - intros (r' & s' & R' & Z1 & Z2). pose proof (returns_fun _ _ _ _ _ R R') as Q. injection Q as <- <-. rewrite S1 in Z1. rewrite S2 in Z2. auto. }
    exists t, u. split; [exact O1|]. split; [exact O2|]. split; [exact O3|]. split; [exact B1|]. split; [exact B2|].
    split; [|split; [|split]].
    - apply Z'; [exact (Logic.conj O1 (Logic.conj O2 O3))|exact Z].
    - intros t' u' P1 P2 P3 Q1 Q2 S. apply U; try assumption; [exact (Logic.conj P1 (Logic.conj P2 P3))|].
      apply Z'; [exact (Logic.conj P1 (Logic.conj P2 P3))|exact S].
    - exists y, z. destruct Hy as (Y0 & Z0 & Hy). split; [exact Y0|]. split; [exact Z0|]. intros k.
      destruct (r_full _ _ (Oy k)) as (r & s & R & _). exists d1, d2, r, s. split; [exact E1|]. split; [exact E2|]. split; [exact R|].
      pose proof (Hy k) as P. unfold pass in P. rewrite (FE _ _ _ _ R) in P. exact P.
    - intros y' z' (Y0 & Z0 & H) k. apply N. split; [exact Y0|]. split; [exact Z0|]. intros m.
      destruct (H m) as (e1 & e2 & r & s & G1 & G2 & R & P). rewrite E1 in G1. injection G1 as <-. rewrite E2 in G2. injection G2 as <-.
      unfold pass. rewrite (FE _ _ _ _ R). exact P.
  Qed.
End R.

Theorem rccsd_converges no nv : exists kappa, 0 < kappa /\
  forall g F0 F J eo ev, one_e_ok no nv F0 -> two_e_full_ok no nv no nv J -> pair_sym_full J ->
    energy_shift no nv eo ev F0 F -> gap no nv eo ev g -> at_most_F (kappa * g) F0 -> at_most_J (kappa * g) J ->
    exists t u, shp t = [nv; no] /\ shp u = [nv; nv; no; no] /\ pair_sym u /\ at_most (1 / 2) t /\ at_most (1 / 2) u /\
      solves_r rf_name F J t u /\
      (forall t' u', shp t' = [nv; no] -> shp u' = [nv; nv; no; no] -> pair_sym u' -> at_most 1 t' -> at_most 1 u' ->
         solves_r rf_name F J t' u' -> teq t' t /\ teq u' u) /\
      (exists y z, iterates_r no nv rf_name F J eo ev y z) /\
      (forall y z, iterates_r no nv rf_name F J eo ev y z -> forall k, differ ((1 / 2) ^ k) (y k) t /\ differ ((1 / 2) ^ k) (z k) u).
Proof.
  destruct (lip_r no nv) as (C & HC). pose proof (proj1 HC) as C0.
  exists (/ (2 * (C + 1))). split; [apply Rinv_0_lt_compat; lra|].
  intros g F0 F J eo ev HF HJ PJ HE HG BF BJ.
  destruct (D1_spec RK ev eo nv no (proj1 (proj2 HE)) (proj1 HE)) as (d1 & E1 & _).
  destruct (D2_spec RK ev eo nv no (proj1 (proj2 HE)) (proj1 HE)) as (d2 & E2 & _).
  destruct (ratio C C g C0 (Rle_refl C) (proj1 HG)) as (R1 & R2).
  exact (r_converges no nv resid resid_eq C g F0 F J eo ev d1 d2 HC HF HJ PJ HE HG (/ (2 * (C + 1)) * g) R1 R2 BF BJ E1 E2).
Qed.
