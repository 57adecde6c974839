(** The iteration for Lambda: instance of the general convergence theorem. *)
From Coq Require Import List Bool Arith Lia String Reals Lra.
From Verif Require Import Scalar Tensor PySyntax PySem CCProg CCSpec SymSound CCShapes CCEquiv CCSym CovSpec Public Cov CovThm
  RoundSpec UtilsModel UtilsFacts ShiftSpec Resp RespReal NegSpec IterSpec Lips Banach Iter IterCC PropertiesCov PropertiesShift.
Import ListNotations.
Local Open Scope R_scope.

Definition lam_funs : list string := ["ccsd_lambda_simple"; "ccsd_lambda_opt"; "ccsd_lambda_stanton"]%string.
Definition lam_args := [F_; I_; L1_; L2_; T1_; T2_].
Lemma lam_pub f : In f lam_funs -> In (f, lam_args, STup [L1_; L2_]) public_functions.
Proof. intros [<-|[<-|[<-|[]]]]; find_in. Qed.
Lemma lam_ham f : In f lam_funs -> In (f, [true; true; false; false; false; false]) hamiltonian_arguments.
Proof. intros [<-|[<-|[<-|[]]]]; find_in. Qed.

Definition lip_const_l (no nv : nat) (f : string) (C : R) : Prop :=
  0 <= C /\ forall h F I (L1 L2 L1' L2' T1 T2 : tensor RK) d, 0 < h -> one_e_ok no nv F -> two_e_shape no nv I -> at_most_F h F -> at_most_I h I ->
    shp L1 = [no; nv] -> shp L2 = [no; no; nv; nv] -> shp L1' = [no; nv] -> shp L2' = [no; no; nv; nv] ->
    shp T1 = [nv; no] -> shp T2 = [nv; nv; no; no] -> at_most 1 T1 -> at_most 1 T2 ->
    at_most 1 L1 -> at_most 1 L2 -> at_most 1 L1' -> at_most 1 L2' -> 0 <= d -> differ d L1 L1' -> differ d L2 L2' ->
    exists r s r' s', returns f [py_one_e F; py_two_e I; arr L1; arr L2; arr T1; arr T2] (tup [arr r; arr s]) /\
      returns f [py_one_e F; py_two_e I; arr L1'; arr L2'; arr T1; arr T2] (tup [arr r'; arr s']) /\
      shp r = [no; nv] /\ shp s = [no; no; nv; nv] /\ at_most (C * h) r /\ at_most (C * h) s /\
      differ (C * h * d) r r' /\ differ (C * h * d) s s'.
Lemma differ_up d t : 0 <= d -> differ d t t.
Proof. intros Hd. split; [reflexivity|]. intros idx _. replace (dat t idx - dat t idx) with 0 by ring. rewrite Rabs_R0. exact Hd. Qed.
Lemma lip_lam no nv f : In f lam_funs -> exists C, lip_const_l no nv f C.
Proof.
  intros Hf. destruct (lipschitz (n2 no nv) f _ _ 1 (lam_pub f Hf) ltac:(lra)) as (C & C0 & H).
  exists C. split; [exact C0|].
  intros h F I L1 L2 L1' L2' T1 T2 d h0 HF HI BF BI S1 S2 S3 S4 S5 S6 B5 B6 B1 B2 B3 B4 Hd N1 N2.
  destruct (H [py_one_e (scF h F); py_two_e (scI h I); arr L1; arr L2; arr T1; arr T2] [py_one_e (scF h F); py_two_e (scI h I); arr L1'; arr L2'; arr T1; arr T2] d) as (u & v & Ru & Rv & Bu & Bv & Nuv).
  - split; [exact (scF_bounded no nv h h0 F HF BF)|]. split; [exact (scI_bounded no nv h h0 I HI BI)|].
    split; [exact (amp_bounded no nv [so; sv] L1 S1 B1)|]. split; [exact (amp_bounded no nv [so; so; sv; sv] L2 S2 B2)|].
    split; [exact (amp_bounded no nv [sv; so] T1 S5 B5)|]. split; [exact (amp_bounded no nv [sv; sv; so; so] T2 S6 B6)|exact Logic.I].
  - split; [exact (scF_bounded no nv h h0 F HF BF)|]. split; [exact (scI_bounded no nv h h0 I HI BI)|].
    split; [exact (amp_bounded no nv [so; sv] L1' S3 B3)|]. split; [exact (amp_bounded no nv [so; so; sv; sv] L2' S4 B4)|].
    split; [exact (amp_bounded no nv [sv; so] T1 S5 B5)|]. split; [exact (amp_bounded no nv [sv; sv; so; so] T2 S6 B6)|exact Logic.I].
  - exact Hd.
  - split; [exact (scF_near no nv h F HF d Hd)|]. split; [exact (scI_near no nv h I HI d Hd)|].
    split; [exact (amp_near no nv [so; sv] d L1 L1' S1 N1)|]. split; [exact (amp_near no nv [so; so; sv; sv] d L2 L2' S2 N2)|].
    split; [exact (amp_near no nv [sv; so] d T1 T1 S5 (differ_up d T1 Hd))|].
    split; [exact (amp_near no nv [sv; sv; so; so] d T2 T2 S6 (differ_up d T2 Hd))|exact Logic.I].
  - assert (W : forall t1 t2, shp t1 = [no; nv] -> shp t2 = [no; no; nv; nv] ->
      combined_args (K := RK) (n2 no nv) h 0 [true; true; false; false; false; false] lam_args
        [py_one_e (scF h F); py_two_e (scI h I); arr t1; arr t2; arr T1; arr T2] [py_one_e (scF h F); py_two_e (scI h I); arr t1; arr t2; arr T1; arr T2]
        [py_one_e F; py_two_e I; arr t1; arr t2; arr T1; arr T2]).
    { intros t1 t2 E1 E2. split; [exact (scF_comb no nv h h0 F HF)|]. split; [exact (scI_comb no nv h h0 I HI)|].
      split; [exact (amp_same no nv [so; sv] t1 E1)|]. split; [exact (amp_same no nv [so; so; sv; sv] t2 E2)|].
      split; [exact (amp_same no nv [sv; so] T1 S5)|]. split; [exact (amp_same no nv [sv; sv; so; so] T2 S6)|exact Logic.I]. }
    destruct (C73_linear_in_hamiltonian RK (n2 no nv) h 0 f _ _ _ _ _ _ (lam_ham f Hf) (lam_pub f Hf) (W L1 L2 S1 S2)) as (x & y & w & Rx & Ry & Rw & Cw).
    destruct (C73_linear_in_hamiltonian RK (n2 no nv) h 0 f _ _ _ _ _ _ (lam_ham f Hf) (lam_pub f Hf) (W L1' L2' S3 S4)) as (x' & y' & z & Rx' & Ry' & Rz & Cz).
    rewrite (returns_fun _ _ _ _ _ Rx Ru), (returns_fun _ _ _ _ _ Ry Ru) in Cw.
    rewrite (returns_fun _ _ _ _ _ Rx' Rv), (returns_fun _ _ _ _ _ Ry' Rv) in Cz.
    destruct (pair_scaled no nv h h0 C d [so; sv] [so; so; sv; sv] u v w z (Rmult_le_pos _ _ C0 Hd) Bu Nuv Cw Cz)
      as (r & s & r' & s' & -> & -> & E1 & E2 & A1 & A2 & A3 & A4).
    exists r, s, r', s'. split; [exact Rw|]. split; [exact Rz|]. split; [exact E1|]. split; [exact E2|]. auto.
Qed.

Section Lam.
  Variables no nv : nat.
  Notation T := (tensor RK).
  Variable res : string -> list (pyval RK) -> T -> T -> T * T.
  Hypothesis res_eq : forall f args t u r s, returns f args (tup [arr r; arr s]) -> res f args t u = (r, s).
  Variable f : string.
  Variable C g : R.
  Variables (F0 F : one_e RK) (I : two_e RK) (eo ev d1 d2 T1 T2 : T).
  Hypothesis Hf : In f lam_funs.
  Hypothesis HC : lip_const_l no nv f C.
  Hypotheses (HF : one_e_ok no nv F0) (HI : two_e_ok no nv I) (HE : energy_shift no nv eo ev F0 F) (HG : gap no nv eo ev g).
  Hypotheses (HT1 : t1_ok no nv T1) (HT2 : t2_ok no nv T2) (B1 : at_most 1 T1) (B2 : at_most 1 T2).
  Variable h : R.
  Hypotheses (h0 : 0 < h) (Ch : C * h <= g / 2) (BF : at_most_F h F0) (BI : at_most_I h I).
  Hypotheses (E1 : D1 ev eo = Some d1) (E2 : D2 ev eo = Some d2).

  Notation sh1 := [no; nv]. Notation sh2 := [no; no; nv; nv].
  Definition turned (sh : list nat) (d : T) : T := @mkT RK sh (fun idx => dat d (from_virtual idx)).
  Notation e1 := (turned sh1 d1). Notation e2 := (turned sh2 d2).
  Definition ok_l (t u : T) : Prop := l1_ok no nv t /\ l2_ok no nv u.
  Definition rf_l (t u : T) : T * T := res f [py_one_e F0; py_two_e I; arr t; arr u; arr T1; arr T2] t u.
  Definition rfull_l (t u : T) : T * T := res f [py_one_e F; py_two_e I; arr t; arr u; arr T1; arr T2] t u.
  Lemma e1_l idx : inrange sh1 idx -> g <= dat e1 idx.
  Proof.
    intros Hi. destruct (len2 _ _ _ Hi) as (i & a & ->). apply in2 in Hi. destruct Hi as (Hi & Ha). cbn [turned dat from_virtual].
    apply (d1_sd no nv g F0 F eo ev d1 HE HG E1). apply in2. auto.
  Qed.
  Lemma e2_l : (forall idx, inrange sh2 idx -> g <= dat e2 idx) /\
    (forall i j k l, inrange sh2 [i; j; k; l] ->
      dat e2 [i; j; k; l] = dat e2 [j; i; k; l] /\ dat e2 [i; j; k; l] = dat e2 [i; j; l; k]).
  Proof.
    destruct (d2_facts no nv g F0 F eo ev d2 HE HG E2) as (P1 & P2). split.
    - intros idx Hi. destruct (len4 _ _ _ _ _ Hi) as (i & j & a & b & ->). apply in4 in Hi. destruct Hi as (Hi & Hj & Ha & Hb).
      cbn [turned dat from_virtual]. apply P1. apply in4. auto.
    - intros i j a b Hi. apply in4 in Hi. destruct Hi as (Hi & Hj & Ha & Hb). cbn [turned dat from_virtual].
      destruct (P2 a b i j ltac:(apply in4; auto)) as (Q1 & Q2). split; [exact Q2|exact Q1].
  Qed.
  Lemma ok_l_step t u t' u' : ok_l t u -> quotient sh1 (fst (rf_l t u)) e1 t' ->
    quotient sh2 (snd (rf_l t u)) e2 u' -> ok_l t' u'.
  Proof.
    intros (O1 & O2) (S1 & _) Q.
    assert (Hf' : In f lambda_funs) by (destruct Hf as [<-|[<-|[<-|[]]]]; cbn; auto).
    destruct (lambda_antisym RK no nv F0 I t u T1 T2 f Hf' HF HI O1 O2 HT1 HT2) as (r & s & R & _ & Os).
    unfold rf_l in Q. rewrite (res_eq _ _ _ _ _ _ R) in Q. split; [exact S1|].
    exact (anti4_quotient no nv s e2 u' Os (proj2 e2_l) Q).
  Qed.
  Lemma l_lip t u t' u' d : ok_l t u -> ok_l t' u' -> at_most 1 t -> at_most 1 u -> at_most 1 t' -> at_most 1 u' ->
    0 <= d -> differ d t t' -> differ d u u' ->
    (forall idx, inrange sh1 idx -> Rabs (dat (fst (rf_l t u)) idx) <= g / 2 /\ Rabs (dat (fst (rf_l t u)) idx - dat (fst (rf_l t' u')) idx) <= g / 2 * d) /\
    (forall idx, inrange sh2 idx -> Rabs (dat (snd (rf_l t u)) idx) <= g / 2 /\ Rabs (dat (snd (rf_l t u)) idx - dat (snd (rf_l t' u')) idx) <= g / 2 * d).
  Proof.
    intros (O1 & O2) (O3 & O4) Q1 Q2 Q3 Q4 Hd N1 N2.
    destruct HC as (C0 & L).
    destruct (L h F0 I t u t' u' T1 T2 d h0 HF (proj1 HI) BF BI O1 (proj1 O2) O3 (proj1 O4) HT1 (proj1 HT2) B1 B2 Q1 Q2 Q3 Q4 Hd N1 N2)
      as (r & s & r' & s' & R & R' & S1 & S2 & A1 & A2 & (_ & A3) & (_ & A4)).
    unfold rf_l. rewrite (res_eq _ _ _ _ _ _ R), (res_eq _ _ _ _ _ _ R'). cbn [fst snd].
    assert (M : C * h * d <= g / 2 * d) by (apply Rmult_le_compat_r; assumption).
    rewrite S1 in A3. rewrite S2 in A4.
    split; intros idx Hi.
    - split; [eapply Rle_trans; [apply A1; rewrite S1; exact Hi|exact Ch]|eapply Rle_trans; [apply A3, Hi|exact M]].
    - split; [eapply Rle_trans; [apply A2; rewrite S2; exact Hi|exact Ch]|eapply Rle_trans; [apply A4, Hi|exact M]].
  Qed.
  Lemma l_full t u : ok_l t u ->
    exists r s, returns f [py_one_e F; py_two_e I; arr t; arr u; arr T1; arr T2] (tup [arr r; arr s]) /\ shp r = sh1 /\ shp s = sh2 /\
    (forall idx, inrange sh1 idx -> dat r idx = dat (fst (rf_l t u)) idx + dat e1 idx * dat t idx :> R) /\
    (forall idx, inrange sh2 idx -> dat s idx = dat (snd (rf_l t u)) idx + dat e2 idx * dat u idx :> R).
  Proof.
    intros (O1 & O2).
    destruct (C98_lambda_denominators RK no nv F0 F I eo ev T1 T2 t u f Hf HF HI HT1 HT2 O1 O2 HE) as (g1 & g2 & r & s & r' & s' & G1 & G2 & R & R' & (P1 & _) & (P2 & _)).
    rewrite E1 in G1. injection G1 as <-. rewrite E2 in G2. injection G2 as <-.
    exists r', s'. split; [exact R'|]. unfold rf_l. rewrite (res_eq _ _ _ _ _ _ R). cbn [fst snd].
    destruct P1 as (S1 & S2 & P1), P2 as (S3 & S4 & P2). cbn [times_l shp] in S1, S3. rewrite O1 in S1. rewrite (proj1 O2) in S3.
    rewrite <- S1 in P1, S2. rewrite <- S3 in P2, S4. split; [exact S2|]. split; [exact S4|].
    split; intros idx Hi.
    - rewrite (P1 idx Hi). destruct (len2 _ _ _ Hi) as (i & a & ->). reflexivity.
    - rewrite (P2 idx Hi). destruct (len4 _ _ _ _ _ Hi) as (i & j & a & b & ->). reflexivity.
  Qed.

  Theorem lam_converges : exists t u, l1_ok no nv t /\ l2_ok no nv u /\ at_most (1 / 2) t /\ at_most (1 / 2) u /\
    solves_l f F I T1 T2 t u /\
    (forall t' u', l1_ok no nv t' -> l2_ok no nv u' -> at_most 1 t' -> at_most 1 u' -> solves_l f F I T1 T2 t' u' -> teq t' t /\ teq u' u) /\
    (exists y z, iterates_l no nv f F I eo ev T1 T2 y z) /\
    (forall y z, iterates_l no nv f F I eo ev T1 T2 y z -> forall k, differ ((1 / 2) ^ k) (y k) t /\ differ ((1 / 2) ^ k) (z k) u).
  Proof.
    assert (FE : forall t u r s, returns f [py_one_e F; py_two_e I; arr t; arr u; arr T1; arr T2] (tup [arr r; arr s]) -> rfull_l t u = (r, s))
      by (intros; apply res_eq; assumption).
    assert (W : exists t u, ok_l t u /\ at_most (1 / 2) t /\ at_most (1 / 2) u /\ zero_res sh1 sh2 rfull_l t u /\
      (forall t' u', ok_l t' u' -> at_most 1 t' -> at_most 1 u' -> zero_res sh1 sh2 rfull_l t' u' -> teq t' t /\ teq u' u) /\
      (exists y z, history sh1 sh2 e1 e2 rfull_l y z /\ forall k, ok_l (y k) (z k)) /\
      (forall y z, history sh1 sh2 e1 e2 rfull_l y z -> forall k, differ ((1 / 2) ^ k) (y k) t /\ differ ((1 / 2) ^ k) (z k) u)).
    { apply (solve sh1 sh2 e1 e2 g ok_l rf_l rfull_l (proj1 HG)).
      - exact e1_l.
      - exact (proj1 e2_l).
      - intros t u (O1 & O2 & _). split; assumption.
      - intros t u t' u' (O1 & O2) Q1 Q2. split; [destruct Q1 as (S & _); unfold l1_ok in *; congruence|exact (anti4_ext no nv u u' O2 Q2)].
      - split; [reflexivity|apply anti4_zero].
      - intros y z t u H Q1 Q2. split; [exact (proj1 Q1)|]. apply (anti4_tends no nv z); [intros k; apply H|exact Q2].
      - exact ok_l_step.
      - exact l_lip.
      - intros t u O. destruct (l_full t u O) as (r & s & R & _ & _ & P1 & P2). rewrite (FE _ _ _ _ R). split; [exact P1|exact P2]. }
    destruct W as (t & u & (O1 & O2) & Q1 & Q2 & Z & U & (y & z & Hy & Oy) & N).
    assert (Z' : forall t u, ok_l t u -> zero_res sh1 sh2 rfull_l t u <-> solves_l f F I T1 T2 t u).
    { intros t' u' O. destruct (l_full t' u' O) as (r & s & R & S1 & S2 & _ & _). unfold zero_res. rewrite (FE _ _ _ _ R). cbn [fst snd]. split.
      - intros (Z1 & Z2). exists r, s. rewrite S1, S2. auto.
      - intros (r' & s' & R' & Z1 & Z2). pose proof (returns_fun _ _ _ _ _ R R') as Q. injection Q as <- <-. rewrite S1 in Z1. rewrite S2 in Z2. auto. }
    exists t, u. split; [exact O1|]. split; [exact O2|]. split; [exact Q1|]. split; [exact Q2|]. split; [|split; [|split]].
    - apply Z'; [split; assumption|exact Z].
    - intros t' u' P1 P2 Q3 Q4 S. apply U; try assumption; [split; assumption|]. apply Z'; [split; assumption|exact S].
    - exists y, z. destruct Hy as (Y0 & Z0 & Hy). split; [exact Y0|]. split; [exact Z0|]. intros k.
      destruct (l_full _ _ (Oy k)) as (r & s & R & _). exists d1, d2, r, s. split; [exact E1|]. split; [exact E2|]. split; [exact R|].
      specialize (Hy k). unfold pass in Hy. rewrite (FE _ _ _ _ R) in Hy. exact Hy.
    - intros y' z' (Y0 & Z0 & H). apply N. split; [exact Y0|]. split; [exact Z0|]. intros k.
      destruct (H k) as (g1 & g2 & r & s & G1 & G2 & R & P). rewrite E1 in G1. injection G1 as <-. rewrite E2 in G2. injection G2 as <-.
      unfold pass. rewrite (FE _ _ _ _ R). exact P.
  Qed.
End Lam.

Theorem lambda_converges no nv : exists kappa, 0 < kappa /\
  forall f g F0 F I eo ev T1 T2, In f lam_funs -> one_e_ok no nv F0 -> two_e_ok no nv I ->
    energy_shift no nv eo ev F0 F -> gap no nv eo ev g -> at_most_F (kappa * g) F0 -> at_most_I (kappa * g) I ->
    t1_ok no nv T1 -> t2_ok no nv T2 -> at_most 1 T1 -> at_most 1 T2 ->
    exists t u, l1_ok no nv t /\ l2_ok no nv u /\ at_most (1 / 2) t /\ at_most (1 / 2) u /\
      solves_l f F I T1 T2 t u /\
      (forall t' u', l1_ok no nv t' -> l2_ok no nv u' -> at_most 1 t' -> at_most 1 u' -> solves_l f F I T1 T2 t' u' -> teq t' t /\ teq u' u) /\
      (exists y z, iterates_l no nv f F I eo ev T1 T2 y z) /\
      (forall y z, iterates_l no nv f F I eo ev T1 T2 y z -> forall k, differ ((1 / 2) ^ k) (y k) t /\ differ ((1 / 2) ^ k) (z k) u).
Proof.
  assert (W : exists C, 0 <= C /\ forall f, In f lam_funs -> exists C', C' <= C /\ lip_const_l no nv f C').
  { destruct (lip_lam no nv "ccsd_lambda_simple" ltac:(cbn; auto)) as (C1 & P1).
    destruct (lip_lam no nv "ccsd_lambda_opt" ltac:(cbn; auto)) as (C2 & P2).
    destruct (lip_lam no nv "ccsd_lambda_stanton" ltac:(cbn; auto)) as (C3 & P3).
    pose proof (proj1 P1). pose proof (proj1 P2). pose proof (proj1 P3).
    exists (C1 + C2 + C3). split; [lra|]. intros f [<-|[<-|[<-|[]]]].
    - exists C1. split; [lra|exact P1].
    - exists C2. split; [lra|exact P2].
    - exists C3. split; [lra|exact P3]. }
  destruct W as (C & C0 & W). exists (/ (2 * (C + 1))). split; [apply Rinv_0_lt_compat; lra|].
  intros f g F0 F I eo ev T1 T2 Hf HF HI HE HG BF BI HT1 HT2 B1 B2. destruct (W f Hf) as (C' & LC & HC).
  destruct (D1_spec RK ev eo nv no (proj1 (proj2 HE)) (proj1 HE)) as (d1 & E1 & _).
  destruct (D2_spec RK ev eo nv no (proj1 (proj2 HE)) (proj1 HE)) as (d2 & E2 & _).
  pose proof (proj1 HG) as G0.
  assert (K0 : 0 < / (2 * (C + 1))) by (apply Rinv_0_lt_compat; lra).
  assert (K1 : / (2 * (C + 1)) * (2 * (C + 1)) = 1) by (apply Rinv_l; lra).
  apply (lam_converges no nv resid resid_eq f C' g F0 F I eo ev d1 d2 T1 T2 Hf HC HF HI HE HG HT1 HT2 B1 B2 (/ (2 * (C + 1)) * g)); try assumption.
  - apply Rmult_lt_0_compat; assumption.
  - set (k := / (2 * (C + 1))) in *.
    assert (0 < k * g) by (apply Rmult_lt_0_compat; assumption).
    assert (Q : C' * (k * g) <= C * (k * g)) by (apply Rmult_le_compat_r; lra).
    assert (Q2 : 2 * (C * (k * g)) + 2 * (k * g) = g) by (transitivity (k * (2 * (C + 1)) * g); [ring|rewrite K1; ring]).
    lra.
Qed.
