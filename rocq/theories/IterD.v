(** The iterations for doubles only and for closed shells: instances of the
    general convergence theorem. *)
From Coq Require Import List Bool Arith Lia String Reals Lra.
From Verif Require Import Scalar Tensor PySyntax PySem CCProg CCSpec SymSound CCShapes CCEquiv CCSym CovSpec Public Cov CovThm
  RoundSpec UtilsModel UtilsFacts ShiftSpec Resp RespReal NegSpec SpinSpec IterSpec Lips Banach Iter IterCC IterLam PropertiesCov PropertiesShift
  PropertiesRest.
Import ListNotations.
Local Open Scope R_scope.

Definition d_funs : list string := ["lccd_simple"; "ccd_simple"; "ccd_stanton"]%string.
Lemma d_pub f : In f d_funs -> In (f, [F_; I_; T2_], T2_) public_functions.
Proof. intros [<-|[<-|[<-|[]]]]; find_in. Qed.
Lemma d_ham f : In f d_funs -> In (f, [true; true; false]) hamiltonian_arguments.
Proof. intros [<-|[<-|[<-|[]]]]; find_in. Qed.

Lemma arr_scaled no nv h C d l (u v w z : pyval RK) : 0 < h ->
  bounded (n2 no nv) C (SArr l) u -> near (n2 no nv) (C * d) (SArr l) u v ->
  combined (K := RK) (n2 no nv) h 0 (SArr l) u u w -> combined (K := RK) (n2 no nv) h 0 (SArr l) v v z ->
  exists r r' : tensor RK, w = arr r /\ z = arr r' /\ shp r = map (n2 no nv) l /\ at_most (C * h) r /\ differ (C * h * d) r r'.
Proof.
  intros h0 HB HN HC HD.
  destruct u as [|u| |]; try contradiction. destruct v as [|v| |]; try contradiction.
  destruct w as [|w| |]; try contradiction. destruct z as [|z| |]; try contradiction.
  destruct HB as (_ & B1). destruct HN as (_ & _ & N1). destruct HC as (_ & _ & S1 & C1). destruct HD as (_ & _ & S3 & D1).
  exists w, z. split; [reflexivity|]. split; [reflexivity|]. split; [exact S1|].
  assert (M : forall x b, Rabs x <= b -> Rabs (h * x) <= b * h).
  { intros x b Hx. rewrite Rabs_mult, (Rabs_pos_eq h) by lra. rewrite (Rmult_comm b). apply Rmult_le_compat_l; lra. }
  assert (Q : forall x y : R, cadd (c := RK) (cmul (c := RK) h x) (cmul (c := RK) 0 y) = h * x) by (intros x y; change (h * x + 0 * y = h * x); ring).
  assert (Q2 : forall x y : R, h * x - h * y = h * (x - y)) by (intros; ring).
  split.
  - intros idx Hi. rewrite S1 in Hi. rewrite (C1 idx Hi), Q. apply M, B1, Hi.
  - split; [congruence|]. intros idx Hi. rewrite S1 in Hi. rewrite (C1 idx Hi), (D1 idx Hi), !Q, Q2.
    replace (C * h * d) with (C * d * h) by ring. apply M, N1, Hi.
Qed.

Definition lip_const_d (no nv : nat) (f : string) (C : R) : Prop :=
  0 <= C /\ forall h F I (T2 T2' : tensor RK) d, 0 < h -> one_e_ok no nv F -> two_e_shape no nv I -> at_most_F h F -> at_most_I h I ->
    shp T2 = [nv; nv; no; no] -> shp T2' = [nv; nv; no; no] -> at_most 1 T2 -> at_most 1 T2' -> 0 <= d -> differ d T2 T2' ->
    exists s s', returns f [py_one_e F; py_two_e I; arr T2] (arr s) /\
      returns f [py_one_e F; py_two_e I; arr T2'] (arr s') /\
      shp s = [nv; nv; no; no] /\ at_most (C * h) s /\ differ (C * h * d) s s'.
Lemma lip_d no nv f : In f d_funs -> exists C, lip_const_d no nv f C.
Proof.
  intros Hf. destruct (lipschitz (n2 no nv) f _ _ 1 (d_pub f Hf) ltac:(lra)) as (C & C0 & H).
  exists C. split; [exact C0|].
  intros h F I T2 T2' d h0 HF HI BF BI S2 S4 B2 B4 Hd N2.
  destruct (H [py_one_e (scF h F); py_two_e (scI h I); arr T2] [py_one_e (scF h F); py_two_e (scI h I); arr T2'] d) as (u & v & Ru & Rv & Bu & Bv & Nuv).
  - split; [exact (scF_bounded no nv h h0 F HF BF)|]. split; [exact (scI_bounded no nv h h0 I HI BI)|].
    split; [exact (amp_bounded no nv [sv; sv; so; so] T2 S2 B2)|exact Logic.I].
  - split; [exact (scF_bounded no nv h h0 F HF BF)|]. split; [exact (scI_bounded no nv h h0 I HI BI)|].
    split; [exact (amp_bounded no nv [sv; sv; so; so] T2' S4 B4)|exact Logic.I].
  - exact Hd.
  - split; [exact (scF_near no nv h F HF d Hd)|]. split; [exact (scI_near no nv h I HI d Hd)|].
    split; [exact (amp_near no nv [sv; sv; so; so] d T2 T2' S2 N2)|exact Logic.I].
  - assert (W : forall t2, shp t2 = [nv; nv; no; no] ->
      combined_args (K := RK) (n2 no nv) h 0 [true; true; false] [F_; I_; T2_]
        [py_one_e (scF h F); py_two_e (scI h I); arr t2] [py_one_e (scF h F); py_two_e (scI h I); arr t2]
        [py_one_e F; py_two_e I; arr t2]).
    { intros t2 E2. split; [exact (scF_comb no nv h h0 F HF)|]. split; [exact (scI_comb no nv h h0 I HI)|].
      split; [exact (amp_same no nv [sv; sv; so; so] t2 E2)|exact Logic.I]. }
    destruct (C73_linear_in_hamiltonian RK (n2 no nv) h 0 f _ _ _ _ _ _ (d_ham f Hf) (d_pub f Hf) (W T2 S2)) as (x & y & w & Rx & Ry & Rw & Cw).
    destruct (C73_linear_in_hamiltonian RK (n2 no nv) h 0 f _ _ _ _ _ _ (d_ham f Hf) (d_pub f Hf) (W T2' S4)) as (x' & y' & z & Rx' & Ry' & Rz & Cz).
    rewrite (returns_fun _ _ _ _ _ Rx Ru), (returns_fun _ _ _ _ _ Ry Ru) in Cw.
    rewrite (returns_fun _ _ _ _ _ Rx' Rv), (returns_fun _ _ _ _ _ Ry' Rv) in Cz.
    destruct (arr_scaled no nv h C d [sv; sv; so; so] u v w z h0 Bu Nuv Cw Cz) as (s & s' & -> & -> & E2 & A2 & A4).
    exists s, s'. split; [exact Rw|]. split; [exact Rz|]. split; [exact E2|]. auto.
Qed.

Definition resid_d (f : string) (args : list (pyval RK)) (u : tensor RK) : tensor RK :=
  match pycall (conc_alg RK) cc_prog f args with
  | Ok (XArr s, _) => s
  | _ => u
  end.
Lemma resid_d_eq f args u s : returns f args (arr s) -> resid_d f args u = s.
Proof. intros (args' & E & _). unfold resid_d. rewrite E. reflexivity. Qed.

Section D.
  Variables no nv : nat.
  Notation T := (tensor RK).
  Variable res : string -> list (pyval RK) -> T -> T.
  Hypothesis res_eq : forall f args u s, returns f args (arr s) -> res f args u = s.
  Variable f : string.
  Variable C g : R.
  Variables (F0 F : one_e RK) (I : two_e RK) (eo ev d2 : T).
  Hypothesis Hf : In f d_funs.
  Hypothesis HC : lip_const_d no nv f C.
  Hypotheses (HF : one_e_ok no nv F0) (HI : two_e_ok no nv I) (HE : energy_shift no nv eo ev F0 F) (HG : gap no nv eo ev g).
  Variable h : R.
  Hypotheses (h0 : 0 < h) (Ch : C * h <= g / 2) (BF : at_most_F h F0) (BI : at_most_I h I).
  Hypotheses (E2 : D2 ev eo = Some d2).

  Notation sh2 := [nv; nv; no; no].
  Notation z1 := (tzeros RK [0%nat]).
  Definition ok_d (t u : T) : Prop := shp t = [0%nat] /\ t2_ok no nv u.
  Definition rf_d (t u : T) : T * T := (z1, res f [py_one_e F0; py_two_e I; arr u] u).
  Definition rfull_d (t u : T) : T * T := (z1, res f [py_one_e F; py_two_e I; arr u] u).
  Lemma none idx : inrange [0%nat] idx -> False.
  Proof. intros H. inversion H; subst. lia. Qed.
  Lemma ok_d_step t u t' u' : ok_d t u -> quotient [0%nat] (fst (rf_d t u)) z1 t' ->
    quotient sh2 (snd (rf_d t u)) d2 u' -> ok_d t' u'.
  Proof.
    intros (O1 & O2) (S1 & _) Q.
    assert (Hf' : In f ["ccd_simple"; "ccd_stanton"; "lccd_simple"]%string) by (destruct Hf as [<-|[<-|[<-|[]]]]; cbn; auto).
    destruct (ccd_antisym RK no nv F0 I u f Hf' HF HI O2) as (s & R & Os).
    cbn [rf_d snd] in Q. rewrite (res_eq _ _ _ _ R) in Q. split; [exact S1|].
    exact (anti4_quotient nv no s d2 u' Os (proj2 (d2_facts no nv g F0 F eo ev d2 HE HG E2)) Q).
  Qed.
  Lemma d_lip t u t' u' d : ok_d t u -> ok_d t' u' -> at_most 1 t -> at_most 1 u -> at_most 1 t' -> at_most 1 u' ->
    0 <= d -> differ d t t' -> differ d u u' ->
    (forall idx, inrange [0%nat] idx -> Rabs (dat (fst (rf_d t u)) idx) <= g / 2 /\ Rabs (dat (fst (rf_d t u)) idx - dat (fst (rf_d t' u')) idx) <= g / 2 * d) /\
    (forall idx, inrange sh2 idx -> Rabs (dat (snd (rf_d t u)) idx) <= g / 2 /\ Rabs (dat (snd (rf_d t u)) idx - dat (snd (rf_d t' u')) idx) <= g / 2 * d).
  Proof.
    intros (O1 & O2) (O3 & O4) B1 B2 B3 B4 Hd N1 N2.
    destruct HC as (C0 & L).
    destruct (L h F0 I u u' d h0 HF (proj1 HI) BF BI (proj1 O2) (proj1 O4) B2 B4 Hd N2)
      as (s & s' & R & R' & S2 & A2 & (_ & A4)).
    unfold rf_d. rewrite (res_eq _ _ _ _ R), (res_eq _ _ _ _ R'). cbn [fst snd].
    assert (M : C * h * d <= g / 2 * d) by (apply Rmult_le_compat_r; assumption).
    rewrite S2 in A4.
    split; intros idx Hi; [destruct (none idx Hi)|].
    split; [eapply Rle_trans; [apply A2; rewrite S2; exact Hi|exact Ch]|eapply Rle_trans; [apply A4, Hi|exact M]].
  Qed.
  Lemma d_full u : t2_ok no nv u ->
    exists s, returns f [py_one_e F; py_two_e I; arr u] (arr s) /\ shp s = sh2 /\
    (forall t idx, inrange sh2 idx -> dat s idx = dat (snd (rf_d t u)) idx + dat d2 idx * dat u idx :> R).
  Proof.
    intros O2.
    destruct (C98_doubles_denominators RK no nv F0 F I eo ev u f Hf HF HI O2 HE) as (e2 & s & s' & G2 & R & R' & (P2 & _)).
    rewrite E2 in G2. injection G2 as <-.
    exists s'. split; [exact R'|]. unfold rf_d. rewrite (res_eq _ _ _ _ R). cbn [fst snd].
    destruct P2 as (S3 & S4 & P2). cbn [times shp] in S3. rewrite (proj1 O2) in S3.
    rewrite <- S3 in P2, S4. split; [exact S4|]. intros _. exact P2.
  Qed.

  Theorem d_converges : exists u, t2_ok no nv u /\ at_most (1 / 2) u /\ solves_d f F I u /\
    (forall u', t2_ok no nv u' -> at_most 1 u' -> solves_d f F I u' -> teq u' u) /\
    (exists z, iterates_d no nv f F I eo ev z) /\
    (forall z, iterates_d no nv f F I eo ev z -> forall k, differ ((1 / 2) ^ k) (z k) u).
  Proof.
    assert (FE : forall t u s, returns f [py_one_e F; py_two_e I; arr u] (arr s) -> rfull_d t u = (z1, s))
      by (intros t u s R; unfold rfull_d; rewrite (res_eq _ _ _ _ R); reflexivity).
    assert (W : exists t u, ok_d t u /\ at_most (1 / 2) t /\ at_most (1 / 2) u /\ zero_res [0%nat] sh2 rfull_d t u /\
      (forall t' u', ok_d t' u' -> at_most 1 t' -> at_most 1 u' -> zero_res [0%nat] sh2 rfull_d t' u' -> teq t' t /\ teq u' u) /\
      (exists y z, history [0%nat] sh2 z1 d2 rfull_d y z /\ forall k, ok_d (y k) (z k)) /\
      (forall y z, history [0%nat] sh2 z1 d2 rfull_d y z -> forall k, differ ((1 / 2) ^ k) (y k) t /\ differ ((1 / 2) ^ k) (z k) u)).
    { apply (solve [0%nat] sh2 z1 d2 g ok_d rf_d rfull_d (proj1 HG)).
      - intros idx Hi. destruct (none idx Hi).
      - exact (proj1 (d2_facts no nv g F0 F eo ev d2 HE HG E2)).
      - intros t u (O1 & O2 & _). split; assumption.
      - intros t u t' u' (O1 & O2) Q1 Q2. split; [destruct Q1 as (S & _); congruence|exact (anti4_ext nv no u u' O2 Q2)].
      - split; [reflexivity|apply anti4_zero].
      - intros y z t u H Q1 Q2. split; [exact (proj1 Q1)|]. apply (anti4_tends nv no z); [intros k; apply H|exact Q2].
      - exact ok_d_step.
      - exact d_lip.
      - intros t u (_ & O). destruct (d_full u O) as (s & R & _ & P2). rewrite (FE _ _ _ R).
        split; [intros idx Hi; destruct (none idx Hi)|exact (P2 t)]. }
    destruct W as (t & u & (O1 & O2) & B1 & B2 & Z & U & (y & z & Hy & Oy) & N).
    assert (Z' : forall t u, ok_d t u -> zero_res [0%nat] sh2 rfull_d t u <-> solves_d f F I u).
    { intros t' u' (_ & O). destruct (d_full u' O) as (s & R & S2 & _). unfold zero_res. rewrite (FE _ _ _ R). cbn [fst snd]. split.
      - intros (_ & Z2). exists s. rewrite S2. auto.
      - intros (s' & R' & Z2). pose proof (returns_fun _ _ _ _ _ R R') as Q. injection Q as <-. rewrite S2 in Z2.
        split; [intros idx Hi; destruct (none idx Hi)|exact Z2]. }
    exists u. split; [exact O2|]. split; [exact B2|]. split; [|split; [|split]].
    - apply (Z' t); [split; assumption|exact Z].
    - intros u' P2 Q2 S. apply (U z1 u'); try assumption; [split; [reflexivity|assumption]| |].
      + intros idx Hi. destruct (none idx Hi).
      + apply Z'; [split; [reflexivity|assumption]|exact S].
    - exists z. destruct Hy as (Y0 & Z0 & Hy). split; [exact Z0|]. intros k.
      destruct (d_full _ (proj2 (Oy k))) as (s & R & _). exists d2, s. split; [exact E2|]. split; [exact R|].
      destruct (Hy k) as (_ & P). rewrite (FE _ _ _ R) in P. exact P.
    - intros z' (Z0 & H) k. apply (N (fun _ => z1) z'). split; [reflexivity|]. split; [exact Z0|]. intros m.
      destruct (H m) as (e2 & s & G2 & R & P). rewrite E2 in G2. injection G2 as <-.
      unfold pass. rewrite (FE _ _ _ R). split; [|exact P]. split; [reflexivity|]. intros idx Hi. destruct (none idx Hi).
  Qed.
End D.

Lemma ratio C C' g : 0 <= C -> C' <= C -> 0 < g -> 0 < / (2 * (C + 1)) * g /\ C' * (/ (2 * (C + 1)) * g) <= g / 2.
Proof.
  intros C0 LC G0.
  assert (K0 : 0 < / (2 * (C + 1))) by (apply Rinv_0_lt_compat; lra).
  assert (K1 : / (2 * (C + 1)) * (2 * (C + 1)) = 1) by (apply Rinv_l; lra).
  split; [apply Rmult_lt_0_compat; assumption|].
  set (k := / (2 * (C + 1))) in *.
  assert (0 < k * g) by (apply Rmult_lt_0_compat; assumption).
  assert (Q : C' * (k * g) <= C * (k * g)) by (apply Rmult_le_compat_r; lra).
  assert (Q2 : 2 * (C * (k * g)) + 2 * (k * g) = g) by (transitivity (k * (2 * (C + 1)) * g); [ring|rewrite K1; ring]).
  lra.
Qed.

Theorem ccd_converges no nv : exists kappa, 0 < kappa /\
  forall f g F0 F I eo ev, In f d_funs -> one_e_ok no nv F0 -> two_e_ok no nv I ->
    energy_shift no nv eo ev F0 F -> gap no nv eo ev g -> at_most_F (kappa * g) F0 -> at_most_I (kappa * g) I ->
    exists u, t2_ok no nv u /\ at_most (1 / 2) u /\ solves_d f F I u /\
      (forall u', t2_ok no nv u' -> at_most 1 u' -> solves_d f F I u' -> teq u' u) /\
      (exists z, iterates_d no nv f F I eo ev z) /\
      (forall z, iterates_d no nv f F I eo ev z -> forall k, differ ((1 / 2) ^ k) (z k) u).
Proof.
  assert (W : exists C, 0 <= C /\ forall f, In f d_funs -> exists C', C' <= C /\ lip_const_d no nv f C').
  { destruct (lip_d no nv "lccd_simple" ltac:(cbn; auto)) as (C1 & P1).
    destruct (lip_d no nv "ccd_simple" ltac:(cbn; auto)) as (C2 & P2).
    destruct (lip_d no nv "ccd_stanton" ltac:(cbn; auto)) as (C3 & P3).
    pose proof (proj1 P1). pose proof (proj1 P2). pose proof (proj1 P3).
    exists (C1 + C2 + C3). split; [lra|]. intros f [<-|[<-|[<-|[]]]].
    - exists C1. split; [lra|exact P1].
    - exists C2. split; [lra|exact P2].
    - exists C3. split; [lra|exact P3]. }
  destruct W as (C & C0 & W). exists (/ (2 * (C + 1))). split; [apply Rinv_0_lt_compat; lra|].
  intros f g F0 F I eo ev Hf HF HI HE HG BF BI. destruct (W f Hf) as (C' & LC & HC).
  destruct (D2_spec RK ev eo nv no (proj1 (proj2 HE)) (proj1 HE)) as (d2 & E2 & _).
  destruct (ratio C C' g C0 LC (proj1 HG)) as (R1 & R2).
  exact (d_converges no nv resid_d resid_d_eq f C' g F0 F I eo ev d2 Hf HC HF HI HE HG (/ (2 * (C + 1)) * g) R1 R2 BF BI E2).
Qed.
