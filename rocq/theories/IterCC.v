(** The coupled cluster iteration: instance of the general convergence theorem. *)
From Coq Require Import List Bool Arith Lia String Reals Lra.
From Verif Require Import Scalar Tensor PySyntax PySem CCProg CCSpec SymSound CCShapes CCEquiv CCSym CovSpec Public Cov CovThm
  RoundSpec UtilsModel UtilsFacts ShiftSpec Resp RespReal NegSpec IterSpec Lips Banach Iter PropertiesCov PropertiesShift.
Import ListNotations.
Local Open Scope R_scope.

Section Scale.
  Variables no nv : nat.
  Notation n := (n2 no nv).
  Notation T := (tensor RK).

  Definition sc (h : R) (t : T) : T := @mkT RK (shp t) (fun idx => dat t idx / h).
  Definition scF (h : R) (F : one_e RK) : one_e RK := OneE _ (sc h (oo F)) (sc h (ov F)) (sc h (vo F)) (sc h (vv F)).
  Definition scI (h : R) (I : two_e RK) : two_e RK :=
    TwoE _ (sc h (vvvv I)) (sc h (vvvo I)) (sc h (vovv I)) (sc h (vvoo I)) (sc h (vovo I))
           (sc h (oovv I)) (sc h (vooo I)) (sc h (ooov I)) (sc h (oooo I)).
  Variable h : R.
  Hypothesis h0 : 0 < h.

  Lemma sc_bounded l t : shp t = map n l -> at_most h t -> bounded_array n 1 l (sc h t).
  Proof.
    intros S H. split; [exact S|]. intros idx Hi. cbn [sc dat]. rewrite <- S in Hi. specialize (H idx Hi).
    unfold Rdiv. rewrite Rabs_mult, (Rabs_pos_eq (/ h)) by (apply Rlt_le, Rinv_0_lt_compat, h0).
    apply Rmult_le_reg_r with h; [exact h0|]. rewrite Rmult_assoc, Rinv_l by lra. lra.
  Qed.
  Lemma sc_combined l t : shp t = map n l -> combined_array (K := RK) n h 0 l (sc h t) (sc h t) t.
  Proof.
    intros S. split; [exact S|]. split; [exact S|]. split; [exact S|]. intros idx Hi. cbn [sc dat].
    assert (Q : forall x : R, x = h * (x / h) + 0 * (x / h)) by (intros x; field; lra). exact (Q (dat t idx)).
  Qed.
  Lemma near_refl l t : shp t = map n l -> near_array n 0 l t t.
  Proof. intros S. split; [exact S|]. split; [exact S|]. intros idx Hi. replace (dat t idx - dat t idx) with 0 by ring. rewrite Rabs_R0. lra. Qed.
  Lemma near_up l d t u : 0 <= d -> near_array n 0 l t u -> near_array n d l t u.
  Proof. intros Hd (S & S' & H). split; [exact S|]. split; [exact S'|]. intros idx Hi. specialize (H idx Hi). lra. Qed.

  Variables (F : one_e RK) (I : two_e RK).
  Hypotheses (HF : one_e_ok no nv F) (HI : two_e_shape no nv I) (BF : at_most_F h F) (BI : at_most_I h I).

  Lemma scF_bounded : bounded n 1 F_ (py_one_e (scF h F)).
  Proof.
    destruct HF as (S1 & S2 & S3 & S4). destruct BF as (B1 & B2 & B3 & B4).
    unfold bounded, F_, fock, py_one_e, scF, arr. cbn [related oo ov vo vv].
    repeat (split; [split; [reflexivity|split; [reflexivity|apply sc_bounded; assumption]]|]). exact Logic.I.
  Qed.
  Lemma scI_bounded : bounded n 1 I_ (py_two_e (scI h I)).
  Proof.
    destruct HI as (S1 & S2 & S3 & S4 & S5 & S6 & S7 & S8 & S9). destruct BI as (B1 & B2 & B3 & B4 & B5 & B6 & B7 & B8 & B9).
    unfold bounded, I_, eri9, py_two_e, scI, arr. cbn [related vvvv vvvo vovv vvoo vovo oovv vooo ooov oooo].
    repeat (split; [split; [reflexivity|split; [reflexivity|apply sc_bounded; assumption]]|]). exact Logic.I.
  Qed.
  Lemma scF_near d : 0 <= d -> near n d F_ (py_one_e (scF h F)) (py_one_e (scF h F)).
  Proof.
    intros Hd. destruct HF as (S1 & S2 & S3 & S4).
    unfold near, F_, fock, py_one_e, scF, arr. cbn [related oo ov vo vv].
    repeat (split; [split; [reflexivity|split; [reflexivity|apply near_up; [exact Hd|]; apply near_refl; assumption]]|]). exact Logic.I.
  Qed.
  Lemma scI_near d : 0 <= d -> near n d I_ (py_two_e (scI h I)) (py_two_e (scI h I)).
  Proof.
    intros Hd. destruct HI as (S1 & S2 & S3 & S4 & S5 & S6 & S7 & S8 & S9).
    unfold near, I_, eri9, py_two_e, scI, arr. cbn [related vvvv vvvo vovv vvoo vovo oovv vooo ooov oooo].
    repeat (split; [split; [reflexivity|split; [reflexivity|apply near_up; [exact Hd|]; apply near_refl; assumption]]|]). exact Logic.I.
  Qed.
  Lemma scF_comb : combined (K := RK) n h 0 F_ (py_one_e (scF h F)) (py_one_e (scF h F)) (py_one_e F).
  Proof.
    destruct HF as (S1 & S2 & S3 & S4).
    unfold combined, F_, fock, py_one_e, scF, arr. cbn [related3 oo ov vo vv].
    repeat (split; [do 3 (split; [reflexivity|]); apply sc_combined; assumption|]). exact Logic.I.
  Qed.
  Lemma scI_comb : combined (K := RK) n h 0 I_ (py_two_e (scI h I)) (py_two_e (scI h I)) (py_two_e I).
  Proof.
    destruct HI as (S1 & S2 & S3 & S4 & S5 & S6 & S7 & S8 & S9).
    unfold combined, I_, eri9, py_two_e, scI, arr. cbn [related3 vvvv vvvo vovv vvoo vovo oovv vooo ooov oooo].
    repeat (split; [do 3 (split; [reflexivity|]); apply sc_combined; assumption|]). exact Logic.I.
  Qed.

  Lemma amp_bounded l t : shp t = map n l -> at_most 1 t -> bounded n 1 (SArr l) (arr t).
  Proof. intros S H. split; [exact S|]. intros idx Hi. apply H. rewrite S. exact Hi. Qed.
  Lemma amp_near l d t u : shp t = map n l -> differ d t u -> near n d (SArr l) (arr t) (arr u).
  Proof. intros S (E & H). split; [exact S|]. split; [congruence|]. intros idx Hi. apply H. rewrite S. exact Hi. Qed.
  Lemma amp_same l (t : T) : shp t = map n l -> same n (SArr l) (arr t) (arr t) (arr t).
  Proof. intros S. split; [exact S|]. split; [exact S|]. split; [exact S|]. auto. Qed.

  Ltac bust H := try (exfalso; cbn [related related3] in H; repeat match goal with A : _ /\ _ |- _ => destruct A end; contradiction).
  (** results of the scaled run, multiplied by h *)
  Lemma pair_scaled C d l m (u v w z : pyval RK) : 0 <= C * d ->
    bounded n C (STup [SArr l; SArr m]) u -> near n (C * d) (STup [SArr l; SArr m]) u v ->
    combined (K := RK) n h 0 (STup [SArr l; SArr m]) u u w -> combined (K := RK) n h 0 (STup [SArr l; SArr m]) v v z ->
    exists r s r' s' : T, w = tup [arr r; arr s] /\ z = tup [arr r'; arr s'] /\
      shp r = map n l /\ shp s = map n m /\ at_most (C * h) r /\ at_most (C * h) s /\
      differ (C * h * d) r r' /\ differ (C * h * d) s s'.
  Proof.
    intros _ HB HN HC HD. unfold bounded, near, combined in *.
    destruct u as [|?|[|[|u1|?|?] [|[|u2|?|?] [|? ?]]]|?]; bust HB.
    destruct v as [|?|[|[|v1|?|?] [|[|v2|?|?] [|? ?]]]|?]; bust HN.
    destruct w as [|?|[|[|w1|?|?] [|[|w2|?|?] [|? ?]]]|?]; bust HC.
    destruct z as [|?|[|[|z1|?|?] [|[|z2|?|?] [|? ?]]]|?]; bust HD.
    destruct HB as ((_ & B1) & (_ & B2) & _). destruct HN as ((_ & _ & N1) & (_ & _ & N2) & _).
    destruct HC as ((_ & _ & S1 & C1) & (_ & _ & S2 & C2) & _). destruct HD as ((_ & _ & S3 & D1) & (_ & _ & S4 & D2) & _).
    exists w1, w2, z1, z2. split; [reflexivity|]. split; [reflexivity|]. split; [exact S1|]. split; [exact S2|].
    assert (M : forall x b, Rabs x <= b -> Rabs (h * x) <= b * h).
    { intros x b Hx. rewrite Rabs_mult, (Rabs_pos_eq h) by lra. rewrite (Rmult_comm b). apply Rmult_le_compat_l; lra. }
    assert (Q : forall x y : R, cadd (c := RK) (cmul (c := RK) h x) (cmul (c := RK) 0 y) = h * x) by (intros x y; change (h * x + 0 * y = h * x); ring).
    assert (Q2 : forall x y : R, h * x - h * y = h * (x - y)) by (intros; ring).
    split; [|split; [|split]].
    - intros idx Hi. rewrite S1 in Hi. rewrite (C1 idx Hi), Q. apply M, B1, Hi.
    - intros idx Hi. rewrite S2 in Hi. rewrite (C2 idx Hi), Q. apply M, B2, Hi.
    - split; [congruence|]. intros idx Hi. rewrite S1 in Hi. rewrite (C1 idx Hi), (D1 idx Hi), !Q, Q2.
      replace (C * h * d) with (C * d * h) by ring. apply M, N1, Hi.
    - split; [congruence|]. intros idx Hi. rewrite S2 in Hi. rewrite (C2 idx Hi), (D2 idx Hi), !Q, Q2.
      replace (C * h * d) with (C * d * h) by ring. apply M, N2, Hi.
  Qed.
End Scale.

Definition sd_funs : list string := ["lccsd_simple"; "ccsd_simple"; "ccsd_stanton"]%string.
Lemma sd_pub f : In f sd_funs -> In (f, [F_; I_; T1_; T2_], STup [T1_; T2_]) public_functions.
Proof. intros [<-|[<-|[<-|[]]]]; find_in. Qed.
Lemma sd_ham f : In f sd_funs -> In (f, [true; true; false; false]) hamiltonian_arguments.
Proof. intros [<-|[<-|[<-|[]]]]; find_in. Qed.

Definition lip_const (no nv : nat) (f : string) (C : R) : Prop :=
  0 <= C /\ forall h F I (T1 T2 T1' T2' : tensor RK) d, 0 < h -> one_e_ok no nv F -> two_e_shape no nv I -> at_most_F h F -> at_most_I h I ->
    shp T1 = [nv; no] -> shp T2 = [nv; nv; no; no] -> shp T1' = [nv; no] -> shp T2' = [nv; nv; no; no] ->
    at_most 1 T1 -> at_most 1 T2 -> at_most 1 T1' -> at_most 1 T2' -> 0 <= d -> differ d T1 T1' -> differ d T2 T2' ->
    exists r s r' s', returns f [py_one_e F; py_two_e I; arr T1; arr T2] (tup [arr r; arr s]) /\
      returns f [py_one_e F; py_two_e I; arr T1'; arr T2'] (tup [arr r'; arr s']) /\
      shp r = [nv; no] /\ shp s = [nv; nv; no; no] /\ at_most (C * h) r /\ at_most (C * h) s /\
      differ (C * h * d) r r' /\ differ (C * h * d) s s'.
Lemma lip_sd no nv f : In f sd_funs -> exists C, lip_const no nv f C.
Proof.
  intros Hf. destruct (lipschitz (n2 no nv) f _ _ 1 (sd_pub f Hf) ltac:(lra)) as (C & C0 & H).
  exists C. split; [exact C0|].
  intros h F I T1 T2 T1' T2' d h0 HF HI BF BI S1 S2 S3 S4 B1 B2 B3 B4 Hd N1 N2.
  destruct (H [py_one_e (scF h F); py_two_e (scI h I); arr T1; arr T2] [py_one_e (scF h F); py_two_e (scI h I); arr T1'; arr T2'] d) as (u & v & Ru & Rv & Bu & Bv & Nuv).
  - split; [exact (scF_bounded no nv h h0 F HF BF)|]. split; [exact (scI_bounded no nv h h0 I HI BI)|].
    split; [exact (amp_bounded no nv [sv; so] T1 S1 B1)|]. split; [exact (amp_bounded no nv [sv; sv; so; so] T2 S2 B2)|exact Logic.I].
  - split; [exact (scF_bounded no nv h h0 F HF BF)|]. split; [exact (scI_bounded no nv h h0 I HI BI)|].
    split; [exact (amp_bounded no nv [sv; so] T1' S3 B3)|]. split; [exact (amp_bounded no nv [sv; sv; so; so] T2' S4 B4)|exact Logic.I].
  - exact Hd.
  - split; [exact (scF_near no nv h F HF d Hd)|]. split; [exact (scI_near no nv h I HI d Hd)|].
    split; [exact (amp_near no nv [sv; so] d T1 T1' S1 N1)|]. split; [exact (amp_near no nv [sv; sv; so; so] d T2 T2' S2 N2)|exact Logic.I].
  - assert (W : forall t1 t2, shp t1 = [nv; no] -> shp t2 = [nv; nv; no; no] ->
      combined_args (K := RK) (n2 no nv) h 0 [true; true; false; false] [F_; I_; T1_; T2_]
        [py_one_e (scF h F); py_two_e (scI h I); arr t1; arr t2] [py_one_e (scF h F); py_two_e (scI h I); arr t1; arr t2]
        [py_one_e F; py_two_e I; arr t1; arr t2]).
    { intros t1 t2 E1 E2. split; [exact (scF_comb no nv h h0 F HF)|]. split; [exact (scI_comb no nv h h0 I HI)|].
      split; [exact (amp_same no nv [sv; so] t1 E1)|]. split; [exact (amp_same no nv [sv; sv; so; so] t2 E2)|exact Logic.I]. }
    destruct (C73_linear_in_hamiltonian RK (n2 no nv) h 0 f _ _ _ _ _ _ (sd_ham f Hf) (sd_pub f Hf) (W T1 T2 S1 S2)) as (x & y & w & Rx & Ry & Rw & Cw).
    destruct (C73_linear_in_hamiltonian RK (n2 no nv) h 0 f _ _ _ _ _ _ (sd_ham f Hf) (sd_pub f Hf) (W T1' T2' S3 S4)) as (x' & y' & z & Rx' & Ry' & Rz & Cz).
    rewrite (returns_fun _ _ _ _ _ Rx Ru), (returns_fun _ _ _ _ _ Ry Ru) in Cw.
    rewrite (returns_fun _ _ _ _ _ Rx' Rv), (returns_fun _ _ _ _ _ Ry' Rv) in Cz.
    destruct (pair_scaled no nv h h0 C d [sv; so] [sv; sv; so; so] u v w z (Rmult_le_pos _ _ C0 Hd) Bu Nuv Cw Cz)
      as (r & s & r' & s' & -> & -> & E1 & E2 & A1 & A2 & A3 & A4).
    exists r, s, r', s'. split; [exact Rw|]. split; [exact Rz|]. split; [exact E1|]. split; [exact E2|]. auto.
Qed.

(** the residuals as a function of the amplitudes *)
Definition resid (f : string) (args : list (pyval RK)) (t u : tensor RK) : tensor RK * tensor RK :=
  match pycall (conc_alg RK) cc_prog f args with
  | Ok (XTup [XArr r; XArr s], _) => (r, s)
  | _ => (t, u)
  end.
Lemma resid_eq f args t u r s : returns f args (tup [arr r; arr s]) -> resid f args t u = (r, s).
Proof. intros (args' & E & _). unfold resid. rewrite E. reflexivity. Qed.

Lemma anti_limit (y : nat -> tensor RK) (t : tensor RK) i1 i2 :
  Un_cv (fun k => dat (y k) i1) (dat t i1) -> Un_cv (fun k => dat (y k) i2) (dat t i2) ->
  (forall k, dat (y k) i1 = - dat (y k) i2 :> R) -> dat t i1 = - dat t i2 :> R.
Proof.
  intros C1 C2 E. eapply UL_sequence; [exact C1|]. pose proof (CV_opp _ _ C2) as C3. unfold opp_seq in C3.
  intros eps He. destruct (C3 eps He) as (N & HN). exists N. intros k Hk. rewrite E. apply HN, Hk.
Qed.
Lemma in4 a b c d i j k l : inrange [a; b; c; d] [i; j; k; l] <-> (i < a /\ j < b /\ k < c /\ l < d)%nat.
Proof.
  split.
  - intros H. inversion H as [|? ? ? ? H1 G1]; subst. inversion G1 as [|? ? ? ? H2 G2]; subst.
    inversion G2 as [|? ? ? ? H3 G3]; subst. inversion G3 as [|? ? ? ? H4 G4]; subst. auto.
  - intros (H1 & H2 & H3 & H4). repeat (constructor; [assumption|]). constructor.
Qed.
Lemma in2 a b i j : inrange [a; b] [i; j] <-> (i < a /\ j < b)%nat.
Proof.
  split.
  - intros H. inversion H as [|? ? ? ? H1 G1]; subst. inversion G1 as [|? ? ? ? H2 G2]; subst. auto.
  - intros (H1 & H2). repeat (constructor; [assumption|]). constructor.
Qed.
Lemma len4 a b c d idx : inrange [a; b; c; d] idx -> exists i j k l, idx = [i; j; k; l].
Proof.
  intros H. inversion H as [|i1 ? ? ? H1 G1]; subst. inversion G1 as [|i2 ? ? ? H2 G2]; subst.
  inversion G2 as [|i3 ? ? ? H3 G3]; subst. inversion G3 as [|i4 ? ? ? H4 G4]; subst. inversion G4; subst. exists i1, i2, i3, i4. reflexivity.
Qed.
Lemma len2 a b idx : inrange [a; b] idx -> exists i j, idx = [i; j].
Proof.
  intros H. inversion H as [|i ? ? ? H1 G1]; subst. inversion G1 as [|j ? ? ? H2 G2]; subst. inversion G2; subst. exists i, j. reflexivity.
Qed.

Section Ops.
  Variables p q : nat.
  Notation T := (tensor RK).
  (** arrays antisymmetric in both pairs: closed under limits, and under the
      quotient by a symmetric array *)
  Definition anti4 (t : T) : Prop := shp t = [p; p; q; q] /\ antisym_lead t /\ antisym_tail t.
  Lemma anti4_ext t t' : anti4 t -> teq t t' -> anti4 t'.
  Proof.
    intros (S & A & B) (E & H). rewrite S in E, H. split; [symmetry; exact E|].
    split; intros i j k l Hi; rewrite <- E in Hi; apply in4 in Hi as Hj; destruct Hj as (J1 & J2 & J3 & J4).
    - rewrite <- !H by (apply in4; auto). apply A. rewrite S. exact Hi.
    - rewrite <- !H by (apply in4; auto). apply B. rewrite S. exact Hi.
  Qed.
  Lemma anti4_zero : anti4 (tzeros RK [p; p; q; q]).
  Proof. split; [reflexivity|]. split; intros i j k l _; cbn; symmetry; apply Ropp_0. Qed.
  Lemma anti4_tends y t : (forall k, anti4 (y k)) -> tends [p; p; q; q] y t -> anti4 t.
  Proof.
    intros H (S & C). split; [exact S|].
    split; intros i j k l Hi; rewrite S in Hi; apply in4 in Hi as Hj; destruct Hj as (J1 & J2 & J3 & J4).
    - apply (anti_limit y); [apply C; exact Hi|apply C; apply in4; auto|]. intros m. destruct (H m) as (Sm & A & _). apply A. rewrite Sm. exact Hi.
    - apply (anti_limit y); [apply C; exact Hi|apply C; apply in4; auto|]. intros m. destruct (H m) as (Sm & _ & A). apply A. rewrite Sm. exact Hi.
  Qed.
  Lemma anti4_quotient r d t : anti4 r -> (forall i j k l, inrange [p; p; q; q] [i; j; k; l] ->
      dat d [i; j; k; l] = dat d [j; i; k; l] /\ dat d [i; j; k; l] = dat d [i; j; l; k]) ->
    quotient [p; p; q; q] r d t -> anti4 t.
  Proof.
    intros (S & A & B) D (St & H). split; [exact St|].
    assert (Q : forall x y : R, - (- x / y) = - - (x / y)) by (intros; unfold Rdiv; ring).
    split; intros i j k l Hi; rewrite St in Hi; apply in4 in Hi as Hj; destruct Hj as (J1 & J2 & J3 & J4); destruct (D _ _ _ _ Hi) as (D1 & D2).
    - rewrite (H _ Hi), (H [j; i; k; l]) by (apply in4; auto). rewrite <- D1, A by (rewrite S; exact Hi). apply Q.
    - rewrite (H _ Hi), (H [i; j; l; k]) by (apply in4; auto). rewrite <- D2, B by (rewrite S; exact Hi). apply Q.
  Qed.
End Ops.

Section SD.
  Variables no nv : nat.
  Notation T := (tensor RK).
  (** the residuals, as any function that agrees with the runs *)
  Variable res : string -> list (pyval RK) -> T -> T -> T * T.
  Hypothesis res_eq : forall f args t u r s, returns f args (tup [arr r; arr s]) -> res f args t u = (r, s).
  Variable f : string.
  Variable C g : R.
  Variables (F0 F : one_e RK) (I : two_e RK) (eo ev d1 d2 : T).
  Hypothesis Hf : In f sd_funs.
  Hypothesis HC : lip_const no nv f C.
  Hypotheses (HF : one_e_ok no nv F0) (HI : two_e_ok no nv I) (HE : energy_shift no nv eo ev F0 F) (HG : gap no nv eo ev g).
  Variable h : R.
  Hypotheses (h0 : 0 < h) (Ch : C * h <= g / 2) (BF : at_most_F h F0) (BI : at_most_I h I).
  Hypotheses (E1 : D1 ev eo = Some d1) (E2 : D2 ev eo = Some d2).

  Definition ok_sd (t u : T) : Prop := t1_ok no nv t /\ t2_ok no nv u.
  Definition rf_sd (t u : T) : T * T := res f [py_one_e F0; py_two_e I; arr t; arr u] t u.
  Definition rfull_sd (t u : T) : T * T := res f [py_one_e F; py_two_e I; arr t; arr u] t u.
  Lemma d1_sd idx : inrange [nv; no] idx -> g <= dat d1 idx.
  Proof.
    intros Hi. destruct (len2 _ _ _ Hi) as (a & i & ->). apply in2 in Hi. destruct Hi as (Ha & Hi').
    destruct (D1_spec RK ev eo nv no (proj1 (proj2 HE)) (proj1 HE)) as (D & ED & _ & HD).
    rewrite E1 in ED. injection ED as <-. rewrite (HD a i Ha Hi').
    change (g <= dat ev [a] - dat eo [i]). destruct HG as (G0 & G). specialize (G a i Ha Hi').
    assert (Q : forall x y : R, x + g <= y -> g <= y - x) by (intros; lra). exact (Q _ _ G).
  Qed.
  Lemma d2_facts : (forall idx, inrange [nv; nv; no; no] idx -> g <= dat d2 idx) /\
    (forall i j k l, inrange [nv; nv; no; no] [i; j; k; l] ->
      dat d2 [i; j; k; l] = dat d2 [j; i; k; l] /\ dat d2 [i; j; k; l] = dat d2 [i; j; l; k]).
  Proof.
    destruct (D2_spec RK ev eo nv no (proj1 (proj2 HE)) (proj1 HE)) as (D & ED & _ & HD & HS).
    rewrite E2 in ED. injection ED as <-. split.
    - intros idx Hi. destruct (len4 _ _ _ _ _ Hi) as (a & b & i & j & ->). apply in4 in Hi. destruct Hi as (Ha & Hb & Hi' & Hj).
      rewrite (HD a b i j Ha Hb Hi' Hj). change (g <= dat ev [a] + dat ev [b] - dat eo [i] - dat eo [j]).
      destruct HG as (G0 & G). pose proof (G a i Ha Hi') as Q1. pose proof (G b j Hb Hj) as Q2.
      assert (Q : forall x y z w : R, x + g <= y -> z + g <= w -> g <= y + w - x - z) by (intros; lra). exact (Q _ _ _ _ Q1 Q2).
    - intros a b i j Hi. apply in4 in Hi. destruct Hi as (Ha & Hb & Hi' & Hj). exact (HS a b i j Ha Hb Hi' Hj).
  Qed.
  Lemma ok_sd_step t u t' u' : ok_sd t u -> quotient [nv; no] (fst (rf_sd t u)) d1 t' ->
    quotient [nv; nv; no; no] (snd (rf_sd t u)) d2 u' -> ok_sd t' u'.
  Proof.
    intros (O1 & O2) (S1 & _) Q.
    assert (Hf' : In f ["ccsd_simple"; "ccsd_stanton"; "lccsd_simple"]%string) by (destruct Hf as [<-|[<-|[<-|[]]]]; cbn; auto).
    destruct (ccsd_antisym RK no nv F0 I t u f Hf' HF HI O1 O2) as (r & s & R & _ & Os).
    unfold rf_sd in Q. rewrite (res_eq _ _ _ _ _ _ R) in Q. split; [exact S1|].
    exact (anti4_quotient nv no s d2 u' Os (proj2 d2_facts) Q).
  Qed.
  Lemma sd_lip t u t' u' d : ok_sd t u -> ok_sd t' u' -> at_most 1 t -> at_most 1 u -> at_most 1 t' -> at_most 1 u' ->
    0 <= d -> differ d t t' -> differ d u u' ->
    (forall idx, inrange [nv; no] idx -> Rabs (dat (fst (rf_sd t u)) idx) <= g / 2 /\ Rabs (dat (fst (rf_sd t u)) idx - dat (fst (rf_sd t' u')) idx) <= g / 2 * d) /\
    (forall idx, inrange [nv; nv; no; no] idx -> Rabs (dat (snd (rf_sd t u)) idx) <= g / 2 /\ Rabs (dat (snd (rf_sd t u)) idx - dat (snd (rf_sd t' u')) idx) <= g / 2 * d).
  Proof.
    intros (O1 & O2) (O3 & O4) B1 B2 B3 B4 Hd N1 N2.
    destruct HC as (C0 & L).
    destruct (L h F0 I t u t' u' d h0 HF (proj1 HI) BF BI O1 (proj1 O2) O3 (proj1 O4) B1 B2 B3 B4 Hd N1 N2)
      as (r & s & r' & s' & R & R' & S1 & S2 & A1 & A2 & (_ & A3) & (_ & A4)).
    unfold rf_sd. rewrite (res_eq _ _ _ _ _ _ R), (res_eq _ _ _ _ _ _ R'). cbn [fst snd].
    assert (M : C * h * d <= g / 2 * d) by (apply Rmult_le_compat_r; assumption).
    rewrite S1 in A3. rewrite S2 in A4.
    split; intros idx Hi.
    - split; [eapply Rle_trans; [apply A1; rewrite S1; exact Hi|exact Ch]|eapply Rle_trans; [apply A3, Hi|exact M]].
    - split; [eapply Rle_trans; [apply A2; rewrite S2; exact Hi|exact Ch]|eapply Rle_trans; [apply A4, Hi|exact M]].
  Qed.
  Lemma sd_full t u : ok_sd t u ->
    exists r s, returns f [py_one_e F; py_two_e I; arr t; arr u] (tup [arr r; arr s]) /\ shp r = [nv; no] /\ shp s = [nv; nv; no; no] /\
    (forall idx, inrange [nv; no] idx -> dat r idx = dat (fst (rf_sd t u)) idx + dat d1 idx * dat t idx :> R) /\
    (forall idx, inrange [nv; nv; no; no] idx -> dat s idx = dat (snd (rf_sd t u)) idx + dat d2 idx * dat u idx :> R).
  Proof.
    intros (O1 & O2).
    destruct (C98_denominators RK no nv F0 F I eo ev t u f Hf HF HI O1 O2 HE) as (e1 & e2 & r & s & r' & s' & G1 & G2 & R & R' & (P1 & _) & (P2 & _)).
    rewrite E1 in G1. injection G1 as <-. rewrite E2 in G2. injection G2 as <-.
    exists r', s'. split; [exact R'|]. unfold rf_sd. rewrite (res_eq _ _ _ _ _ _ R). cbn [fst snd].
    destruct P1 as (S1 & S2 & P1), P2 as (S3 & S4 & P2). cbn [times shp] in S1, S3. rewrite O1 in S1. rewrite (proj1 O2) in S3.
    rewrite <- S1 in P1, S2. rewrite <- S3 in P2, S4. split; [exact S2|]. split; [exact S4|]. split; [exact P1|exact P2].
  Qed.

  Theorem sd_converges : exists t u, t1_ok no nv t /\ t2_ok no nv u /\ at_most (1 / 2) t /\ at_most (1 / 2) u /\
    solves f F I t u /\
    (forall t' u', t1_ok no nv t' -> t2_ok no nv u' -> at_most 1 t' -> at_most 1 u' -> solves f F I t' u' -> teq t' t /\ teq u' u) /\
    (exists y z, iterates no nv f F I eo ev y z) /\
    (forall y z, iterates no nv f F I eo ev y z -> forall k, differ ((1 / 2) ^ k) (y k) t /\ differ ((1 / 2) ^ k) (z k) u).
  Proof.
    assert (FE : forall t u r s, returns f [py_one_e F; py_two_e I; arr t; arr u] (tup [arr r; arr s]) -> rfull_sd t u = (r, s))
      by (intros; apply res_eq; assumption).
    assert (W : exists t u, ok_sd t u /\ at_most (1 / 2) t /\ at_most (1 / 2) u /\ zero_res [nv; no] [nv; nv; no; no] rfull_sd t u /\
      (forall t' u', ok_sd t' u' -> at_most 1 t' -> at_most 1 u' -> zero_res [nv; no] [nv; nv; no; no] rfull_sd t' u' -> teq t' t /\ teq u' u) /\
      (exists y z, history [nv; no] [nv; nv; no; no] d1 d2 rfull_sd y z /\ forall k, ok_sd (y k) (z k)) /\
      (forall y z, history [nv; no] [nv; nv; no; no] d1 d2 rfull_sd y z -> forall k, differ ((1 / 2) ^ k) (y k) t /\ differ ((1 / 2) ^ k) (z k) u)).
    { apply (solve [nv; no] [nv; nv; no; no] d1 d2 g ok_sd rf_sd rfull_sd (proj1 HG)).
      - exact d1_sd.
      - exact (proj1 d2_facts).
      - intros t u (O1 & O2 & _). split; assumption.
      - intros t u t' u' (O1 & O2) T1 T2. split; [destruct T1 as (S & _); unfold t1_ok in *; congruence|exact (anti4_ext nv no u u' O2 T2)].
      - split; [reflexivity|apply anti4_zero].
      - intros y z t u H T1 T2. split; [exact (proj1 T1)|]. apply (anti4_tends nv no z); [intros k; apply H|exact T2].
      - exact ok_sd_step.
      - exact sd_lip.
      - intros t u O. destruct (sd_full t u O) as (r & s & R & _ & _ & P1 & P2). rewrite (FE _ _ _ _ R). split; [exact P1|exact P2]. }
    destruct W as (t & u & (O1 & O2) & B1 & B2 & Z & U & (y & z & Hy & Oy) & N).
    assert (Z' : forall t u, ok_sd t u -> zero_res [nv; no] [nv; nv; no; no] rfull_sd t u <-> solves f F I t u).
    { intros t' u' O. destruct (sd_full t' u' O) as (r & s & R & S1 & S2 & _ & _). unfold zero_res. rewrite (FE _ _ _ _ R). cbn [fst snd]. split.
      - intros (Z1 & Z2). exists r, s. rewrite S1, S2. auto.
      - intros (r' & s' & R' & Z1 & Z2). pose proof (returns_fun _ _ _ _ _ R R') as Q. injection Q as <- <-. rewrite S1 in Z1. rewrite S2 in Z2. auto. }
    exists t, u. split; [exact O1|]. split; [exact O2|]. split; [exact B1|]. split; [exact B2|]. split; [|split; [|split]].
    - apply Z'; [split; assumption|exact Z].
    - intros t' u' P1 P2 Q1 Q2 S. apply U; try assumption; [split; assumption|]. apply Z'; [split; assumption|exact S].
    - exists y, z. destruct Hy as (Y0 & Z0 & Hy). split; [exact Y0|]. split; [exact Z0|]. intros k.
      destruct (sd_full _ _ (Oy k)) as (r & s & R & _). exists d1, d2, r, s. split; [exact E1|]. split; [exact E2|]. split; [exact R|].
      specialize (Hy k). unfold pass in Hy. rewrite (FE _ _ _ _ R) in Hy. exact Hy.
    - intros y' z' (Y0 & Z0 & H). apply N. split; [exact Y0|]. split; [exact Z0|]. intros k.
      destruct (H k) as (e1 & e2 & r & s & G1 & G2 & R & P). rewrite E1 in G1. injection G1 as <-. rewrite E2 in G2. injection G2 as <-.
      unfold pass. rewrite (FE _ _ _ _ R). exact P.
  Qed.
End SD.

Theorem ccsd_converges no nv : exists kappa, 0 < kappa /\
  forall f g F0 F I eo ev, In f sd_funs -> one_e_ok no nv F0 -> two_e_ok no nv I ->
    energy_shift no nv eo ev F0 F -> gap no nv eo ev g -> at_most_F (kappa * g) F0 -> at_most_I (kappa * g) I ->
    exists t u, t1_ok no nv t /\ t2_ok no nv u /\ at_most (1 / 2) t /\ at_most (1 / 2) u /\
      solves f F I t u /\
      (forall t' u', t1_ok no nv t' -> t2_ok no nv u' -> at_most 1 t' -> at_most 1 u' -> solves f F I t' u' -> teq t' t /\ teq u' u) /\
      (exists y z, iterates no nv f F I eo ev y z) /\
      (forall y z, iterates no nv f F I eo ev y z -> forall k, differ ((1 / 2) ^ k) (y k) t /\ differ ((1 / 2) ^ k) (z k) u).
Proof.
  assert (W : exists C, 0 <= C /\ forall f, In f sd_funs -> exists C', C' <= C /\ lip_const no nv f C').
  { destruct (lip_sd no nv "lccsd_simple" ltac:(cbn; auto)) as (C1 & P1).
    destruct (lip_sd no nv "ccsd_simple" ltac:(cbn; auto)) as (C2 & P2).
    destruct (lip_sd no nv "ccsd_stanton" ltac:(cbn; auto)) as (C3 & P3).
    pose proof (proj1 P1). pose proof (proj1 P2). pose proof (proj1 P3).
    exists (C1 + C2 + C3). split; [lra|]. intros f [<-|[<-|[<-|[]]]].
    - exists C1. split; [lra|exact P1].
    - exists C2. split; [lra|exact P2].
    - exists C3. split; [lra|exact P3]. }
  destruct W as (C & C0 & W). exists (/ (2 * (C + 1))). split; [apply Rinv_0_lt_compat; lra|].
  intros f g F0 F I eo ev Hf HF HI HE HG BF BI. destruct (W f Hf) as (C' & LC & HC).
  destruct (D1_spec RK ev eo nv no (proj1 (proj2 HE)) (proj1 HE)) as (d1 & E1 & _).
  destruct (D2_spec RK ev eo nv no (proj1 (proj2 HE)) (proj1 HE)) as (d2 & E2 & _).
  pose proof (proj1 HG) as G0.
  assert (K0 : 0 < / (2 * (C + 1))) by (apply Rinv_0_lt_compat; lra).
  assert (K1 : / (2 * (C + 1)) * (2 * (C + 1)) = 1) by (apply Rinv_l; lra).
  apply (sd_converges no nv resid resid_eq f C' g F0 F I eo ev d1 d2 Hf HC HF HI HE HG (/ (2 * (C + 1)) * g)); try assumption.
  - apply Rmult_lt_0_compat; assumption.
  - set (k := / (2 * (C + 1))) in *.
    assert (0 < k * g) by (apply Rmult_lt_0_compat; assumption).
    assert (Q : C' * (k * g) <= C * (k * g)) by (apply Rmult_le_compat_r; lra).
    assert (Q2 : 2 * (C * (k * g)) + 2 * (k * g) = g) by (transitivity (k * (2 * (C + 1)) * g); [ring|rewrite K1; ring]).
    lra.
Qed.

(** energies along the iteration *)
Lemma num_near n d (u v : pyval RK) : near n d SNum u v -> exists x y : R, u = numv (K := RK) x /\ v = numv (K := RK) y /\ Rabs (x - y) <= d.
Proof. intros H. destruct u; try contradiction. destruct v; try contradiction. eexists _, _. split; [reflexivity|]. split; [reflexivity|exact H]. Qed.
Lemma at_most_up B B' t : B <= B' -> at_most B t -> at_most B' t.
Proof. intros L H idx Hi. specialize (H idx Hi). lra. Qed.
Lemma energy_lip no nv B : 0 <= B -> exists C, 0 <= C /\ forall (T1 T2 T1' T2' V W : tensor RK) d,
  shp T1 = [nv; no] -> shp T2 = [nv; nv; no; no] -> shp V = [no; nv] -> shp W = [no; no; nv; nv] ->
  at_most B T1 -> at_most B T2 -> at_most B T1' -> at_most B T2' -> at_most B V -> at_most B W -> 0 <= d -> differ d T1 T1' -> differ d T2 T2' ->
  exists x y : R, returns "cc_energy" [arr T1; arr T2; arr V; arr W] (numv (K := RK) x) /\
    returns "cc_energy" [arr T1'; arr T2'; arr V; arr W] (numv (K := RK) y) /\ Rabs (x - y) <= C * d.
Proof.
  intros HB. assert (P : In ("cc_energy"%string, [T1_; T2_; SArr [so; sv]; SArr [so; so; sv; sv]], SNum) public_functions) by find_in.
  destruct (lipschitz (n2 no nv) _ _ _ B P HB) as (C & C0 & H). exists C. split; [exact C0|].
  intros T1 T2 T1' T2' V W d S1 S2 S3 S4 B1 B2 B3 B4 B5 B6 Hd N1 N2.
  assert (A : forall l t, shp t = map (n2 no nv) l -> at_most B t -> bounded (n2 no nv) B (SArr l) (arr t)).
  { intros l t S Q. split; [exact S|]. intros idx Hi. apply Q. rewrite S. exact Hi. }
  assert (R0 : forall l t, shp t = map (n2 no nv) l -> near (n2 no nv) d (SArr l) (arr t) (arr t)).
  { intros l t S. split; [exact S|]. split; [exact S|]. intros idx Hi. replace (dat t idx - dat t idx) with 0 by ring. rewrite Rabs_R0. exact Hd. }
  destruct N1 as (E1 & N1'). destruct N2 as (E2 & N2').
  assert (S5 : shp T1' = [nv; no]) by congruence. assert (S6 : shp T2' = [nv; nv; no; no]) by congruence.
  destruct (H [arr T1; arr T2; arr V; arr W] [arr T1'; arr T2'; arr V; arr W] d) as (u & v & Ru & Rv & _ & _ & N).
  - split; [exact (A [sv; so] T1 S1 B1)|]. split; [exact (A [sv; sv; so; so] T2 S2 B2)|].
    split; [exact (A [so; sv] V S3 B5)|]. split; [exact (A [so; so; sv; sv] W S4 B6)|exact Logic.I].
  - split; [exact (A [sv; so] T1' S5 B3)|]. split; [exact (A [sv; sv; so; so] T2' S6 B4)|].
    split; [exact (A [so; sv] V S3 B5)|]. split; [exact (A [so; so; sv; sv] W S4 B6)|exact Logic.I].
  - exact Hd.
  - split; [exact (amp_near no nv [sv; so] d T1 T1' S1 (Logic.conj E1 N1'))|]. split; [exact (amp_near no nv [sv; sv; so; so] d T2 T2' S2 (Logic.conj E2 N2'))|].
    split; [exact (R0 [so; sv] V S3)|]. split; [exact (R0 [so; so; sv; sv] W S4)|exact Logic.I].
  - destruct (num_near _ _ _ _ N) as (x & y & -> & -> & L). exists x, y. split; [exact Ru|]. split; [exact Rv|exact L].
Qed.

Theorem energies_converge no nv B (V W : tensor RK) (t u : tensor RK) (y z : nat -> tensor RK) :
  shp V = [no; nv] -> shp W = [no; no; nv; nv] -> 0 <= B -> at_most B V -> at_most B W ->
  shp t = [nv; no] -> shp u = [nv; nv; no; no] -> at_most (1 / 2) t -> at_most (1 / 2) u ->
  (forall k, differ ((1 / 2) ^ k) (y k) t /\ differ ((1 / 2) ^ k) (z k) u) ->
  exists C E, returns "cc_energy" [arr t; arr u; arr V; arr W] (numv (K := RK) E) /\
    forall k, exists Ek, returns "cc_energy" [arr (y k); arr (z k); arr V; arr W] (numv (K := RK) Ek) /\ Rabs (Ek - E) <= C * (1 / 2) ^ k.
Proof.
  intros SV SW HB BV BW St Su Bt Bu N.
  destruct (energy_lip no nv (B + 3 / 2) ltac:(lra)) as (C & C0 & H).
  assert (P1 : forall k, (1 / 2) ^ k <= 1).
  { induction k as [|k IH]; cbn [pow]; [lra|]. pose proof (half_pos k). lra. }
  assert (M : forall k x v, at_most (1 / 2) v -> differ ((1 / 2) ^ k) x v -> at_most (B + 3 / 2) x).
  { intros k x v Hv (E & D) idx Hi. specialize (D idx Hi). rewrite E in Hi. specialize (Hv idx Hi). specialize (P1 k).
    assert (Q : forall a b p : R, Rabs (a - b) <= p -> p <= 1 -> Rabs b <= 1 / 2 -> Rabs a <= B + 3 / 2).
    { intros a b p Q1 Q2 Q3. pose proof (Rabs_triang (a - b) b) as Q. replace (a - b + b) with a in Q by ring. lra. }
    exact (Q _ _ _ D P1 Hv). }
  assert (Step : forall k, exists Ek E : R, returns "cc_energy" [arr (y k); arr (z k); arr V; arr W] (numv (K := RK) Ek) /\
    returns "cc_energy" [arr t; arr u; arr V; arr W] (numv (K := RK) E) /\ Rabs (Ek - E) <= C * (1 / 2) ^ k).
  { intros k. destruct (N k) as (N1 & N2).
    apply H; try assumption.
    - destruct N1 as (Q & _). congruence.
    - destruct N2 as (Q & _). congruence.
    - exact (M k _ _ Bt N1).
    - exact (M k _ _ Bu N2).
    - apply at_most_up with (1 / 2); [lra|exact Bt].
    - apply at_most_up with (1 / 2); [lra|exact Bu].
    - apply at_most_up with B; [lra|exact BV].
    - apply at_most_up with B; [lra|exact BW].
    - apply Rlt_le, half_pos. }
  destruct (Step 0%nat) as (E0 & E & _ & RE & _). exists C, E. split; [exact RE|]. intros k.
  destruct (Step k) as (Ek & E' & R1 & R2 & L). pose proof (returns_fun _ _ _ _ _ RE R2) as Q. injection Q as <-.
  exists Ek. split; assumption.
Qed.
