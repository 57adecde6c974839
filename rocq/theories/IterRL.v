(** The iteration for Lambda of closed shells: instance of the general
    convergence theorem. *)
From Coq Require Import List Bool Arith Lia String Reals Lra.
From Verif Require Import Scalar Tensor PySyntax PySem CCProg CCSpec SymSound CCShapes CCEquiv CCSym CovSpec Public Cov CovThm
  RoundSpec UtilsModel UtilsFacts ShiftSpec Resp RespReal NegSpec SpinSpec IterSpec Lips Banach Iter IterCC IterLam IterD IterR PropertiesCov PropertiesShift
  PropertiesRest.
Import ListNotations.
Local Open Scope R_scope.

Definition rlam_funs : list string := ["rccsd_lambda_opt"]%string.
Definition rlam_args := [F_; Ir_; L1_; L2_; T1_; T2_].
Lemma rlam_pub f : In f rlam_funs -> In (f, rlam_args, STup [L1_; L2_]) public_functions.
Proof. intros [<-|[]]; find_in. Qed.
Lemma rlam_ham f : In f rlam_funs -> In (f, [true; true; false; false; false; false]) hamiltonian_arguments.
Proof. intros [<-|[]]; find_in. Qed.

Definition rlip_const_l (no nv : nat) (f : string) (C : R) : Prop :=
  0 <= C /\ forall h F I (L1 L2 L1' L2' T1 T2 : tensor RK) d, 0 < h -> one_e_ok no nv F -> two_e_full_ok no nv no nv I -> at_most_F h F -> at_most_J h I ->
    shp L1 = [no; nv] -> shp L2 = [no; no; nv; nv] -> shp L1' = [no; nv] -> shp L2' = [no; no; nv; nv] ->
    shp T1 = [nv; no] -> shp T2 = [nv; nv; no; no] -> at_most 1 T1 -> at_most 1 T2 ->
    at_most 1 L1 -> at_most 1 L2 -> at_most 1 L1' -> at_most 1 L2' -> 0 <= d -> differ d L1 L1' -> differ d L2 L2' ->
    exists r s r' s', returns f [py_one_e F; py_two_e_full I; arr L1; arr L2; arr T1; arr T2] (tup [arr r; arr s]) /\
      returns f [py_one_e F; py_two_e_full I; arr L1'; arr L2'; arr T1; arr T2] (tup [arr r'; arr s']) /\
      shp r = [no; nv] /\ shp s = [no; no; nv; nv] /\ at_most (C * h) r /\ at_most (C * h) s /\
      differ (C * h * d) r r' /\ differ (C * h * d) s s'.
Lemma rlip_lam no nv f : In f rlam_funs -> exists C, rlip_const_l no nv f C.
Proof.
  intros Hf. destruct (lipschitz (n2 no nv) f _ _ 1 (rlam_pub f Hf) ltac:(lra)) as (C & C0 & H).
  exists C. split; [exact C0|].
  intros h F I L1 L2 L1' L2' T1 T2 d h0 HF HI BF BI S1 S2 S3 S4 S5 S6 B5 B6 B1 B2 B3 B4 Hd N1 N2.
  destruct (H [py_one_e (scF h F); py_two_e_full (scJ h I); arr L1; arr L2; arr T1; arr T2] [py_one_e (scF h F); py_two_e_full (scJ h I); arr L1'; arr L2'; arr T1; arr T2] d) as (u & v & Ru & Rv & Bu & Bv & Nuv).
  - split; [exact (scF_bounded no nv h h0 F HF BF)|]. split; [exact (scJ_bounded no nv h h0 I HI BI)|].
    split; [exact (amp_bounded no nv [so; sv] L1 S1 B1)|]. split; [exact (amp_bounded no nv [so; so; sv; sv] L2 S2 B2)|].
    split; [exact (amp_bounded no nv [sv; so] T1 S5 B5)|]. split; [exact (amp_bounded no nv [sv; sv; so; so] T2 S6 B6)|exact Logic.I].
  - split; [exact (scF_bounded no nv h h0 F HF BF)|]. split; [exact (scJ_bounded no nv h h0 I HI BI)|].
    split; [exact (amp_bounded no nv [so; sv] L1' S3 B3)|]. split; [exact (amp_bounded no nv [so; so; sv; sv] L2' S4 B4)|].
    split; [exact (amp_bounded no nv [sv; so] T1 S5 B5)|]. split; [exact (amp_bounded no nv [sv; sv; so; so] T2 S6 B6)|exact Logic.I].
  - exact Hd.
  - split; [exact (scF_near no nv h F HF d Hd)|]. split; [exact (scJ_near no nv h I HI d Hd)|].
    split; [exact (amp_near no nv [so; sv] d L1 L1' S1 N1)|]. split; [exact (amp_near no nv [so; so; sv; sv] d L2 L2' S2 N2)|].
    split; [exact (amp_near no nv [sv; so] d T1 T1 S5 (differ_up d T1 Hd))|].
    split; [exact (amp_near no nv [sv; sv; so; so] d T2 T2 S6 (differ_up d T2 Hd))|exact Logic.I].
  - assert (W : forall t1 t2, shp t1 = [no; nv] -> shp t2 = [no; no; nv; nv] ->
      combined_args (K := RK) (n2 no nv) h 0 [true; true; false; false; false; false] rlam_args
        [py_one_e (scF h F); py_two_e_full (scJ h I); arr t1; arr t2; arr T1; arr T2] [py_one_e (scF h F); py_two_e_full (scJ h I); arr t1; arr t2; arr T1; arr T2]
        [py_one_e F; py_two_e_full I; arr t1; arr t2; arr T1; arr T2]).
    { intros t1 t2 E1 E2. split; [exact (scF_comb no nv h h0 F HF)|]. split; [exact (scJ_comb no nv h h0 I HI)|].
      split; [exact (amp_same no nv [so; sv] t1 E1)|]. split; [exact (amp_same no nv [so; so; sv; sv] t2 E2)|].
      split; [exact (amp_same no nv [sv; so] T1 S5)|]. split; [exact (amp_same no nv [sv; sv; so; so] T2 S6)|exact Logic.I]. }
    destruct (C73_linear_in_hamiltonian RK (n2 no nv) h 0 f _ _ _ _ _ _ (rlam_ham f Hf) (rlam_pub f Hf) (W L1 L2 S1 S2)) as (x & y & w & Rx & Ry & Rw & Cw).
    destruct (C73_linear_in_hamiltonian RK (n2 no nv) h 0 f _ _ _ _ _ _ (rlam_ham f Hf) (rlam_pub f Hf) (W L1' L2' S3 S4)) as (x' & y' & z & Rx' & Ry' & Rz & Cz).
    rewrite (returns_fun _ _ _ _ _ Rx Ru), (returns_fun _ _ _ _ _ Ry Ru) in Cw.
    rewrite (returns_fun _ _ _ _ _ Rx' Rv), (returns_fun _ _ _ _ _ Ry' Rv) in Cz.
    destruct (pair_scaled no nv h h0 C d [so; sv] [so; so; sv; sv] u v w z (Rmult_le_pos _ _ C0 Hd) Bu Nuv Cw Cz)
      as (r & s & r' & s' & -> & -> & E1 & E2 & A1 & A2 & A3 & A4).
    exists r, s, r', s'. split; [exact Rw|]. split; [exact Rz|]. split; [exact E1|]. split; [exact E2|]. auto.
Qed.

Section Lam.
  Variables no nv : nat.
  Notation T := (tensor RK).
  Variable res : string -> list (pyval RK) -> T -> T -> T * T.
  Hypothesis res_eq : forall f args t u r s, returns f args (tup [arr r; arr s]) -> res f args t u = (r, s).
  Variable f : string.
  Variable C g : R.
  Variables (F0 F : one_e RK) (I : two_e_full RK) (eo ev d1 d2 T1 T2 : T).
  Hypothesis Hf : In f rlam_funs.
  Hypothesis HC : rlip_const_l no nv f C.
  Hypotheses (HF : one_e_ok no nv F0) (HI : two_e_full_ok no nv no nv I) (PI : pair_sym_full I) (HE : energy_shift no nv eo ev F0 F) (HG : gap no nv eo ev g).
  Hypotheses (HT1 : shp T1 = [nv; no]) (HT2 : pair4 nv no T2) (B1 : at_most 1 T1) (B2 : at_most 1 T2).
  Variable h : R.
  Hypotheses (h0 : 0 < h) (Ch : C * h <= g / 2) (BF : at_most_F h F0) (BI : at_most_J h I).
  Hypotheses (E1 : D1 ev eo = Some d1) (E2 : D2 ev eo = Some d2).

  Notation sh1 := [no; nv]. Notation sh2 := [no; no; nv; nv].
  Notation e1 := (turned sh1 d1). Notation e2 := (turned sh2 d2).
  Definition rok_l (t u : T) : Prop := shp t = [no; nv] /\ pair4 no nv u.
  Definition rrf_l (t u : T) : T * T := res f [py_one_e F0; py_two_e_full I; arr t; arr u; arr T1; arr T2] t u.
  Definition rrfull_l (t u : T) : T * T := res f [py_one_e F; py_two_e_full I; arr t; arr u; arr T1; arr T2] t u.
  Lemma re1_l idx : inrange sh1 idx -> g <= dat e1 idx.
  Proof.
    intros Hi. destruct (len2 _ _ _ Hi) as (i & a & ->). apply in2 in Hi. destruct Hi as (Hi & Ha). cbn [turned dat from_virtual].
    apply (d1_sd no nv g F0 F eo ev d1 HE HG E1). apply in2. auto.
  Qed.
  Lemma re2_l : (forall idx, inrange sh2 idx -> g <= dat e2 idx) /\
    (forall i j k l, inrange sh2 [i; j; k; l] ->
      dat e2 [i; j; k; l] = dat e2 [j; i; k; l] /\ dat e2 [i; j; k; l] = dat e2 [i; j; l; k]).
  Proof.
    destruct (d2_facts no nv g F0 F eo ev d2 HE HG E2) as (P1 & P2). split.
    - intros idx Hi. destruct (len4 _ _ _ _ _ Hi) as (i & j & a & b & ->). apply in4 in Hi. destruct Hi as (Hi & Hj & Ha & Hb).
      cbn [turned dat from_virtual]. apply P1. apply in4. auto.
    - intros i j a b Hi. apply in4 in Hi. destruct Hi as (Hi & Hj & Ha & Hb). cbn [turned dat from_virtual].
      destruct (P2 a b i j ltac:(apply in4; auto)) as (Q1 & Q2). split; [exact Q2|exact Q1].
  Qed.
  Lemma rok_l_step t u t' u' : rok_l t u -> quotient sh1 (fst (rrf_l t u)) e1 t' ->
    quotient sh2 (snd (rrf_l t u)) e2 u' -> rok_l t' u'.
  Proof.
    intros (O1 & O2) (S1 & _) Q.
    assert (X : exists r s, returns f [py_one_e F0; py_two_e_full I; arr t; arr u; arr T1; arr T2] (tup [arr r; arr s]) /\ pair4 no nv s).
    { destruct Hf as [<-|[]].
      destruct (C17_rlambda_is_closed_shell_ulambda RK no nv F0 I T1 T2 t u HF HI PI HT1 (proj1 HT2) (proj2 HT2) O1 (proj1 O2) (proj2 O2))
        as (r & s & la & lb & aa & ab & bb & R & _ & _ & _ & _ & _ & _ & P).
      destruct (C98_restricted_lambda_denominators RK no nv F0 F I eo ev T1 T2 t u HF HI HT1 (proj1 HT2) (proj2 HT2) O1 (proj1 O2) (proj2 O2) HE)
        as (g1 & g2 & r2 & s2 & r' & s' & _ & _ & R2 & _ & _ & ((S3 & _) & _)).
      pose proof (returns_fun _ _ _ _ _ R R2) as X. injection X as <- <-.
      exists r, s. split; [exact R|]. split; [|exact P]. cbn [times_l shp] in S3. rewrite (proj1 O2) in S3. symmetry. exact S3. }
    destruct X as (r & s & R & Os).
    unfold rrf_l in Q. rewrite (res_eq _ _ _ _ _ _ R) in Q. split; [exact S1|].
    exact (pair4_quotient no nv s e2 u' Os (proj2 re2_l) Q).
  Qed.
  Lemma rl_lip t u t' u' d : rok_l t u -> rok_l t' u' -> at_most 1 t -> at_most 1 u -> at_most 1 t' -> at_most 1 u' ->
    0 <= d -> differ d t t' -> differ d u u' ->
    (forall idx, inrange sh1 idx -> Rabs (dat (fst (rrf_l t u)) idx) <= g / 2 /\ Rabs (dat (fst (rrf_l t u)) idx - dat (fst (rrf_l t' u')) idx) <= g / 2 * d) /\
    (forall idx, inrange sh2 idx -> Rabs (dat (snd (rrf_l t u)) idx) <= g / 2 /\ Rabs (dat (snd (rrf_l t u)) idx - dat (snd (rrf_l t' u')) idx) <= g / 2 * d).
  Proof.
    intros (O1 & O2) (O3 & O4) Q1 Q2 Q3 Q4 Hd N1 N2.
    destruct HC as (C0 & L).
    destruct (L h F0 I t u t' u' T1 T2 d h0 HF HI BF BI O1 (proj1 O2) O3 (proj1 O4) HT1 (proj1 HT2) B1 B2 Q1 Q2 Q3 Q4 Hd N1 N2)
      as (r & s & r' & s' & R & R' & S1 & S2 & A1 & A2 & (_ & A3) & (_ & A4)).
    unfold rrf_l. rewrite (res_eq _ _ _ _ _ _ R), (res_eq _ _ _ _ _ _ R'). cbn [fst snd].
    assert (M : C * h * d <= g / 2 * d) by (apply Rmult_le_compat_r; assumption).
    rewrite S1 in A3. rewrite S2 in A4.
    split; intros idx Hi.
    - split; [eapply Rle_trans; [apply A1; rewrite S1; exact Hi|exact Ch]|eapply Rle_trans; [apply A3, Hi|exact M]].
    - split; [eapply Rle_trans; [apply A2; rewrite S2; exact Hi|exact Ch]|eapply Rle_trans; [apply A4, Hi|exact M]].
  Qed.
  Lemma rl_full t u : rok_l t u ->
    exists r s, returns f [py_one_e F; py_two_e_full I; arr t; arr u; arr T1; arr T2] (tup [arr r; arr s]) /\ shp r = sh1 /\ shp s = sh2 /\
    (forall idx, inrange sh1 idx -> dat r idx = dat (fst (rrf_l t u)) idx + dat e1 idx * dat t idx :> R) /\
    (forall idx, inrange sh2 idx -> dat s idx = dat (snd (rrf_l t u)) idx + dat e2 idx * dat u idx :> R).
  Proof.
    intros (O1 & O2).
    assert (X : exists g1 g2 r s r' s', D1 ev eo = Some g1 /\ D2 ev eo = Some g2 /\
      returns f [py_one_e F0; py_two_e_full I; arr t; arr u; arr T1; arr T2] (tup [arr r; arr s]) /\
      returns f [py_one_e F; py_two_e_full I; arr t; arr u; arr T1; arr T2] (tup [arr r'; arr s']) /\
      raised r (times_l g1 t) r' /\ raised s (times_l g2 u) s').
    { destruct Hf as [<-|[]].
      exact (C98_restricted_lambda_denominators RK no nv F0 F I eo ev T1 T2 t u HF HI HT1 (proj1 HT2) (proj2 HT2) O1 (proj1 O2) (proj2 O2) HE). }
    destruct X as (g1 & g2 & r & s & r' & s' & G1 & G2 & R & R' & (P1 & _) & (P2 & _)).
    rewrite E1 in G1. injection G1 as <-. rewrite E2 in G2. injection G2 as <-.
    exists r', s'. split; [exact R'|]. unfold rrf_l. rewrite (res_eq _ _ _ _ _ _ R). cbn [fst snd].
    destruct P1 as (S1 & S2 & P1), P2 as (S3 & S4 & P2). cbn [times_l shp] in S1, S3. rewrite O1 in S1. rewrite (proj1 O2) in S3.
    rewrite <- S1 in P1, S2. rewrite <- S3 in P2, S4. split; [exact S2|]. split; [exact S4|].
    split; intros idx Hi.
    - rewrite (P1 idx Hi). destruct (len2 _ _ _ Hi) as (i & a & ->). reflexivity.
    - rewrite (P2 idx Hi). destruct (len4 _ _ _ _ _ Hi) as (i & j & a & b & ->). reflexivity.
  Qed.

  Theorem rlam_converges : exists t u, shp t = [no; nv] /\ pair4 no nv u /\ at_most (1 / 2) t /\ at_most (1 / 2) u /\
    solves_rl f F I T1 T2 t u /\
    (forall t' u', shp t' = [no; nv] -> pair4 no nv u' -> at_most 1 t' -> at_most 1 u' -> solves_rl f F I T1 T2 t' u' -> teq t' t /\ teq u' u) /\
    (exists y z, iterates_rl no nv f F I eo ev T1 T2 y z) /\
    (forall y z, iterates_rl no nv f F I eo ev T1 T2 y z -> forall k, differ ((1 / 2) ^ k) (y k) t /\ differ ((1 / 2) ^ k) (z k) u).
  Proof.
    assert (FE : forall t u r s, returns f [py_one_e F; py_two_e_full I; arr t; arr u; arr T1; arr T2] (tup [arr r; arr s]) -> rrfull_l t u = (r, s))
      by (intros; apply res_eq; assumption).
    assert (W : exists t u, rok_l t u /\ at_most (1 / 2) t /\ at_most (1 / 2) u /\ zero_res sh1 sh2 rrfull_l t u /\
      (forall t' u', rok_l t' u' -> at_most 1 t' -> at_most 1 u' -> zero_res sh1 sh2 rrfull_l t' u' -> teq t' t /\ teq u' u) /\
      (exists y z, history sh1 sh2 e1 e2 rrfull_l y z /\ forall k, rok_l (y k) (z k)) /\
      (forall y z, history sh1 sh2 e1 e2 rrfull_l y z -> forall k, differ ((1 / 2) ^ k) (y k) t /\ differ ((1 / 2) ^ k) (z k) u)).
    { apply (solve sh1 sh2 e1 e2 g rok_l rrf_l rrfull_l (proj1 HG)).
      - exact re1_l.
      - exact (proj1 re2_l).
      - intros t u (O1 & O2 & _). split; assumption.
      - intros t u t' u' (O1 & O2) Q1 Q2. split; [destruct Q1 as (S & _); congruence|exact (pair4_ext no nv u u' O2 Q2)].
      - split; [reflexivity|apply pair4_zero].
      - intros y z t u H Q1 Q2. split; [exact (proj1 Q1)|]. apply (pair4_tends no nv z); [intros k; apply H|exact Q2].
      - exact rok_l_step.
      - exact rl_lip.
      - intros t u O. destruct (rl_full t u O) as (r & s & R & _ & _ & P1 & P2). rewrite (FE _ _ _ _ R). split; [exact P1|exact P2]. }
    destruct W as (t & u & (O1 & O2) & Q1 & Q2 & Z & U & (y & z & Hy & Oy) & N).
    assert (Z' : forall t u, rok_l t u -> zero_res sh1 sh2 rrfull_l t u <-> solves_rl f F I T1 T2 t u).
    { intros t' u' O. destruct (rl_full t' u' O) as (r & s & R & S1 & S2 & _ & _). unfold zero_res. rewrite (FE _ _ _ _ R). cbn [fst snd]. split.
      - intros (Z1 & Z2). exists r, s. rewrite S1, S2. auto.
      - intros (r' & s' & R' & Z1 & Z2). pose proof (returns_fun _ _ _ _ _ R R') as Q. injection Q as <- <-. rewrite S1 in Z1. rewrite S2 in Z2. auto. }
    exists t, u. split; [exact O1|]. split; [exact O2|]. split; [exact Q1|]. split; [exact Q2|]. split; [|split; [|split]].
    - apply Z'; [split; assumption|exact Z].
    - intros t' u' P1 P2 Q3 Q4 S. apply U; try assumption; [split; assumption|]. apply Z'; [split; assumption|exact S].
    - exists y, z. destruct Hy as (Y0 & Z0 & Hy). split; [exact Y0|]. split; [exact Z0|]. intros k.
      destruct (rl_full _ _ (Oy k)) as (r & s & R & _). exists d1, d2, r, s. split; [exact E1|]. split; [exact E2|]. split; [exact R|].
      specialize (Hy k). unfold pass in Hy. rewrite (FE _ _ _ _ R) in Hy. exact Hy.
    - intros y' z' (Y0 & Z0 & H). apply N. split; [exact Y0|]. split; [exact Z0|]. intros k.
      destruct (H k) as (g1 & g2 & r & s & G1 & G2 & R & P). rewrite E1 in G1. injection G1 as <-. rewrite E2 in G2. injection G2 as <-.
      unfold pass. rewrite (FE _ _ _ _ R). exact P.
  Qed.
End Lam.

Theorem rlambda_converges no nv : exists kappa, 0 < kappa /\
  forall f g F0 F I eo ev T1 T2, In f rlam_funs -> one_e_ok no nv F0 -> two_e_full_ok no nv no nv I -> pair_sym_full I ->
    energy_shift no nv eo ev F0 F -> gap no nv eo ev g -> at_most_F (kappa * g) F0 -> at_most_J (kappa * g) I ->
    shp T1 = [nv; no] -> pair4 nv no T2 -> at_most 1 T1 -> at_most 1 T2 ->
    exists t u, shp t = [no; nv] /\ pair4 no nv u /\ at_most (1 / 2) t /\ at_most (1 / 2) u /\
      solves_rl f F I T1 T2 t u /\
      (forall t' u', shp t' = [no; nv] -> pair4 no nv u' -> at_most 1 t' -> at_most 1 u' -> solves_rl f F I T1 T2 t' u' -> teq t' t /\ teq u' u) /\
      (exists y z, iterates_rl no nv f F I eo ev T1 T2 y z) /\
      (forall y z, iterates_rl no nv f F I eo ev T1 T2 y z -> forall k, differ ((1 / 2) ^ k) (y k) t /\ differ ((1 / 2) ^ k) (z k) u).
Proof.
  destruct (rlip_lam no nv "rccsd_lambda_opt" ltac:(cbn; auto)) as (C & HC). pose proof (proj1 HC) as C0.
  exists (/ (2 * (C + 1))). split; [apply Rinv_0_lt_compat; lra|].
  intros f g F0 F I eo ev T1 T2 Hf HF HI PI HE HG BF BI HT1 HT2 B1 B2. assert (HC' : rlip_const_l no nv f C) by (destruct Hf as [<-|[]]; exact HC).
  destruct (D1_spec RK ev eo nv no (proj1 (proj2 HE)) (proj1 HE)) as (d1 & E1 & _).
  destruct (D2_spec RK ev eo nv no (proj1 (proj2 HE)) (proj1 HE)) as (d2 & E2 & _).
  destruct (ratio C C g C0 (Rle_refl C) (proj1 HG)) as (R1 & R2).
  exact (rlam_converges no nv resid resid_eq f C g F0 F I eo ev d1 d2 T1 T2 Hf HC' HF HI PI HE HG HT1 HT2 B1 B2 (/ (2 * (C + 1)) * g) R1 R2 BF BI E1 E2).
Qed.
