(** The unrestricted iteration for Lambda: instance of the convergence theorem
    for families of blocks. *)
From Coq Require Import List Bool Arith Lia String Reals Lra.
From Verif Require Import Scalar Tensor PySyntax PySem CCProg CCSpec SymSound CCShapes CCEquiv CCSym CovSpec Public Cov CovThm
  RoundSpec UtilsModel UtilsFacts ShiftSpec RespReal NegSpec SpinSpec IterSpec Lips Banach Iter IterN IterCC IterLam IterD IterR IterU
  PropertiesCov PropertiesShift PropertiesUSym.
Import ListNotations.
Local Open Scope R_scope.

Definition lukind (b : ublock) : list space :=
  match b with Ua => [so; sv] | Ub => [sO; sV] | Uaa => [so; so; sv; sv] | Uab => [so; sO; sv; sV] | Ubb => [sO; sO; sV; sV] end.
Notation ul_name := "uccsd_lambda_opt"%string.
Definition lu_args := [F_; Fb_; I_; Ib_; Iab_; uL1; uL2; uT1; uT2].
Definition lu_flags := [true; true; true; true; true; false; false; false; false].
Lemma lu_pub : In (ul_name, lu_args, STup [uL1; uL2]) public_functions.
Proof. find_in. Qed.
Lemma lu_hamarg : In (ul_name, lu_flags) hamiltonian_arguments.
Proof. find_in. Qed.

Definition llip_const_u (noa nva nob nvb : nat) (C : R) : Prop :=
  0 <= C /\ forall h Fa Fb Ia Ib J (t t' s0 : ublock -> tensor RK) e, 0 < h -> u_ham_ok noa nva nob nvb Fa Fb Ia Ib J -> u_small h Fa Fb Ia Ib J ->
    (forall b, shp (t b) = ushape_l noa nva nob nvb b) -> (forall b, shp (t' b) = ushape_l noa nva nob nvb b) ->
    (forall b, shp (s0 b) = ushape noa nva nob nvb b) -> (forall b, at_most 1 (s0 b)) ->
    (forall b, at_most 1 (t b)) -> (forall b, at_most 1 (t' b)) -> 0 <= e -> (forall b, differ e (t b) (t' b)) ->
    exists r r', returns ul_name (py_uham Fa Fb Ia Ib J ++ py_u t ++ py_u s0)%list (tup (py_u r)) /\
      returns ul_name (py_uham Fa Fb Ia Ib J ++ py_u t' ++ py_u s0)%list (tup (py_u r')) /\
      forall b, shp (r b) = ushape_l noa nva nob nvb b /\ at_most (C * h) (r b) /\ differ (C * h * e) (r b) (r' b).
Lemma llip_u noa nva nob nvb : exists C, llip_const_u noa nva nob nvb C.
Proof.
  set (n := un noa nva nob nvb).
  destruct (lipschitz n ul_name _ _ 1 lu_pub ltac:(lra)) as (C & C0 & H).
  exists C. split; [exact C0|].
  intros h Fa Fb Ia Ib J t t' s0 e h0 (HFa & HFb & HIa & HIb & HJ) (BFa & BFb & BIa & BIb & BJ) S S' S0 B0 B B' He N.
  set (sc_ham := py_uham (scF h Fa) (scF h Fb) (scI h Ia) (scI h Ib) (scJ h J)).
  assert (BA : forall x, (forall b, shp (x b) = ushape_l noa nva nob nvb b) -> (forall b, at_most 1 (x b)) -> bounded_args n 1 lu_args (sc_ham ++ py_u x ++ py_u s0)%list).
  { intros x Sx Bx.
    split; [exact (nF_bounded n h h0 so sv Fa HFa BFa)|]. split; [exact (nF_bounded n h h0 sO sV Fb HFb BFb)|].
    split; [exact (nI_bounded n h h0 so sv Ia (proj1 HIa) BIa)|]. split; [exact (nI_bounded n h h0 sO sV Ib (proj1 HIb) BIb)|].
    split; [exact (nJ_bounded n h h0 so sv sO sV J HJ BJ)|].
    split; [|split; [|split; [|split; [|exact Logic.I]]]].
    - split; [exact (n_amp_b n (lukind Ua) _ (Sx Ua) (Bx Ua))|]. split; [exact (n_amp_b n (lukind Ub) _ (Sx Ub) (Bx Ub))|exact Logic.I].
    - split; [exact (n_amp_b n (lukind Uaa) _ (Sx Uaa) (Bx Uaa))|]. split; [exact (n_amp_b n (lukind Uab) _ (Sx Uab) (Bx Uab))|].
      split; [exact (n_amp_b n (lukind Ubb) _ (Sx Ubb) (Bx Ubb))|exact Logic.I].
    - split; [exact (n_amp_b n (ukind Ua) _ (S0 Ua) (B0 Ua))|]. split; [exact (n_amp_b n (ukind Ub) _ (S0 Ub) (B0 Ub))|exact Logic.I].
    - split; [exact (n_amp_b n (ukind Uaa) _ (S0 Uaa) (B0 Uaa))|]. split; [exact (n_amp_b n (ukind Uab) _ (S0 Uab) (B0 Uab))|].
      split; [exact (n_amp_b n (ukind Ubb) _ (S0 Ubb) (B0 Ubb))|exact Logic.I]. }
  destruct (H (sc_ham ++ py_u t ++ py_u s0)%list (sc_ham ++ py_u t' ++ py_u s0)%list e (BA t S B) (BA t' S' B') He) as (u & v & Ru & Rv & Bu & Bv & Nuv).
  - split; [exact (nF_near n h so sv Fa e He HFa)|]. split; [exact (nF_near n h sO sV Fb e He HFb)|].
    split; [exact (nI_near n h so sv Ia e He (proj1 HIa))|]. split; [exact (nI_near n h sO sV Ib e He (proj1 HIb))|].
    split; [exact (nJ_near n h so sv sO sV J e He HJ)|].
    split; [|split; [|split; [|split; [|exact Logic.I]]]].
    + split; [exact (n_amp_n n (lukind Ua) e _ _ (S Ua) (N Ua))|]. split; [exact (n_amp_n n (lukind Ub) e _ _ (S Ub) (N Ub))|exact Logic.I].
    + split; [exact (n_amp_n n (lukind Uaa) e _ _ (S Uaa) (N Uaa))|]. split; [exact (n_amp_n n (lukind Uab) e _ _ (S Uab) (N Uab))|].
      split; [exact (n_amp_n n (lukind Ubb) e _ _ (S Ubb) (N Ubb))|exact Logic.I].
    + split; [exact (n_amp_n n (ukind Ua) e _ _ (S0 Ua) (differ_up e _ He))|]. split; [exact (n_amp_n n (ukind Ub) e _ _ (S0 Ub) (differ_up e _ He))|exact Logic.I].
    + split; [exact (n_amp_n n (ukind Uaa) e _ _ (S0 Uaa) (differ_up e _ He))|]. split; [exact (n_amp_n n (ukind Uab) e _ _ (S0 Uab) (differ_up e _ He))|].
      split; [exact (n_amp_n n (ukind Ubb) e _ _ (S0 Ubb) (differ_up e _ He))|exact Logic.I].
  - assert (W : forall x, (forall b, shp (x b) = ushape_l noa nva nob nvb b) ->
      combined_args (K := RK) n h 0 lu_flags lu_args (sc_ham ++ py_u x ++ py_u s0)%list (sc_ham ++ py_u x ++ py_u s0)%list (py_uham Fa Fb Ia Ib J ++ py_u x ++ py_u s0)%list).
    { intros x Sx.
      split; [exact (nF_comb n h h0 so sv Fa HFa)|]. split; [exact (nF_comb n h h0 sO sV Fb HFb)|].
      split; [exact (nI_comb n h h0 so sv Ia (proj1 HIa))|]. split; [exact (nI_comb n h h0 sO sV Ib (proj1 HIb))|].
      split; [exact (nJ_comb n h h0 so sv sO sV J HJ)|].
      split; [|split; [|split; [|split; [|exact Logic.I]]]].
      - split; [exact (n_amp_s n (lukind Ua) _ (Sx Ua))|]. split; [exact (n_amp_s n (lukind Ub) _ (Sx Ub))|exact Logic.I].
      - split; [exact (n_amp_s n (lukind Uaa) _ (Sx Uaa))|]. split; [exact (n_amp_s n (lukind Uab) _ (Sx Uab))|].
        split; [exact (n_amp_s n (lukind Ubb) _ (Sx Ubb))|exact Logic.I].
      - split; [exact (n_amp_s n (ukind Ua) _ (S0 Ua))|]. split; [exact (n_amp_s n (ukind Ub) _ (S0 Ub))|exact Logic.I].
      - split; [exact (n_amp_s n (ukind Uaa) _ (S0 Uaa))|]. split; [exact (n_amp_s n (ukind Uab) _ (S0 Uab))|].
        split; [exact (n_amp_s n (ukind Ubb) _ (S0 Ubb))|exact Logic.I]. }
    destruct (C73_linear_in_hamiltonian RK n h 0 ul_name _ _ _ _ _ _ lu_hamarg lu_pub (W t S)) as (x & y & w & Rx & Ry & Rw & Cw).
    destruct (C73_linear_in_hamiltonian RK n h 0 ul_name _ _ _ _ _ _ lu_hamarg lu_pub (W t' S')) as (x' & y' & z & Rx' & Ry' & Rz & Cz).
    rewrite (returns_fun _ _ _ _ _ Rx Ru), (returns_fun _ _ _ _ _ Ry Ru) in Cw.
    rewrite (returns_fun _ _ _ _ _ Rx' Rv), (returns_fun _ _ _ _ _ Ry' Rv) in Cz.
    destruct (five_scaled n h h0 C e lukind u v w z Bu Nuv Cw Cz) as (r & r' & -> & -> & P).
    exists r, r'. split; [exact Rw|]. split; [exact Rz|]. intros b. destruct (P b) as (P1 & P2). split; [|exact P2].
    rewrite P1. destruct b; reflexivity.
Qed.

Section UL.
  Variables noa nva nob nvb : nat.
  Notation T := (tensor RK).
  Notation sh := (ushape_l noa nva nob nvb).
  Variable res : string -> list (pyval RK) -> (ublock -> T) -> ublock -> T.
  Hypothesis res_eq : forall f args t r, returns f args (tup (py_u r)) -> forall b, res f args t b = r b.
  Variable C g : R.
  Variables (Fa0 Fa Fb0 Fb : one_e RK) (Ia Ib : two_e RK) (J : two_e_full RK) (eoa eva eob evb : T) (D s0 : ublock -> T).
  Hypothesis HC : llip_const_u noa nva nob nvb C.
  Hypothesis HH : u_ham_ok noa nva nob nvb Fa0 Fb0 Ia Ib J.
  Hypotheses (HEa : energy_shift noa nva eoa eva Fa0 Fa) (HEb : energy_shift nob nvb eob evb Fb0 Fb).
  Hypotheses (HGa : gap noa nva eoa eva g) (HGb : gap nob nvb eob evb g).
  Variable h : R.
  Hypotheses (h0 : 0 < h) (Ch : C * h <= g / 2) (BH : u_small h Fa0 Fb0 Ia Ib J).
  Hypothesis HD : udenominators eoa eva eob evb D.
  Hypotheses (HS : u_ok noa nva nob nvb s0) (BS : forall b, at_most 1 (s0 b)).
  Definition Dl (b : ublock) : T := turned (sh b) (D b).
  Notation H0 := (py_uham Fa0 Fb0 Ia Ib J). Notation H1 := (py_uham Fa Fb Ia Ib J).

  Definition lrf_u (t : ublock -> T) : ublock -> T := res ul_name (H0 ++ py_u t ++ py_u s0)%list t.
  Definition lrfull_u (t : ublock -> T) : ublock -> T := res ul_name (H1 ++ py_u t ++ py_u s0)%list t.
  Notation lok_u := (u_ok_l noa nva nob nvb).
  Lemma lok_u_sh t : lok_u t -> forall b, shp (t b) = sh b.
  Proof. intros (P1 & P2 & (P3 & _) & P4 & (P5 & _)) [| | | |]; assumption. Qed.
  Lemma lD_gap b idx : inrange (sh b) idx -> g <= dat (Dl b) idx.
  Proof.
    intros Hi. unfold Dl. cbn [turned dat].
    apply (D_gap noa nva nob nvb g Fa0 Fa Fb0 Fb eoa eva eob evb D HEa HEb HGa HGb HD b).
    destruct b; cbn [ushape_l ushape] in *;
      first [destruct (len2 _ _ _ Hi) as (p & q & ->); apply in2 in Hi; destruct Hi as (? & ?); cbn [from_virtual]; apply in2; auto
            |destruct (len4 _ _ _ _ _ Hi) as (p & q & r & s & ->); apply in4 in Hi; destruct Hi as (? & ? & ? & ?); cbn [from_virtual]; apply in4; auto].
  Qed.
  Lemma lD_sym p q (E : T) : (forall i j k l, inrange [q; q; p; p] [i; j; k; l] ->
      dat E [i; j; k; l] = dat E [j; i; k; l] /\ dat E [i; j; k; l] = dat E [i; j; l; k]) ->
    forall i j k l, inrange [p; p; q; q] [i; j; k; l] ->
      dat (turned [p; p; q; q] E) [i; j; k; l] = dat (turned [p; p; q; q] E) [j; i; k; l] /\
      dat (turned [p; p; q; q] E) [i; j; k; l] = dat (turned [p; p; q; q] E) [i; j; l; k].
  Proof.
    intros P2 i j a b Hi. apply in4 in Hi. destruct Hi as (Hi & Hj & Ha & Hb). cbn [turned dat from_virtual].
    destruct (P2 a b i j ltac:(apply in4; auto)) as (Q1 & Q2). split; [exact Q2|exact Q1].
  Qed.
  Lemma lok_u_step t t' : lok_u t -> (forall b, quotient (sh b) (lrf_u t b) (Dl b) (t' b)) -> lok_u t'.
  Proof.
    intros O Q. destruct HD as (E1 & E2 & E3 & E4 & E5).
    destruct (C15_ulambda_antisymmetric RK noa nva nob nvb Fa0 Fb0 Ia Ib J _ _ _ _ _ _ _ _ _ _ HH O HS) as (ta & tb & aa & ab & bb & RR & (_ & _ & O3 & _ & O5) & _).
    assert (X : forall b, lrf_u t b = ub ta tb aa ab bb b) by (apply res_eq; exact RR).
    split; [exact (proj1 (Q Ua))|]. split; [exact (proj1 (Q Ub))|].
    split; [|split; [exact (proj1 (Q Uab))|]].
    - apply (anti4_quotient noa nva aa (Dl Uaa) (t' Uaa) O3 (lD_sym noa nva _ (proj2 (d2_facts noa nva g Fa0 Fa eoa eva _ HEa HGa E3)))).
      pose proof (Q Uaa) as Q3. rewrite (X Uaa) in Q3. exact Q3.
    - apply (anti4_quotient nob nvb bb (Dl Ubb) (t' Ubb) O5 (lD_sym nob nvb _ (proj2 (d2_facts nob nvb g Fb0 Fb eob evb _ HEb HGb E5)))).
      pose proof (Q Ubb) as Q5. rewrite (X Ubb) in Q5. exact Q5.
  Qed.
  Lemma lu_lip t t' e : lok_u t -> lok_u t' -> (forall b, at_most 1 (t b)) -> (forall b, at_most 1 (t' b)) ->
    0 <= e -> (forall b, differ e (t b) (t' b)) ->
    forall b idx, inrange (sh b) idx -> Rabs (dat (lrf_u t b) idx) <= g / 2 /\ Rabs (dat (lrf_u t b) idx - dat (lrf_u t' b) idx) <= g / 2 * e.
  Proof.
    intros O O' B B' He N b idx Hi. destruct HC as (C0 & L).
    destruct (L h Fa0 Fb0 Ia Ib J t t' s0 e h0 HH BH (lok_u_sh t O) (lok_u_sh t' O') (ok_u_sh noa nva nob nvb s0 HS) BS B B' He N) as (r & r' & R & R' & P).
    unfold lrf_u. rewrite (res_eq _ _ _ _ R b), (res_eq _ _ _ _ R' b).
    destruct (P b) as (S & A1 & (_ & A2)). rewrite S in A2.
    assert (M : C * h * e <= g / 2 * e) by (apply Rmult_le_compat_r; assumption).
    split; [eapply Rle_trans; [apply A1; rewrite S; exact Hi|exact Ch]|eapply Rle_trans; [apply A2, Hi|exact M]].
  Qed.
  Lemma lu_full t : lok_u t -> exists r, returns ul_name (H1 ++ py_u t ++ py_u s0)%list (tup (py_u r)) /\
    forall b, shp (r b) = sh b /\ forall idx, inrange (sh b) idx -> dat (r b) idx = dat (lrf_u t b) idx + dat (Dl b) idx * dat (t b) idx :> R.
  Proof.
    intros O. destruct HD as (E1 & E2 & E3 & E4 & E5).
    destruct (C98_unrestricted_lambda_denominators RK noa nva nob nvb Fa0 Fa Fb0 Fb Ia Ib J eoa eva eob evb _ _ _ _ _ _ _ _ _ _ HH HS O HEa HEb)
      as (da & db & daa & dab & dbb & ra & rb & raa & rab & rbb & ra' & rb' & raa' & rab' & rbb' & G1 & G2 & G3 & G4 & G5 & RR & R' & (P1 & _) & (P2 & _) & (P3 & _) & (P4 & _) & (P5 & _)).
    rewrite E1 in G1. rewrite E2 in G2. rewrite E3 in G3. rewrite E4 in G4. rewrite E5 in G5.
    injection G1 as <-. injection G2 as <-. injection G3 as <-. injection G4 as <-. injection G5 as <-.
    assert (X : forall b, lrf_u t b = ub ra rb raa rab rbb b) by (apply res_eq; exact RR).
    exists (ub ra' rb' raa' rab' rbb'). split; [exact R'|].
    assert (Y : forall b r r', lrf_u t b = r -> plus r (times_l (D b) (t b)) r' -> shp r' = sh b /\
      forall idx, inrange (sh b) idx -> dat r' idx = dat (lrf_u t b) idx + dat (Dl b) idx * dat (t b) idx :> R).
    { intros b r r' Xb (S1 & S2 & P). cbn [times_l shp] in S1. rewrite (lok_u_sh t O b) in S1. rewrite <- S1 in P, S2.
      split; [exact S2|]. rewrite Xb. intros idx Hi. rewrite (P idx Hi).
      destruct b; cbn [ushape_l] in Hi; first [destruct (len2 _ _ _ Hi) as (p & q & ->); reflexivity|destruct (len4 _ _ _ _ _ Hi) as (p & q & p' & q' & ->); reflexivity]. }
    intros [| | | |]; [exact (Y Ua _ _ (X Ua) P1)|exact (Y Ub _ _ (X Ub) P2)|exact (Y Uaa _ _ (X Uaa) P3)|exact (Y Uab _ _ (X Uab) P4)|exact (Y Ubb _ _ (X Ubb) P5)].
  Qed.

  Theorem lu_converges : exists t, lok_u t /\ (forall b, at_most (1 / 2) (t b)) /\ solves_ul ul_name H1 (py_u s0) t /\
    (forall t', lok_u t' -> (forall b, at_most 1 (t' b)) -> solves_ul ul_name H1 (py_u s0) t' -> forall b, teq (t' b) (t b)) /\
    (exists y, iterates_ul noa nva nob nvb ul_name H1 (py_u s0) eoa eva eob evb y) /\
    (forall y, iterates_ul noa nva nob nvb ul_name H1 (py_u s0) eoa eva eob evb y -> forall k b, differ ((1 / 2) ^ k) (y k b) (t b)).
  Proof.
    assert (FE : forall t r, returns ul_name (H1 ++ py_u t ++ py_u s0)%list (tup (py_u r)) -> forall b, lrfull_u t b = r b)
      by (intros t r R; exact (res_eq _ _ _ _ R)).
    destruct (solven ublock sh Dl g lok_u lrf_u lrfull_u (proj1 HGa) lD_gap lok_u_sh) as (t & O & B & Z & U & (y & Hy & Oy) & N).
    - intros t t' (O1 & O2 & O3 & O4 & O5) E.
      split; [destruct (E Ua) as (S & _); unfold l1_ok in *; congruence|]. split; [destruct (E Ub) as (S & _); unfold l1_ok in *; congruence|].
      split; [exact (anti4_ext noa nva _ _ O3 (E Uaa))|]. split; [destruct (E Uab) as (S & _); congruence|exact (anti4_ext nob nvb _ _ O5 (E Ubb))].
    - split; [reflexivity|]. split; [reflexivity|]. split; [apply anti4_zero|]. split; [reflexivity|apply anti4_zero].
    - intros y t H E. split; [exact (proj1 (E Ua))|]. split; [exact (proj1 (E Ub))|].
      split; [apply (anti4_tends noa nva (fun k => y k Uaa)); [intros k; apply H|exact (E Uaa)]|]. split; [exact (proj1 (E Uab))|].
      apply (anti4_tends nob nvb (fun k => y k Ubb)); [intros k; apply H|exact (E Ubb)].
    - exact lok_u_step.
    - exact lu_lip.
    - intros t O b idx Hi. destruct (lu_full t O) as (r & R & P). rewrite (FE t r R b). apply (P b), Hi.
    - assert (Z' : forall t, lok_u t -> zeron ublock sh lrfull_u t <-> solves_ul ul_name H1 (py_u s0) t).
      { intros t' O'. destruct (lu_full t' O') as (r & R & P). split.
        - intros Zt. exists r. split; [exact R|]. intros b idx Hi. rewrite (proj1 (P b)) in Hi. rewrite <- (FE t' r R b). apply Zt, Hi.
        - intros (r' & R' & Zt) b idx Hi. rewrite (FE t' r' R' b). apply Zt. rewrite <- (returns_u _ _ _ _ R R' b), (proj1 (P b)). exact Hi. }
      exists t. split; [exact O|]. split; [exact B|]. split; [apply Z'; assumption|]. split; [|split].
      + intros t' O' B' S'. apply U; [exact O'|exact B'|apply Z'; assumption].
      + exists y. destruct Hy as (Y0 & Hy). split; [exact Y0|]. intros k. destruct (lu_full _ (Oy k)) as (r & R & P).
        exists D, r. split; [exact HD|]. split; [exact R|]. intros b. rewrite <- (FE _ r R b). exact (Hy k b).
      + intros y' (Y0 & H) k b. apply N. split; [exact Y0|]. intros m c. destruct (H m) as (D' & r & (G1 & G2 & G3 & G4 & G5) & R & P).
        rewrite (FE _ r R c). destruct HD as (E1 & E2 & E3 & E4 & E5).
        assert (X : D c = D' c) by (destruct c; congruence). unfold Dl. rewrite X. exact (P c).
  Qed.
End UL.

Theorem ulambda_converges noa nva nob nvb : exists kappa, 0 < kappa /\
  forall g Fa0 Fa Fb0 Fb Ia Ib J eoa eva eob evb s0, u_ham_ok noa nva nob nvb Fa0 Fb0 Ia Ib J ->
    energy_shift noa nva eoa eva Fa0 Fa -> energy_shift nob nvb eob evb Fb0 Fb -> gap noa nva eoa eva g -> gap nob nvb eob evb g ->
    u_small (kappa * g) Fa0 Fb0 Ia Ib J -> u_ok noa nva nob nvb s0 -> (forall b, at_most 1 (s0 b)) ->
    exists t, u_ok_l noa nva nob nvb t /\ (forall b, at_most (1 / 2) (t b)) /\ solves_ul ul_name (py_uham Fa Fb Ia Ib J) (py_u s0) t /\
      (forall t', u_ok_l noa nva nob nvb t' -> (forall b, at_most 1 (t' b)) -> solves_ul ul_name (py_uham Fa Fb Ia Ib J) (py_u s0) t' -> forall b, teq (t' b) (t b)) /\
      (exists y, iterates_ul noa nva nob nvb ul_name (py_uham Fa Fb Ia Ib J) (py_u s0) eoa eva eob evb y) /\
      (forall y, iterates_ul noa nva nob nvb ul_name (py_uham Fa Fb Ia Ib J) (py_u s0) eoa eva eob evb y -> forall k b, differ ((1 / 2) ^ k) (y k b) (t b)).
Proof.
  destruct (llip_u noa nva nob nvb) as (C & HC). pose proof (proj1 HC) as C0.
  exists (/ (2 * (C + 1))). split; [apply Rinv_0_lt_compat; lra|].
  intros g Fa0 Fa Fb0 Fb Ia Ib J eoa eva eob evb s0 HH HEa HEb HGa HGb BH HS BS.
  destruct (udenominators_exist noa nva nob nvb Fa0 Fa Fb0 Fb eoa eva eob evb HEa HEb) as (D & HD).
  destruct (ratio C C g C0 (Rle_refl C) (proj1 HGa)) as (R1 & R2).
  exact (lu_converges noa nva nob nvb resid_u resid_u_eq C g Fa0 Fa Fb0 Fb Ia Ib J eoa eva eob evb D s0 HC HH HEa HEb HGa HGb (/ (2 * (C + 1)) * g) R1 R2 BH HD HS BS).
Qed.
