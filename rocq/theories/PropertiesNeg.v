(** The sign of second order energies: final statements.  Vocabulary: NegSpec.v
    (gaps, transposes, sums of squares), UPTSpec.v ([quotient]), CCSpec.v
    ([returns]); D1, D2 and D2u are the functions of utils.py (UtilsModel.v). *)
From Coq Require Import List String Arith Lia Reals Lra.
From Verif Require Import Scalar Tensor PySyntax PySem CCProg CCSpec UtilsModel UtilsFacts UPTSpec RoundSpec NegSpec Neg PropertiesCC PropertiesRPT.
Import ListNotations.
Local Open Scope string_scope.
Local Open Scope R_scope.

(** C100: the amplitudes -F/D1 and -I/D2 of real orbitals with a gap between
    occupied and virtual energies.  mp2_energy is not positive, is zero only if
    the reference does not couple to singles and doubles, and is bounded by the
    sums of squares of the couplings over the gap. *)
Theorem C100_mp2_energy no nv (eo ev fvo fov V W T1 T2 : tensor RK) g :
  shp eo = [no] -> shp ev = [nv] -> gap no nv eo ev g ->
  transposed2 no nv fvo fov -> transposed4 no no nv nv V W ->
  (exists D, D1 ev eo = Some D /\ quotient [nv; no] fvo D T1) ->
  (exists D, D2 ev eo = Some D /\ quotient [nv; nv; no; no] V D T2) ->
  exists e : R, returns (K := RK) "mp2_energy" [arr T1; arr T2; arr fov; arr W] (numv (e : RK)) /\
    e <= 0 /\ - (squares2 no nv fov / g + squares4 no no nv nv W / (8 * g)) <= e /\
    (e = 0 <-> zero2 no nv fov /\ zero4 no no nv nv W).
Proof.
  intros So Sv (Hg & Gap) (Sf & Tf) (SW & TW) (Da & Ha & (S1 & Qa)) (Db & Hb & (S2 & Qb)).
  destruct (D1_spec RK ev eo nv no Sv So) as (Da' & Ha' & _ & Va). rewrite Ha in Ha'. injection Ha' as <-.
  destruct (D2_spec RK ev eo nv no Sv So) as (Db' & Hb' & _ & Vb & _). rewrite Hb in Hb'. injection Hb' as <-.
  eexists. split; [exact (proj2 (C11_cc_energy_formula RK no nv T1 T2 fov W S1 S2 Sf SW))|].
  destruct (fine2 no nv (/ g) (fun i a => dat fov [i; a]) (fun i a => dat fov [i; a] * dat T1 [a; i])) as (A1 & A2 & A3).
  { intros i a Hi Ha_. apply (term g (dat Da [a; i])); [exact Hg| |].
    - rewrite Va by assumption. cbn [csub RK]. pose proof (Gap a i Ha_ Hi). lra.
    - rewrite Tf by assumption. exact (proj2 (Qa [a; i] ltac:(repeat constructor; assumption))). }
  destruct (fine4 no no nv nv (/ (2 * g)) (fun i j a b => dat W [i; j; a; b]) (fun i j a b => dat W [i; j; a; b] * dat T2 [a; b; i; j])) as (B1 & B2 & B3).
  { intros i j a b Hi Hj Ha_ Hb_. apply (term (2 * g) (dat Db [a; b; i; j])); [lra| |].
    - rewrite Vb by assumption. cbn [csub cadd RK]. pose proof (Gap a i Ha_ Hi). pose proof (Gap b j Hb_ Hj). lra.
    - rewrite TW by assumption. exact (proj2 (Qb [a; b; i; j] ltac:(repeat constructor; assumption))). }
  cbv beta in A1, A2, A3, B1, B2, B3.
  change (let s1 := Sum2 no nv (fun i a => dat fov [i; a] * dat T1 [a; i]) in
    let d := Sum4 no no nv nv (fun i j a b => dat W [i; j; a; b] * dat T2 [a; b; i; j]) in
    s1 + (/ 2 * / 2) * d <= 0 /\ - (squares2 no nv fov / g + squares4 no no nv nv W / (8 * g)) <= s1 + (/ 2 * / 2) * d /\
    (s1 + (/ 2 * / 2) * d = 0 <-> zero2 no nv fov /\ zero4 no no nv nv W)).
  cbv zeta. change (squares2 no nv fov) with (Sum2 no nv (fun i a => dat fov [i; a] * dat fov [i; a])).
  change (squares4 no no nv nv W) with (Sum4 no no nv nv (fun i j a b => dat W [i; j; a; b] * dat W [i; j; a; b])).
  set (s1 := Sum2 no nv (fun i a => dat fov [i; a] * dat T1 [a; i])) in *.
  set (d := Sum4 no no nv nv (fun i j a b => dat W [i; j; a; b] * dat T2 [a; b; i; j])) in *.
  clearbody s1 d. set (q1 := Sum2 _ _ _) in *. set (q2 := Sum4 _ _ _ _ _) in *. clearbody q1 q2.
  split; [lra|]. split.
  - replace (q1 / g) with (/ g * q1) by (field; lra). replace (q2 / (8 * g)) with (/ 4 * (/ (2 * g) * q2)) by (field; lra). lra.
  - split.
    + intros E. split; [exact (proj1 A3 ltac:(lra))|exact (proj1 B3 ltac:(lra))].
    + intros [Z1 Z2]. rewrite (proj2 A3 Z1), (proj2 B3 Z2). lra.
Qed.
Print Assumptions C100_mp2_energy.

(** C100: the same for ump2_energy. *)
Theorem C100_ump2_energy noa nva nob nvb (eo_a ev_a eo_b ev_b fvo_a fov_a fvo_b fov_b Va Wa Vb Wb Vab Wab T1a T1b T2aa T2ab T2bb : tensor RK) g :
  shp eo_a = [noa] -> shp ev_a = [nva] -> shp eo_b = [nob] -> shp ev_b = [nvb] ->
  gap noa nva eo_a ev_a g -> gap nob nvb eo_b ev_b g ->
  transposed2 noa nva fvo_a fov_a -> transposed2 nob nvb fvo_b fov_b ->
  transposed4 noa noa nva nva Va Wa -> transposed4 nob nob nvb nvb Vb Wb -> transposed4 noa nob nva nvb Vab Wab ->
  (exists D, D1 ev_a eo_a = Some D /\ quotient [nva; noa] fvo_a D T1a) ->
  (exists D, D1 ev_b eo_b = Some D /\ quotient [nvb; nob] fvo_b D T1b) ->
  (exists D, D2 ev_a eo_a = Some D /\ quotient [nva; nva; noa; noa] Va D T2aa) ->
  (exists D, D2 ev_b eo_b = Some D /\ quotient [nvb; nvb; nob; nob] Vb D T2bb) ->
  (exists D, D2u ev_a ev_b eo_a eo_b = Some D /\ quotient [nva; nvb; noa; nob] Vab D T2ab) ->
  exists e : R, returns (K := RK) "ump2_energy" [tup [arr T1a; arr T1b]; tup [arr T2aa; arr T2ab; arr T2bb];
      arr fov_a; arr fov_b; arr Wa; arr Wb; arr Wab] (numv (e : RK)) /\
    e <= 0 /\
    - (squares2 noa nva fov_a / g + squares2 nob nvb fov_b / g + squares4 noa noa nva nva Wa / (8 * g)
       + squares4 nob nob nvb nvb Wb / (8 * g) + squares4 noa nob nva nvb Wab / (2 * g)) <= e /\
    (e = 0 <-> zero2 noa nva fov_a /\ zero2 nob nvb fov_b /\
       zero4 noa noa nva nva Wa /\ zero4 nob nob nvb nvb Wb /\ zero4 noa nob nva nvb Wab).
Proof.
  intros Soa Sva Sob Svb (Hg & Ga) (_ & Gb) (Sfa & Tfa) (Sfb & Tfb) (SWa & TWa) (SWb & TWb) (SWab & TWab)
    (D1a & H1a & (S1a & Q1a)) (D1b & H1b & (S1b & Q1b)) (D2a & H2a & (S2a & Q2a)) (D2b & H2b & (S2b & Q2b)) (D2ab & H2ab & (S2ab & Q2ab)).
  destruct (D1_spec RK ev_a eo_a nva noa Sva Soa) as (D & HD & _ & V1a). rewrite H1a in HD. injection HD as <-.
  destruct (D1_spec RK ev_b eo_b nvb nob Svb Sob) as (D & HD & _ & V1b). rewrite H1b in HD. injection HD as <-.
  destruct (D2_spec RK ev_a eo_a nva noa Sva Soa) as (D & HD & _ & V2a & _). rewrite H2a in HD. injection HD as <-.
  destruct (D2_spec RK ev_b eo_b nvb nob Svb Sob) as (D & HD & _ & V2b & _). rewrite H2b in HD. injection HD as <-.
  destruct (D2u_spec RK ev_a ev_b eo_a eo_b nva nvb noa nob Sva Svb Soa Sob) as (D & HD & _ & V2ab). rewrite H2ab in HD. injection HD as <-.
  eexists. split; [exact (proj2 (C11_ucc_energy_formula RK noa nva nob nvb T1a T1b T2aa T2ab T2bb fov_a fov_b Wa Wb Wab S1a S1b S2a S2ab S2b Sfa Sfb SWa SWb SWab))|].
  destruct (fine2 noa nva (/ g) (fun i a => dat fov_a [i; a]) (fun i a => dat fov_a [i; a] * dat T1a [a; i])) as (A1 & A2 & A3).
  { intros i a Hi Ha. apply (term g (dat D1a [a; i])); [exact Hg| |].
    - rewrite V1a by assumption. cbn [csub RK]. pose proof (Ga a i Ha Hi). lra.
    - rewrite Tfa by assumption. exact (proj2 (Q1a [a; i] ltac:(repeat constructor; assumption))). }
  destruct (fine2 nob nvb (/ g) (fun i a => dat fov_b [i; a]) (fun i a => dat fov_b [i; a] * dat T1b [a; i])) as (B1 & B2 & B3).
  { intros i a Hi Ha. apply (term g (dat D1b [a; i])); [exact Hg| |].
    - rewrite V1b by assumption. cbn [csub RK]. pose proof (Gb a i Ha Hi). lra.
    - rewrite Tfb by assumption. exact (proj2 (Q1b [a; i] ltac:(repeat constructor; assumption))). }
  destruct (fine4 noa noa nva nva (/ (2 * g)) (fun i j a b => dat Wa [i; j; a; b]) (fun i j a b => dat Wa [i; j; a; b] * dat T2aa [a; b; i; j])) as (C1 & C2 & C3).
  { intros i j a b Hi Hj Ha Hb. apply (term (2 * g) (dat D2a [a; b; i; j])); [lra| |].
    - rewrite V2a by assumption. cbn [csub cadd RK]. pose proof (Ga a i Ha Hi). pose proof (Ga b j Hb Hj). lra.
    - rewrite TWa by assumption. exact (proj2 (Q2a [a; b; i; j] ltac:(repeat constructor; assumption))). }
  destruct (fine4 nob nob nvb nvb (/ (2 * g)) (fun i j a b => dat Wb [i; j; a; b]) (fun i j a b => dat Wb [i; j; a; b] * dat T2bb [a; b; i; j])) as (E1 & E2 & E3).
  { intros i j a b Hi Hj Ha Hb. apply (term (2 * g) (dat D2b [a; b; i; j])); [lra| |].
    - rewrite V2b by assumption. cbn [csub cadd RK]. pose proof (Gb a i Ha Hi). pose proof (Gb b j Hb Hj). lra.
    - rewrite TWb by assumption. exact (proj2 (Q2b [a; b; i; j] ltac:(repeat constructor; assumption))). }
  destruct (fine4 noa nob nva nvb (/ (2 * g)) (fun i j a b => dat Wab [i; j; a; b]) (fun i j a b => dat Wab [i; j; a; b] * dat T2ab [a; b; i; j])) as (F1 & F2 & F3).
  { intros i j a b Hi Hj Ha Hb. apply (term (2 * g) (dat D2ab [a; b; i; j])); [lra| |].
    - rewrite V2ab by assumption. cbn [csub cadd RK]. pose proof (Ga a i Ha Hi). pose proof (Gb b j Hb Hj). lra.
    - rewrite TWab by assumption. exact (proj2 (Q2ab [a; b; i; j] ltac:(repeat constructor; assumption))). }
  cbv beta in A1, A2, A3, B1, B2, B3, C1, C2, C3, E1, E2, E3, F1, F2, F3.
  change (squares2 noa nva fov_a) with (Sum2 noa nva (fun i a => dat fov_a [i; a] * dat fov_a [i; a])).
  change (squares2 nob nvb fov_b) with (Sum2 nob nvb (fun i a => dat fov_b [i; a] * dat fov_b [i; a])).
  change (squares4 noa noa nva nva Wa) with (Sum4 noa noa nva nva (fun i j a b => dat Wa [i; j; a; b] * dat Wa [i; j; a; b])).
  change (squares4 nob nob nvb nvb Wb) with (Sum4 nob nob nvb nvb (fun i j a b => dat Wb [i; j; a; b] * dat Wb [i; j; a; b])).
  change (squares4 noa nob nva nvb Wab) with (Sum4 noa nob nva nvb (fun i j a b => dat Wab [i; j; a; b] * dat Wab [i; j; a; b])).
  set (x1 := Sum2 noa nva (fun i a => dat fov_a [i; a] * dat T1a [a; i])) in *.
  set (x2 := Sum2 nob nvb (fun i a => dat fov_b [i; a] * dat T1b [a; i])) in *.
  set (x3 := Sum4 noa noa nva nva (fun i j a b => dat Wa [i; j; a; b] * dat T2aa [a; b; i; j])) in *.
  set (x4 := Sum4 nob nob nvb nvb (fun i j a b => dat Wb [i; j; a; b] * dat T2bb [a; b; i; j])) in *.
  set (x5 := Sum4 noa nob nva nvb (fun i j a b => dat Wab [i; j; a; b] * dat T2ab [a; b; i; j])) in *.
  match goal with |- ?e <= 0 /\ _ => change e with (x1 + x2 + ((/ 2 * / 2) * x3 + (/ 2 * / 2) * x4 + x5)) end.
  match goal with |- _ /\ _ /\ (?e = _ <-> _) => change e with (x1 + x2 + ((/ 2 * / 2) * x3 + (/ 2 * / 2) * x4 + x5)) end.
  match goal with |- _ /\ _ <= ?e /\ _ => change e with (x1 + x2 + ((/ 2 * / 2) * x3 + (/ 2 * / 2) * x4 + x5)) end.
  clearbody x1 x2 x3 x4 x5.
  set (q1 := Sum2 noa nva _) in *. set (q2 := Sum2 nob nvb _) in *. set (q3 := Sum4 noa noa nva nva _) in *.
  set (q4 := Sum4 nob nob nvb nvb _) in *. set (q5 := Sum4 noa nob nva nvb _) in *. clearbody q1 q2 q3 q4 q5.
  split; [lra|]. split.
  - replace (q1 / g) with (/ g * q1) by (field; lra). replace (q2 / g) with (/ g * q2) by (field; lra).
    replace (q3 / (8 * g)) with (/ 4 * (/ (2 * g) * q3)) by (field; lra). replace (q4 / (8 * g)) with (/ 4 * (/ (2 * g) * q4)) by (field; lra).
    replace (q5 / (2 * g)) with (/ (2 * g) * q5) by (field; lra). lra.
  - split.
    + intros E. repeat split; [exact (proj1 A3 ltac:(lra))|exact (proj1 B3 ltac:(lra))|exact (proj1 C3 ltac:(lra))|exact (proj1 E3 ltac:(lra))|exact (proj1 F3 ltac:(lra))].
    + intros (Z1 & Z2 & Z3 & Z4 & Z5). rewrite (proj2 A3 Z1), (proj2 B3 Z2), (proj2 C3 Z3), (proj2 E3 Z4), (proj2 F3 Z5). lra.
Qed.
Print Assumptions C100_ump2_energy.

(** C100: and for closed shells, rcc_energy without singles. *)
Theorem C100_closed_shell no nv (eo ev fov V W T2 : tensor RK) g :
  shp eo = [no] -> shp ev = [nv] -> gap no nv eo ev g ->
  shp fov = [no; nv] -> transposed4 no no nv nv V W ->
  (exists D, D2 ev eo = Some D /\ quotient [nv; nv; no; no] V D T2) ->
  exists e : R, returns (K := RK) "rcc_energy" [arr (tzeros RK [nv; no]); arr T2; arr fov; arr W] (numv (e : RK)) /\
    e <= 0 /\ - (3 * squares4 no no nv nv W / (2 * g)) <= e /\
    (e = 0 <-> zero4 no no nv nv W).
Proof.
  intros So Sv (Hg & Gap) Sf (SW & TW) (Db & Hb & (S2 & Qb)).
  destruct (D2_spec RK ev eo nv no Sv So) as (Db' & Hb' & _ & Vb & _). rewrite Hb in Hb'. injection Hb' as <-.
  eexists. split; [exact (C11_rcc_energy_formula RK no nv (tzeros RK [nv; no]) T2 fov W eq_refl S2 Sf SW)|].
  set (inn := fun i j => Sum nv (fun a => Sum nv (fun b => (2 * dat W [i; j; a; b] - dat W [i; j; b; a]) * dat T2 [a; b; i; j]))).
  assert (P : forall i j, (i < no)%nat -> (j < no)%nat ->
    inn i j <= 0 /\ - (3 * / (2 * g) * Sum nv (fun a => Sum nv (fun b => dat W [i; j; a; b] * dat W [i; j; a; b]))) <= inn i j /\
    (inn i j = 0 <-> forall a b, (a < nv)%nat -> (b < nv)%nat -> dat W [i; j; a; b] = 0)).
  { intros i j Hi Hj. apply (pair_sum nv (2 * g) (fun a b => dat Db [a; b; i; j]) (fun a b => dat T2 [a; b; i; j]) (fun a b => dat W [i; j; a; b])); [lra|].
    intros a b Ha Hb_. rewrite !Vb by assumption. cbn [csub cadd RK]. pose proof (Gap a i Ha Hi). pose proof (Gap b j Hb_ Hj).
    split; [lra|]. split; [lra|]. rewrite TW by assumption.
    pose proof (proj2 (Qb [a; b; i; j] ltac:(repeat constructor; assumption))) as X. rewrite Vb in X by assumption. exact X. }
  match goal with |- ?e <= 0 /\ _ => assert (Q : e = Sum no (fun i => Sum no (fun j => inn i j))) end.
  { change ((1 + 1) * Sum no (fun i => Sum nv (fun a => dat fov [i; a] * 0)) + Sum no (fun i => Sum no (fun j => Sum nv (fun a => Sum nv (fun b =>
      ((1 + 1) * dat W [i; j; a; b] - dat W [i; j; b; a]) * (dat T2 [a; b; i; j] + 0 * 0))))) = Sum no (fun i => Sum no (fun j => inn i j))).
    rewrite (Sum_ext no (fun i => Sum nv (fun a => dat fov [i; a] * 0)) (fun _ => 0)).
    2: { intros i Hi. transitivity (Sum nv (fun _ => 0)); [|apply Sum_0]. apply Sum_ext. intros; apply Rmult_0_r. }
    rewrite Sum_0. rewrite Rmult_0_r, Rplus_0_l. unfold inn. apply Sum_ext. intros i Hi. apply Sum_ext. intros j Hj. apply Sum_ext. intros a Ha. apply Sum_ext. intros b Hb'.
    ring. }
  rewrite Q. split; [|split].
  - apply Sum_neg. intros i Hi. apply Sum_neg. intros j Hj. apply (P i j Hi Hj).
  - replace (3 * squares4 no no nv nv W / (2 * g)) with (3 * / (2 * g) * squares4 no no nv nv W) by (field; lra). unfold squares4.
    rewrite <- Ropp_mult_distr_l_reverse, <- Sum_scale. apply Sum_le. intros i Hi. rewrite <- Sum_scale. apply Sum_le. intros j Hj.
    rewrite Ropp_mult_distr_l_reverse. apply (P i j Hi Hj).
  - split.
    + intros E i j a b Hi Hj. apply (P i j Hi Hj).
      assert (E1 := Sum_zero no _ (fun i Hi => Sum_neg no _ (fun j Hj => proj1 (P i j Hi Hj))) E i Hi). cbv beta in E1.
      exact (Sum_zero no _ (fun j Hj => proj1 (P i j Hi Hj)) E1 j Hj).
    + intros Z. rewrite (Sum_ext no (fun i => Sum no (fun j => inn i j)) (fun _ => 0)); [apply Sum_0|]. intros i Hi.
      rewrite <- (Sum_0 no). apply Sum_ext. intros j Hj. apply (P i j Hi Hj). intros a b Ha Hb'. apply Z; assumption.
Qed.
Print Assumptions C100_closed_shell.

(** One occupied and two virtual orbitals with energies -1 and 1, 2: the
    hypotheses hold with gap 2, and the energy of mp2_energy is negative. *)
Definition ex_eo : tensor RK := mkT (K := RK) [1]%nat (fun _ => -1).
Definition ex_ev : tensor RK := mkT (K := RK) [2]%nat (fun ix => match ix with [0]%nat => 1 | _ => 2 end).
Definition ex_f : tensor RK := mkT (K := RK) [2; 1]%nat (fun ix => match ix with [0; 0]%nat => 1 | _ => 3 end).
Definition ex_ft : tensor RK := mkT (K := RK) [1; 2]%nat (fun ix => match ix with [i; a] => dat ex_f [a; i] | _ => 0 end).
Definition ex_V : tensor RK := mkT (K := RK) [2; 2; 1; 1]%nat (fun ix => match ix with [0; 1; _; _]%nat => 2 | [1; 0; _; _]%nat => 1 | _ => 0 end).
Definition ex_Vt : tensor RK := mkT (K := RK) [1; 1; 2; 2]%nat (fun ix => match ix with [i; j; a; b] => dat ex_V [a; b; i; j] | _ => 0 end).
Definition ex_quot (V : tensor RK) (D : option (tensor RK)) : tensor RK :=
  mkT (K := RK) (shp V) (fun ix => match D with Some d => - (dat V ix / dat d ix) | None => 0 end).
Example C100_example :
  shp ex_eo = [1]%nat /\ shp ex_ev = [2]%nat /\ gap 1 2 ex_eo ex_ev 2 /\
  transposed2 1 2 ex_f ex_ft /\ transposed4 1 1 2 2 ex_V ex_Vt /\
  (exists D, D1 ex_ev ex_eo = Some D /\ quotient [2; 1]%nat ex_f D (ex_quot ex_f (D1 ex_ev ex_eo))) /\
  (exists D, D2 ex_ev ex_eo = Some D /\ quotient [2; 2; 1; 1]%nat ex_V D (ex_quot ex_V (D2 ex_ev ex_eo))) /\
  (exists D, D2u ex_ev ex_ev ex_eo ex_eo = Some D /\ quotient [2; 2; 1; 1]%nat ex_V D (ex_quot ex_V (D2u ex_ev ex_ev ex_eo ex_eo))) /\
  ~ zero2 1 2 ex_ft /\ ~ zero4 1 1 2 2 ex_Vt.
Proof.
  split; [reflexivity|]. split; [reflexivity|].
  assert (G : forall a i, dat ex_eo [i] + 2 <= dat ex_ev [a]) by (intros [|a] i; cbn; lra).
  split; [split; [lra|intros; apply G]|].
  split; [split; reflexivity|]. split; [split; reflexivity|].
  assert (Q : forall (V D : tensor RK) o ix, o = Some D -> dat D ix <> 0 ->
    (exists x : RK, (x * dat D ix)%K = c1) /\ (dat (ex_quot V o) ix * dat D ix)%K = (- dat V ix)%K).
  { intros V D o ix -> N. cbn [ex_quot dat c1 RK cmul copp]. split.
    - exists (/ dat D ix). change (/ dat D ix * dat D ix = 1). apply Rinv_l. exact N.
    - change (- (dat V ix / dat D ix) * dat D ix = - dat V ix). unfold Rdiv. rewrite <- Ropp_mult_distr_l, Rmult_assoc, Rinv_l by exact N. lra. }
  split; [|split; [|split]].
  - destruct (D1_spec RK ex_ev ex_eo 2 1 eq_refl eq_refl) as (D & HD & _ & V). exists D. split; [exact HD|]. split; [reflexivity|].
    intros ix L. apply Q; [exact HD|]. inversion L as [|a ? r ? La H1]; subst. inversion H1 as [|i ? r1 ? Li H2]; subst. inversion H2; subst.
    rewrite V by assumption. cbn [csub RK]. pose proof (G a i). lra.
  - destruct (D2_spec RK ex_ev ex_eo 2 1 eq_refl eq_refl) as (D & HD & _ & V & _). exists D. split; [exact HD|]. split; [reflexivity|].
    intros ix L. apply Q; [exact HD|]. inversion L as [|a ? r ? La H1]; subst. inversion H1 as [|b ? r1 ? Lb H2]; subst.
    inversion H2 as [|i ? r2 ? Li H3]; subst. inversion H3 as [|j ? r3 ? Lj H4]; subst. inversion H4; subst.
    rewrite V by assumption. cbn [csub cadd RK]. pose proof (G a i). pose proof (G b j). lra.
  - destruct (D2u_spec RK ex_ev ex_ev ex_eo ex_eo 2 2 1 1 eq_refl eq_refl eq_refl eq_refl) as (D & HD & _ & V). exists D. split; [exact HD|]. split; [reflexivity|].
    intros ix L. apply Q; [exact HD|]. inversion L as [|a ? r ? La H1]; subst. inversion H1 as [|b ? r1 ? Lb H2]; subst.
    inversion H2 as [|i ? r2 ? Li H3]; subst. inversion H3 as [|j ? r3 ? Lj H4]; subst. inversion H4; subst.
    rewrite V by assumption. cbn [csub cadd RK]. pose proof (G a i). pose proof (G b j). lra.
  - split.
    + intros Z. pose proof (Z 0%nat 0%nat ltac:(lia) ltac:(lia)) as X. cbn in X. lra.
    + intros Z. pose proof (Z 0%nat 0%nat 0%nat 1%nat ltac:(lia) ltac:(lia) ltac:(lia) ltac:(lia)) as X. cbn in X. lra.
Qed.
