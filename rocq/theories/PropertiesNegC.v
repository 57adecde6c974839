(** C100 for complex orbitals and for crystals.  Vocabulary: NegCSpec.v (adjoints,
    moduli, gaps), UPTSpec.v ([quotient]), CCSpec.v ([returns]), KSpec.v and
    IntegralsSpec.v (crystals). *)
From Coq Require Import List String Arith ZArith Lia Reals Lra.
From Verif Require Import Scalar Tensor PySyntax PySem CCProg CCSpec UtilsModel UtilsFacts UPTSpec RoundSpec NegSpec Neg NegCSpec NegC
  PropertiesCC PropertiesRPT IntegralsModel IntegralsSpec KSpec KModel KFacts KProofs RPTSpec.
Import ListNotations.
Local Open Scope string_scope.
Local Open Scope R_scope.

(** one block of singles or doubles *)
Lemma c_singles no nv (eo ev V W T : tensor CK) g D : shp eo = [no] -> shp ev = [nv] -> real_gap no nv eo ev g -> adjoint2 no nv V W ->
  D1 ev eo = Some D -> quotient [nv; no] V D T ->
  let e : CK := sumN no (fun i => sumN nv (fun a => dat W [i; a] * dat T [a; i]))%K in
  snd e = 0 /\ fst e <= 0 /\ - (/ g * moduli2 no nv W) <= fst e /\ (fst e = 0 <-> vanish2 no nv W).
Proof.
  intros So Sv (Hg & Ro & Rv & Gap) (SW & A) H (ST & Q) e.
  destruct (D1_spec CK ev eo nv no Sv So) as (D' & H' & _ & VD). rewrite H in H'. injection H' as <-.
  assert (F := fineC2 no nv (/ g) (fun i a => dat V [a; i]) (fun i a => (dat W [i; a] * dat T [a; i])%K)).
  cbv zeta in F. fold e in F. destruct F as (F1 & F2 & F3 & F4).
  { intros i a Hi Ha. rewrite A by assumption. apply (termC g (dat D [a; i])); [exact Hg| | |exact (proj2 (Q [a; i] ltac:(repeat constructor; assumption)))].
    - rewrite VD by assumption. pose proof (Gap a i Ha Hi).
      change (g <= real_part (dat ev [a]) - real_part (dat eo [i])). lra.
    - rewrite VD by assumption. pose proof (Ro i Hi). pose proof (Rv a Ha).
      change (imaginary_part (dat ev [a]) - imaginary_part (dat eo [i]) = 0). lra. }
  split; [exact F1|]. split; [exact F2|]. split.
  - replace (moduli2 no nv W) with (Sum2 no nv (fun i a => modulus2 (dat V [a; i]))); [exact F3|].
    unfold Sum2, moduli2. apply Sum_ext. intros i Hi. apply Sum_ext. intros a Ha. rewrite A by assumption. symmetry. apply m2_conj.
  - refine (iff_trans F4 _). split; intros Z i a Hi Ha.
    + rewrite A by assumption. apply conj_0, Z; assumption.
    + apply conj_0. rewrite <- A by assumption. apply Z; assumption.
Qed.
Lemma c_doubles no no' nv nv' (V W T D : tensor CK) g : 0 < g ->
  (forall i j a b, (i < no)%nat -> (j < no')%nat -> (a < nv)%nat -> (b < nv')%nat -> 2 * g <= fst (dat D [a; b; i; j]) /\ snd (dat D [a; b; i; j]) = 0) ->
  adjoint4 no no' nv nv' V W -> quotient [nv; nv'; no; no'] V D T ->
  let e : CK := sumN no (fun i => sumN no' (fun j => sumN nv (fun a => sumN nv' (fun b => dat W [i; j; a; b] * dat T [a; b; i; j]))))%K in
  snd e = 0 /\ fst e <= 0 /\ - (/ (2 * g) * moduli4 no no' nv nv' W) <= fst e /\ (fst e = 0 <-> vanish4 no no' nv nv' W).
Proof.
  intros Hg Gap (SW & A) (ST & Q) e.
  assert (F := fineC4 no no' nv nv' (/ (2 * g)) (fun i j a b => dat V [a; b; i; j]) (fun i j a b => (dat W [i; j; a; b] * dat T [a; b; i; j])%K)).
  cbv zeta in F. fold e in F. destruct F as (F1 & F2 & F3 & F4).
  { intros i j a b Hi Hj Ha Hb. rewrite A by assumption. destruct (Gap i j a b Hi Hj Ha Hb) as [G1 G2].
    apply (termC (2 * g) (dat D [a; b; i; j])); [lra|exact G1|exact G2|exact (proj2 (Q [a; b; i; j] ltac:(repeat constructor; assumption)))]. }
  split; [exact F1|]. split; [exact F2|]. split.
  - replace (moduli4 no no' nv nv' W) with (Sum4 no no' nv nv' (fun i j a b => modulus2 (dat V [a; b; i; j]))); [exact F3|].
    unfold Sum4, moduli4. apply Sum_ext. intros i Hi. apply Sum_ext. intros j Hj. apply Sum_ext. intros a Ha. apply Sum_ext. intros b Hb.
    rewrite A by assumption. symmetry. apply m2_conj.
  - refine (iff_trans F4 _). split; intros Z i j a b Hi Hj Ha Hb.
    + rewrite A by assumption. apply conj_0, Z; assumption.
    + apply conj_0. rewrite <- A by assumption. apply Z; assumption.
Qed.
Lemma D2_gap no nv (eo ev D : tensor CK) g : shp eo = [no] -> shp ev = [nv] -> real_gap no nv eo ev g -> D2 ev eo = Some D ->
  forall i j a b, (i < no)%nat -> (j < no)%nat -> (a < nv)%nat -> (b < nv)%nat -> 2 * g <= fst (dat D [a; b; i; j]) /\ snd (dat D [a; b; i; j]) = 0.
Proof.
  intros So Sv (Hg & Ro & Rv & Gap) H i j a b Hi Hj Ha Hb. destruct (D2_spec CK ev eo nv no Sv So) as (D' & H' & _ & VD & _). rewrite H in H'. injection H' as <-.
  rewrite VD by assumption. pose proof (Gap a i Ha Hi). pose proof (Gap b j Hb Hj). pose proof (Ro i Hi). pose proof (Ro j Hj). pose proof (Rv a Ha). pose proof (Rv b Hb).
  change (2 * g <= real_part (dat ev [a]) + real_part (dat ev [b]) - real_part (dat eo [i]) - real_part (dat eo [j]) /\
    imaginary_part (dat ev [a]) + imaginary_part (dat ev [b]) - imaginary_part (dat eo [i]) - imaginary_part (dat eo [j]) = 0). split; lra.
Qed.
Lemma D2u_gap noa nva nob nvb (ea va eb vb D : tensor CK) g : shp ea = [noa] -> shp va = [nva] -> shp eb = [nob] -> shp vb = [nvb] ->
  real_gap noa nva ea va g -> real_gap nob nvb eb vb g -> D2u va vb ea eb = Some D ->
  forall i j a b, (i < noa)%nat -> (j < nob)%nat -> (a < nva)%nat -> (b < nvb)%nat -> 2 * g <= fst (dat D [a; b; i; j]) /\ snd (dat D [a; b; i; j]) = 0.
Proof.
  intros Sa Sva Sb Svb (Hg & Ro & Rv & Gap) (_ & Ro' & Rv' & Gap') H i j a b Hi Hj Ha Hb.
  destruct (D2u_spec CK va vb ea eb nva nvb noa nob Sva Svb Sa Sb) as (D' & H' & _ & VD). rewrite H in H'. injection H' as <-.
  rewrite VD by assumption. pose proof (Gap a i Ha Hi). pose proof (Gap' b j Hb Hj). pose proof (Ro i Hi). pose proof (Ro' j Hj). pose proof (Rv a Ha). pose proof (Rv' b Hb).
  change (2 * g <= real_part (dat va [a]) + real_part (dat vb [b]) - real_part (dat ea [i]) - real_part (dat eb [j]) /\
    imaginary_part (dat va [a]) + imaginary_part (dat vb [b]) - imaginary_part (dat ea [i]) - imaginary_part (dat eb [j]) = 0). split; lra.
Qed.
Lemma quarter_fst (x : CK) : fst (quarter * x)%K = / 4 * fst x.
Proof. unfold quarter. cbn. field. Qed.
Lemma quarter_snd (x : CK) : snd (quarter * x)%K = / 4 * snd x.
Proof. unfold quarter. cbn. field. Qed.

Add Ring CrPNC : (c_th CK).
Lemma cmul_0_r (x : CK) : (x * 0 = 0)%K. Proof. ring. Qed.
Lemma cadd_0_l (x : CK) : (0 + x = x)%K. Proof. ring. Qed.
Lemma cadd_0_r (x : CK) : (x + 0 = x)%K. Proof. ring. Qed.

(** C100 with complex orbitals: the energy is real. *)
Theorem C100_complex_mp2 no nv (eo ev fvo fov V W T1 T2 : tensor CK) g :
  shp eo = [no] -> shp ev = [nv] -> real_gap no nv eo ev g ->
  adjoint2 no nv fvo fov -> adjoint4 no no nv nv V W ->
  (exists D, D1 ev eo = Some D /\ quotient [nv; no] fvo D T1) ->
  (exists D, D2 ev eo = Some D /\ quotient [nv; nv; no; no] V D T2) ->
  exists e : CK, returns (K := CK) "mp2_energy" [arr T1; arr T2; arr fov; arr W] (numv e) /\
    imaginary_part e = 0 /\ real_part e <= 0 /\
    - (moduli2 no nv fov / g + moduli4 no no nv nv W / (8 * g)) <= real_part e /\
    (e = (0, 0) <-> vanish2 no nv fov /\ vanish4 no no nv nv W).
Proof.
  intros So Sv Gap Af AV (Da & Ha & Qa) (Db & Hb & Qb).
  eexists. split; [exact (proj2 (C11_cc_energy_formula CK no nv T1 T2 fov W (proj1 Qa) (proj1 Qb) (proj1 Af) (proj1 AV)))|].
  destruct (c_singles no nv eo ev fvo fov T1 g Da So Sv Gap Af Ha Qa) as (A1 & A2 & A3 & A4).
  destruct (c_doubles no no nv nv V W T2 Db g (proj1 Gap) (D2_gap no nv eo ev Db g So Sv Gap Hb) AV Qb) as (B1 & B2 & B3 & B4).
  set (s1 := sumN no (fun i => sumN nv (fun a => (dat fov [i; a] * dat T1 [a; i])%K))) in *.
  set (d := sumN no (fun i => sumN no (fun j => sumN nv (fun a => sumN nv (fun b => (dat W [i; j; a; b] * dat T2 [a; b; i; j])%K))))) in *.
  clearbody s1 d. destruct Gap as (Hg & _).
  assert (F : fst (s1 + quarter * d)%K = fst s1 + / 4 * fst d) by (rewrite <- quarter_fst; reflexivity).
  assert (S : snd (s1 + quarter * d)%K = snd s1 + / 4 * snd d) by (rewrite <- quarter_snd; reflexivity).
  unfold imaginary_part, real_part. rewrite F, S. split; [lra|]. split; [lra|]. split.
  - replace (moduli2 no nv fov / g) with (/ g * moduli2 no nv fov) by (field; lra).
    replace (moduli4 no no nv nv W / (8 * g)) with (/ 4 * (/ (2 * g) * moduli4 no no nv nv W)) by (field; lra). lra.
  - split.
    + intros E. assert (E' : fst s1 + / 4 * fst d = 0) by (rewrite <- F, E; reflexivity). split; [apply A4; lra|apply B4; lra].
    + intros [Z1 Z2]. apply injective_projections; cbn [fst snd]; [rewrite F|rewrite S; lra]. rewrite (proj2 A4 Z1), (proj2 B4 Z2). lra.
Qed.
Print Assumptions C100_complex_mp2.

Theorem C100_complex_ump2 noa nva nob nvb (eo_a ev_a eo_b ev_b fvo_a fov_a fvo_b fov_b Va Wa Vb Wb Vab Wab T1a T1b T2aa T2ab T2bb : tensor CK) g :
  shp eo_a = [noa] -> shp ev_a = [nva] -> shp eo_b = [nob] -> shp ev_b = [nvb] ->
  real_gap noa nva eo_a ev_a g -> real_gap nob nvb eo_b ev_b g ->
  adjoint2 noa nva fvo_a fov_a -> adjoint2 nob nvb fvo_b fov_b ->
  adjoint4 noa noa nva nva Va Wa -> adjoint4 nob nob nvb nvb Vb Wb -> adjoint4 noa nob nva nvb Vab Wab ->
  (exists D, D1 ev_a eo_a = Some D /\ quotient [nva; noa] fvo_a D T1a) ->
  (exists D, D1 ev_b eo_b = Some D /\ quotient [nvb; nob] fvo_b D T1b) ->
  (exists D, D2 ev_a eo_a = Some D /\ quotient [nva; nva; noa; noa] Va D T2aa) ->
  (exists D, D2 ev_b eo_b = Some D /\ quotient [nvb; nvb; nob; nob] Vb D T2bb) ->
  (exists D, D2u ev_a ev_b eo_a eo_b = Some D /\ quotient [nva; nvb; noa; nob] Vab D T2ab) ->
  exists e : CK, returns (K := CK) "ump2_energy" [tup [arr T1a; arr T1b]; tup [arr T2aa; arr T2ab; arr T2bb];
      arr fov_a; arr fov_b; arr Wa; arr Wb; arr Wab] (numv e) /\
    imaginary_part e = 0 /\ real_part e <= 0 /\
    - (moduli2 noa nva fov_a / g + moduli2 nob nvb fov_b / g + moduli4 noa noa nva nva Wa / (8 * g)
       + moduli4 nob nob nvb nvb Wb / (8 * g) + moduli4 noa nob nva nvb Wab / (2 * g)) <= real_part e /\
    (e = (0, 0) <-> vanish2 noa nva fov_a /\ vanish2 nob nvb fov_b /\
       vanish4 noa noa nva nva Wa /\ vanish4 nob nob nvb nvb Wb /\ vanish4 noa nob nva nvb Wab).
Proof.
  intros Soa Sva Sob Svb Ga Gb Afa Afb AVa AVb AVab (D1a & H1a & Q1a) (D1b & H1b & Q1b) (D2a & H2a & Q2a) (D2b & H2b & Q2b) (D2ab & H2ab & Q2ab).
  eexists. split; [exact (proj2 (C11_ucc_energy_formula CK noa nva nob nvb T1a T1b T2aa T2ab T2bb fov_a fov_b Wa Wb Wab
    (proj1 Q1a) (proj1 Q1b) (proj1 Q2a) (proj1 Q2ab) (proj1 Q2b) (proj1 Afa) (proj1 Afb) (proj1 AVa) (proj1 AVb) (proj1 AVab)))|].
  destruct (c_singles noa nva eo_a ev_a fvo_a fov_a T1a g D1a Soa Sva Ga Afa H1a Q1a) as (A1 & A2 & A3 & A4).
  destruct (c_singles nob nvb eo_b ev_b fvo_b fov_b T1b g D1b Sob Svb Gb Afb H1b Q1b) as (B1 & B2 & B3 & B4).
  destruct (c_doubles noa noa nva nva Va Wa T2aa D2a g (proj1 Ga) (D2_gap noa nva eo_a ev_a D2a g Soa Sva Ga H2a) AVa Q2a) as (C1 & C2 & C3 & C4).
  destruct (c_doubles nob nob nvb nvb Vb Wb T2bb D2b g (proj1 Gb) (D2_gap nob nvb eo_b ev_b D2b g Sob Svb Gb H2b) AVb Q2b) as (E1 & E2 & E3 & E4).
  destruct (c_doubles noa nob nva nvb Vab Wab T2ab D2ab g (proj1 Ga) (D2u_gap noa nva nob nvb eo_a ev_a eo_b ev_b D2ab g Soa Sva Sob Svb Ga Gb H2ab) AVab Q2ab) as (F1 & F2 & F3 & F4).
  cbv beta.
  set (sa := sumN noa (fun i => sumN nva (fun a => (dat fov_a [i; a] * dat T1a [a; i])%K))) in *.
  set (sb := sumN nob (fun i => sumN nvb (fun a => (dat fov_b [i; a] * dat T1b [a; i])%K))) in *.
  set (da := sumN noa (fun i => sumN noa (fun j => sumN nva (fun a => sumN nva (fun b => (dat Wa [i; j; a; b] * dat T2aa [a; b; i; j])%K))))) in *.
  set (db := sumN nob (fun i => sumN nob (fun j => sumN nvb (fun a => sumN nvb (fun b => (dat Wb [i; j; a; b] * dat T2bb [a; b; i; j])%K))))) in *.
  set (dab := sumN noa (fun i => sumN nob (fun j => sumN nva (fun a => sumN nvb (fun b => (dat Wab [i; j; a; b] * dat T2ab [a; b; i; j])%K))))) in *.
  clearbody sa sb da db dab. destruct Ga as (Hg & _).
  set (e := (sa + sb + (quarter * da + quarter * db + dab))%K).
  assert (F : fst e = fst sa + fst sb + (/ 4 * fst da + / 4 * fst db + fst dab)) by (rewrite <- !quarter_fst; reflexivity).
  assert (S : snd e = snd sa + snd sb + (/ 4 * snd da + / 4 * snd db + snd dab)) by (rewrite <- !quarter_snd; reflexivity).
  clearbody e. unfold imaginary_part, real_part. rewrite F, S. split; [lra|]. split; [lra|]. split.
  - replace (moduli2 noa nva fov_a / g) with (/ g * moduli2 noa nva fov_a) by (field; lra).
    replace (moduli2 nob nvb fov_b / g) with (/ g * moduli2 nob nvb fov_b) by (field; lra).
    replace (moduli4 noa noa nva nva Wa / (8 * g)) with (/ 4 * (/ (2 * g) * moduli4 noa noa nva nva Wa)) by (field; lra).
    replace (moduli4 nob nob nvb nvb Wb / (8 * g)) with (/ 4 * (/ (2 * g) * moduli4 nob nob nvb nvb Wb)) by (field; lra).
    replace (moduli4 noa nob nva nvb Wab / (2 * g)) with (/ (2 * g) * moduli4 noa nob nva nvb Wab) by (field; lra). lra.
  - split.
    + intros Z. assert (E' : fst e = 0) by (rewrite Z; reflexivity). rewrite F in E'.
      split; [apply A4; lra|]. split; [apply B4; lra|]. split; [apply C4; lra|]. split; [apply E4; lra|apply F4; lra].
    + intros (Z1 & Z2 & Z3 & Z4 & Z5). apply injective_projections; cbn [fst snd]; [rewrite F|rewrite S; lra].
      rewrite (proj2 A4 Z1), (proj2 B4 Z2), (proj2 C4 Z3), (proj2 E4 Z4), (proj2 F4 Z5). lra.
Qed.
Print Assumptions C100_complex_ump2.

Theorem C100_complex_closed_shell no nv (eo ev fov V W T2 : tensor CK) g :
  shp eo = [no] -> shp ev = [nv] -> real_gap no nv eo ev g ->
  shp fov = [no; nv] -> adjoint4 no no nv nv V W ->
  (exists D, D2 ev eo = Some D /\ quotient [nv; nv; no; no] V D T2) ->
  exists e : CK, returns (K := CK) "rcc_energy" [arr (tzeros CK [nv; no]); arr T2; arr fov; arr W] (numv e) /\
    imaginary_part e = 0 /\ real_part e <= 0 /\ - (3 * moduli4 no no nv nv W / (2 * g)) <= real_part e /\
    (e = (0, 0) <-> vanish4 no no nv nv W).
Proof.
  intros So Sv Gap Sf (SW & AV) (D & HD & (S2 & Q)).
  eexists. split; [exact (C11_rcc_energy_formula CK no nv (tzeros CK [nv; no]) T2 fov W eq_refl S2 Sf SW)|].
  destruct (D2_spec CK ev eo nv no Sv So) as (D' & HD' & _ & VD & _). rewrite HD in HD'. injection HD' as <-.
  assert (G2 := D2_gap no nv eo ev D g So Sv Gap HD). destruct Gap as (Hg & _).
  assert (P := pair_sumC4 no nv (2 * g) (fun i j a b => fst (dat D [a; b; i; j])) (fun i j a b => dat T2 [a; b; i; j])
    (fun i j a b => dat V [a; b; i; j]) (fun i j a b => dat W [i; j; a; b]) ltac:(lra)).
  cbv zeta beta in P.
  match goal with |- imaginary_part ?x = 0 /\ _ => set (e := x) end.
  match type of P with _ -> snd ?x = 0 /\ _ => assert (E : e = x) end.
  { unfold e. etransitivity; [apply f_equal2; [|reflexivity]; apply f_equal|].
    - transitivity (sumN (K := CK) no (fun _ => c0)).
      + apply sumN_ext. intros i _. transitivity (sumN (K := CK) nv (fun _ => c0)); [|apply sumN_0].
        apply sumN_ext. intros a _. cbn [tzeros dat]. apply cmul_0_r.
      + apply sumN_0.
    - rewrite cmul_0_r, cadd_0_l. apply sumN_ext. intros i _. apply sumN_ext. intros j _. apply sumN_ext. intros a _. apply sumN_ext. intros b _.
      cbn [tzeros dat]. rewrite cmul_0_r, cadd_0_r. reflexivity. }
  rewrite <- E in P. clearbody e. destruct P as (P1 & P2 & P3 & P4).
  { intros i j a b Hi Hj Ha Hb. destruct (G2 i j a b Hi Hj Ha Hb) as (X1 & X2).
    destruct (parts _ _ _ X2 (proj2 (Q [a; b; i; j] ltac:(repeat constructor; assumption)))) as (Y1 & Y2).
    split; [exact X1|]. split; [rewrite !VD by assumption; cbn; ring|]. split; [exact Y1|]. split; [exact Y2|]. apply AV; assumption. }
  unfold imaginary_part, real_part. split; [exact P1|]. split; [exact P2|]. split.
  - replace (3 * moduli4 no no nv nv W / (2 * g)) with (3 * / (2 * g) * moduli4 no no nv nv W) by (field; lra).
    replace (moduli4 no no nv nv W) with (Sum4 no no nv nv (fun i j a b => modulus2 (dat V [a; b; i; j]))); [exact P3|].
    unfold Sum4, moduli4. apply Sum_ext. intros i Hi. apply Sum_ext. intros j Hj. apply Sum_ext. intros a Ha. apply Sum_ext. intros b Hb.
    rewrite AV by assumption. symmetry. apply m2_conj.
  - transitivity (fst e = 0).
    + split; [intros ->; reflexivity|]. intros Z. apply injective_projections; assumption.
    + refine (iff_trans P4 _). split; intros Z i j a b Hi Hj Ha Hb.
      * rewrite AV by assumption. apply conj_0, Z; assumption.
      * apply conj_0. rewrite <- AV by assumption. apply Z; assumption.
Qed.
Print Assumptions C100_complex_closed_shell.

(** The energy that examples/kmp2.py prints, for a crystal with Hermitian
    integrals and a gap. *)
Theorem C100_kmp2 (f : kscf CK) (e : nat -> nat -> R) nocc nvir g :
  let nk := k_n f in
  kscf_ok f -> k_nmo f = (nocc + nvir)%nat -> momentum_group f -> k_hermitian f -> 0 < g ->
  (forall k l a i, (k < nk)%nat -> (l < nk)%nat -> (a < nvir)%nat -> (i < nocc)%nat -> e l i + g <= e k (nocc + a)%nat) ->
  let I := crystal_I f (of_real (R := RK) (/ INR nk)) nocc nvir in
  let no := (nk * nocc)%nat in
  let nv := (nk * nvir)%nat in
  exists E : R, kmp2 (R := RK) Rinv f e nocc = Some E /\ E <= 0 /\
    - (3 * Sum no (fun i => Sum no (fun j => Sum nv (fun a => Sum nv (fun b =>
          modulus2 (I i j (no + a)%nat (no + b)%nat))))) / (2 * g * INR nk)) <= E /\
    (E = 0 <-> forall i j a b, (i < no)%nat -> (j < no)%nat -> (a < nv)%nat -> (b < nv)%nat -> I i j (no + a)%nat (no + b)%nat = (0, 0)).
Proof.
  intros nk Ok M G Herm Hg Gap. cbv zeta.
  destruct (crystal_sign f Herm G nocc nvir e M g Hg Gap) as (_ & A & B & C).
  pose proof (kmp2_value RK Rinv f e nocc nvir Ok M G) as V. rewrite zK_INR in V, A, B, C.
  assert (NP : 0 < INR (k_n f)). { apply lt_0_INR. destruct G as (? & ? & gm & L & _). lia. }
  assert (NI : 0 < / INR (k_n f)) by (apply Rinv_0_lt_compat; exact NP).
  eexists. split; [exact V|].
  set (c := fst _) in *. change (cmul (c : RK) (/ INR (k_n f))) with (c * / INR (k_n f)). clearbody c.
  unfold nk. split; [nra|]. split.
  - unfold Sum4 in B. cbv beta in B. set (S := Sum _ _) in *. clearbody S.
    replace (- (3 * S / (2 * g * INR (k_n f)))) with (- (3 * / (2 * g) * S) * / INR (k_n f)) by (field; split; lra).
    apply Rmult_le_compat_r; lra.
  - rewrite <- C. split; [|intros ->; apply Rmult_0_l]. intros Z. destruct (Rmult_integral _ _ Z) as [Z1|Z1]; [exact Z1|lra].
Qed.
Print Assumptions C100_kmp2.

(** One occupied and one virtual orbital with energies -1 and 1 and complex
    couplings 1 + 2i and 3i. *)
Definition cx_eo : tensor CK := mkT (K := CK) [1]%nat (fun _ => (-1, 0)).
Definition cx_ev : tensor CK := mkT (K := CK) [1]%nat (fun _ => (1, 0)).
Definition cx_f (z : CK) : tensor CK := mkT (K := CK) [1; 1]%nat (fun _ => z).
Definition cx_V (z : CK) : tensor CK := mkT (K := CK) [1; 1; 1; 1]%nat (fun _ => z).
Example C100_complex_example :
  shp cx_eo = [1]%nat /\ shp cx_ev = [1]%nat /\ real_gap 1 1 cx_eo cx_ev 2 /\
  adjoint2 1 1 (cx_f (1, 2)) (cx_f (1, -2)) /\ adjoint4 1 1 1 1 (cx_V (0, 3)) (cx_V (0, -3)) /\
  (exists D, D1 cx_ev cx_eo = Some D /\ quotient [1; 1]%nat (cx_f (1, 2)) D (cx_f (- / 2, -1))) /\
  (exists D, D2 cx_ev cx_eo = Some D /\ quotient [1; 1; 1; 1]%nat (cx_V (0, 3)) D (cx_V (0, - / 4 * 3))) /\
  (exists D, D2u cx_ev cx_ev cx_eo cx_eo = Some D /\ quotient [1; 1; 1; 1]%nat (cx_V (0, 3)) D (cx_V (0, - / 4 * 3))) /\
  ~ vanish2 1 1 (cx_f (1, -2)) /\ ~ vanish4 1 1 1 1 (cx_V (0, -3)).
Proof.
  split; [reflexivity|]. split; [reflexivity|].
  split; [split; [lra|]; split; [reflexivity|]; split; [reflexivity|]; intros; unfold real_part; cbn; lra|].
  split; [split; [reflexivity|]; intros; reflexivity|].
  split; [split; [reflexivity|]; intros; reflexivity|].
  assert (Q2 : forall d : CK, d = csub (c := CK) (csub (c := CK) (cadd (c := CK) (1, 0) (1, 0)) (-1, 0)) (-1, 0) ->
    (exists x : CK, cmul (c := CK) x d = (1, 0)) /\ cmul (c := CK) (0, - / 4 * 3) d = (-0, -(3))).
  { intros d ->. split; [exists (/ 4, 0)|]; apply injective_projections; cbn; field. }
  split; [|split; [|split; [|split]]].
  - destruct (D1_spec CK cx_ev cx_eo 1 1 eq_refl eq_refl) as (D & HD & _ & V). exists D. split; [exact HD|]. split; [reflexivity|].
    intros ix L. inversion L as [|a ? r ? La H1]; subst. inversion H1 as [|i ? r1 ? Li H2]; subst. inversion H2; subst. rewrite V by assumption.
    split; [exists (/ 2, 0)|]; apply injective_projections; cbn; field.
  - destruct (D2_spec CK cx_ev cx_eo 1 1 eq_refl eq_refl) as (D & HD & _ & V & _). exists D. split; [exact HD|]. split; [reflexivity|].
    intros ix L. inversion L as [|a ? r ? La H1]; subst. inversion H1 as [|b ? r1 ? Lb H2]; subst.
    inversion H2 as [|i ? r2 ? Li H3]; subst. inversion H3 as [|j ? r3 ? Lj H4]; subst. inversion H4; subst. apply Q2. apply V; assumption.
  - destruct (D2u_spec CK cx_ev cx_ev cx_eo cx_eo 1 1 1 1 eq_refl eq_refl eq_refl eq_refl) as (D & HD & _ & V). exists D. split; [exact HD|]. split; [reflexivity|].
    intros ix L. inversion L as [|a ? r ? La H1]; subst. inversion H1 as [|b ? r1 ? Lb H2]; subst.
    inversion H2 as [|i ? r2 ? Li H3]; subst. inversion H3 as [|j ? r3 ? Lj H4]; subst. inversion H4; subst. apply Q2. apply V; assumption.
  - intros Z. pose proof (f_equal fst (Z 0%nat 0%nat ltac:(lia) ltac:(lia))) as X. cbn in X. lra.
  - intros Z. pose proof (f_equal snd (Z 0%nat 0%nat 0%nat 0%nat ltac:(lia) ltac:(lia) ltac:(lia) ltac:(lia))) as X. cbn in X. lra.
Qed.

(** Two k-points 0 and 1/2, two orbitals at each, one occupied, with complex
    Hermitian integrals. *)
Definition cx_pair (k l mu nu : nat) : CK := (INR (mu + nu + 1), INR (k + mu) - INR (l + nu)).
Definition cx_k : kscf CK :=
  KScf CK true 2 2 (fun k1 k2 k3 k4 idx => match idx with [mu; nu; la; si] => cx_pair k1 k2 mu nu * cx_pair k3 k4 la si | _ => 0 end)%K
    conj_of (fun a b c => (a + b + c) mod 2)%nat (fun _ => tzeros CK [2; 2]%nat)
    [mkT (K := CK) [2; 2]%nat (fun idx => match idx with [0; 0] | [1; 1] => (1, 0)%R | _ => (0, 0)%R end)%nat;
     mkT (K := CK) [2; 2]%nat (fun idx => match idx with [0; 0] | [1; 1] => (0, 1)%R | _ => (0, 0)%R end)%nat] 2.
Definition cx_e (k p : nat) : R := INR (k + 3 * p).
Example C100_kmp2_example :
  kscf_ok cx_k /\ k_nmo cx_k = (1 + 1)%nat /\ momentum_group cx_k /\ k_hermitian cx_k /\
  (forall k l a i, (k < 2)%nat -> (l < 2)%nat -> (a < 1)%nat -> (i < 1)%nat -> cx_e l i + 2 <= cx_e k (1 + a)%nat) /\
  crystal_I cx_k (of_real (R := RK) (/ INR 2)) 1 1 0 0 2 2 <> (0, 0).
Proof.
  split; [split; [reflexivity|]; split; [reflexivity|]; split; [repeat constructor|reflexivity]|].
  split; [reflexivity|]. split; [|split; [|split]].
  - exists (fun a b => (a + b) mod 2)%nat, (fun a => a), 0%nat. cbn [cx_k k_n kconserv].
    split; [lia|]. split; [|split; [|split]].
    + intros a A. destruct a as [|[|]]; [| |lia]; cbn; lia.
    + intros a b A B. destruct a as [|[|]]; [| |lia]; (destruct b as [|[|]]; [| |lia]); cbn; lia.
    + intros a b c A B C. destruct a as [|[|]]; [| |lia]; (destruct b as [|[|]]; [| |lia]); (destruct c as [|[|]]; [| |lia]); reflexivity.
    + intros a b c A B C. destruct a as [|[|]]; [| |lia]; (destruct b as [|[|]]; [| |lia]); (destruct c as [|[|]]; [| |lia]); reflexivity.
  - split; [reflexivity|]. intros k1 k2 k3 k4 mu nu la si. cbn [cx_k k_eri]. rewrite conj_mul.
    assert (C : forall k l a b, conj_of (cx_pair k l a b) = cx_pair l k b a).
    { intros. unfold conj_of, cx_pair. cbn [fst snd]. rewrite (Nat.add_comm a b). f_equal. ring. }
    rewrite !C. reflexivity.
  - intros k l a i Lk Ll La Li. destruct a; [|lia]. destruct i; [|lia]. destruct k as [|[|]]; [| |lia]; (destruct l as [|[|]]; [| |lia]); unfold cx_e; cbn; lra.
  - intros Z. apply (f_equal fst) in Z. unfold crystal_I, kERI, ERI in Z. cbn in Z. unfold cplx_mul in Z. cbn in Z. lra.
Qed.
