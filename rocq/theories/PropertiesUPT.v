(** C89: second order perturbation theory over spatial orbitals and two spins:
    final statements.  Vocabulary: CISpec.v, CIExpSpec.v (determinants, operator
    products), UFockSpec.v ([u_hamiltonian], [H_spatial_op], [u_cluster]),
    PTSpec.v ([diagonal], [eigenstate], [first_order]), UPTSpec.v
    ([orbital_energy], [two_spins], [quotient]), CCSpec.v (inputs of the program,
    [returns]), UtilsModel.v ([D1], [D2], [D2u]: the arrays of energy
    denominators that cqcpy/utils.py makes, characterised by C42). *)
From Coq Require Import List String ZArith QArith Qcanon Lia.
From Verif Require Import Scalar Tensor PySyntax PySem CCProg CISpec CIExpSpec CCSpec CCFockSpec SpinSpec CCExamples UFockSpec.
From Verif Require Import UtilsModel PTSpec UPTSpec UExamples UPT PropertiesPT.
Import ListNotations.
Local Open Scope string_scope.

Section Statement.
  Variable K : cring.
  Local Open Scope K_scope.
  Variables n noa nva nob nvb : nat.
  Variables ha hb : nat -> nat -> K.
  Variables Ia Ib Iab : nat -> nat -> nat -> nat -> K.
  Variables Fa Fb : one_e K.
  Variables Iaa Ibb : two_e K.
  Variable J : two_e_full K.
  Variables eo_a ev_a eo_b ev_b : tensor K.
  Variables T1a T1b T2aa T2ab T2bb : tensor K.

  (** The inputs: the arguments Fa ... J for the integrals ha ... Iab, orbital
      energies of each spin, and amplitudes that are the integrals over the
      denominators of D1, D2 and D2u *)
  Definition ump_inputs : Prop :=
    u_hamiltonian n noa nva nob nvb ha hb Ia Ib Iab Fa Fb Iaa Ibb J /\
    shp eo_a = [noa] /\ shp ev_a = [nva] /\ shp eo_b = [nob] /\ shp ev_b = [nvb] /\
    (exists D, D1 ev_a eo_a = Some D /\ quotient [nva; noa] (vo Fa) D T1a) /\
    (exists D, D1 ev_b eo_b = Some D /\ quotient [nvb; nob] (vo Fb) D T1b) /\
    (exists D, D2 ev_a eo_a = Some D /\ quotient [nva; nva; noa; noa] (vvoo Iaa) D T2aa) /\
    (exists D, D2u ev_a ev_b eo_a eo_b = Some D /\ quotient [nva; nvb; noa; nob] (fvvoo J) D T2ab) /\
    (exists D, D2 ev_b eo_b = Some D /\ quotient [nvb; nvb; nob; nob] (vvoo Ibb) D T2bb).
End Statement.
Arguments ump_inputs {K}.

(** C89: |0> has the first noa alpha orbitals and the first nob beta orbitals,
    H0 = sum over spins s and orbitals p of e_ps a+_ps a_ps and V = H - H0.  The
    amplitudes give the first order wave function T|0> ... *)
Theorem C89_first_order_wave_function (K : cring) n noa nva nob nvb ha hb Ia Ib Iab Fa Fb Iaa Ibb J eo_a ev_a eo_b ev_b T1a T1b T2aa T2ab T2bb :
  ump_inputs (K := K) n noa nva nob nvb ha hb Ia Ib Iab Fa Fb Iaa Ibb J eo_a ev_a eo_b ev_b T1a T1b T2aa T2ab T2bb ->
  let ref := (aufbau n noa ++ aufbau n nob)%list in
  let H0 := diagonal (n + n) (two_spins n (orbital_energy noa eo_a ev_a) (orbital_energy nob eo_b ev_b)) in
  let V := minus (H_spatial_op n ha hb Ia Ib Iab) H0 in
  let E0 := (sumN noa (fun i => dat eo_a [i]) + sumN nob (fun i => dat eo_b [i]))%K in
  eigenstate (n + n) ref H0 E0 /\
  first_order (n + n) ref H0 V E0 (amp ref V ref) (u_cluster n noa nva nob nvb T1a T1b T2aa T2ab T2bb).
Proof.
  intros (HU & Soa & Sva & Sob & Svb & (Da & Ha & Qa) & (Db & Hb & Qb) & (Daa & Haa & Qaa) & (Dab & Hab & Qab) & (Dbb & Hbb & Qbb)).
  destruct (u_pt K n noa nva nob nvb ha hb Ia Ib Iab Fa Fb Iaa Ibb J eo_a ev_a eo_b ev_b Da Db Daa Dab Dbb T1a T1b T2aa T2ab T2bb
    HU Soa Sva Sob Svb Ha Hb Haa Hab Hbb Qa Qb Qaa Qab Qbb) as (X & Y & _). exact (conj X Y).
Qed.
Print Assumptions C89_first_order_wave_function.

(** ... and ump2_energy returns the second order energy <0|V|1> of every first
    order wave function |1>. *)
Theorem C89_second_order_energy (K : cring) n noa nva nob nvb ha hb Ia Ib Iab Fa Fb Iaa Ibb J eo_a ev_a eo_b ev_b T1a T1b T2aa T2ab T2bb :
  ump_inputs (K := K) n noa nva nob nvb ha hb Ia Ib Iab Fa Fb Iaa Ibb J eo_a ev_a eo_b ev_b T1a T1b T2aa T2ab T2bb ->
  let ref := (aufbau n noa ++ aufbau n nob)%list in
  let H0 := diagonal (n + n) (two_spins n (orbital_energy noa eo_a ev_a) (orbital_energy nob eo_b ev_b)) in
  let V := minus (H_spatial_op n ha hb Ia Ib Iab) H0 in
  let E0 := (sumN noa (fun i => dat eo_a [i]) + sumN nob (fun i => dat eo_b [i]))%K in
  exists e,
    returns "ump2_energy" [tup [arr T1a; arr T1b]; tup [arr T2aa; arr T2ab; arr T2bb];
      arr (ov Fa); arr (ov Fb); arr (oovv Iaa); arr (oovv Ibb); arr (foovv J)] (numv e) /\
    forall Psi, first_order (n + n) ref H0 V E0 (amp ref V ref) Psi -> amp ref (opmul V Psi) ref = e.
Proof.
  intros (HU & Soa & Sva & Sob & Svb & (Da & Ha & Qa) & (Db & Hb & Qb) & (Daa & Haa & Qaa) & (Dab & Hab & Qab) & (Dbb & Hbb & Qbb)).
  destruct (u_pt K n noa nva nob nvb ha hb Ia Ib Iab Fa Fb Iaa Ibb J eo_a ev_a eo_b ev_b Da Db Daa Dab Dbb T1a T1b T2aa T2ab T2bb
    HU Soa Sva Sob Svb Ha Hb Haa Hab Hbb Qa Qb Qaa Qab Qbb) as (_ & _ & Z). exact Z.
Qed.
Print Assumptions C89_second_order_energy.

(** A concrete case: four orbitals, two alpha electrons and one beta electron,
    with the integrals of C58; the alpha energies are 3, 4, 20, 21, the beta
    energies 2, 17, 18, 19.  The amplitudes are the quotients. *)
Definition uptT1a := pt_quot (vo (uFa x4)) (D1 (pt_en 2 20) (pt_en 2 3)).
Definition uptT1b := pt_quot (vo (uFb x4)) (D1 (pt_en 3 17) (pt_en 1 2)).
Definition uptT2aa := pt_quot (vvoo (uIaa x4)) (D2 (pt_en 2 20) (pt_en 2 3)).
Definition uptT2ab := pt_quot (fvvoo (uJ x4)) (D2u (pt_en 2 20) (pt_en 3 17) (pt_en 2 3) (pt_en 1 2)).
Definition uptT2bb := pt_quot (vvoo (uIbb x4)) (D2 (pt_en 3 17) (pt_en 1 2)).
Definition upt_value : option Q :=
  match pycall (conc_alg QcK) cc_prog "ump2_energy" [tup [arr uptT1a; arr uptT1b]; tup [arr uptT2aa; arr uptT2ab; arr uptT2bb];
    arr (ov (uFa x4)); arr (ov (uFb x4)); arr (oovv (uIaa x4)); arr (oovv (uIbb x4)); arr (foovv (uJ x4))] with
  | Ok (XNum v, _) => Some (this v)
  | _ => None
  end.
Lemma pt_quot_ok sh (V D : tensor QcK) : shp V = sh -> (forall idx, Forall2 lt idx sh -> dat D idx <> Q2Qc 0) ->
  quotient sh V D (pt_quot V (Some D)).
Proof.
  intros S N. split; [exact S|]. intros idx L. specialize (N idx L). split; [exists (Qcinv (dat D idx)); exact (Qcmult_inv_l _ N)|].
  cbn [pt_quot dat]. change ((- (dat V idx / dat D idx) * dat D idx = - dat V idx)%Qc). field. exact N.
Qed.
Lemma in2_inv idx m k : Forall2 lt idx [m; k] -> exists a i, idx = [a; i] /\ (a < m)%nat /\ (i < k)%nat.
Proof.
  intros H. inversion H as [|a ? r ? La H1]; subst. inversion H1 as [|i ? r1 ? Li H2]; subst. inversion H2; subst.
  exists a, i. auto.
Qed.
Lemma in4_inv idx m k m' k' : Forall2 lt idx [m; k; m'; k'] ->
  exists a b i j, idx = [a; b; i; j] /\ (a < m)%nat /\ (b < k)%nat /\ (i < m')%nat /\ (j < k')%nat.
Proof.
  intros H. inversion H as [|a ? r ? La H1]; subst. inversion H1 as [|b ? r1 ? Lb H2]; subst.
  destruct (in2_inv _ _ _ H2) as (i & j & -> & Li & Lj). exists a, b, i, j. auto.
Qed.
Example C89_example :
  ump_inputs (K := QcK) 4 2 2 1 3 (z2 x4_ha) (z2 x4_hb) (z4 x4_Ia) (z4 x4_Ib) (z4 x4_Iab) (uFa x4) (uFb x4) (uIaa x4) (uIbb x4) (uJ x4)
    (pt_en 2 3) (pt_en 2 20) (pt_en 1 2) (pt_en 3 17) uptT1a uptT1b uptT2aa uptT2ab uptT2bb /\
  upt_value = Some (-24542999 # 4173840)%Q.
Proof.
  split.
  - split.
    { apply build_ok; try reflexivity; intros p q r s Lp Lq Lr Ls; unfold z4; f_equal;
        do 4 (destruct p as [|p]; [do 4 (destruct q as [|q]; [do 4 (destruct r as [|r]; [do 4 (destruct s as [|s]; [vm_compute; reflexivity|]); lia|]); lia|]); lia|]); lia. }
    do 4 (split; [reflexivity|]).
    split; [|split; [|split; [|split]]]; eexists; (split; [reflexivity|]); apply pt_quot_ok; try reflexivity; intros idx L.
    + apply in2_inv in L. destruct L as (a & i & -> & La & Li).
      do 2 (destruct a as [|a]; [do 2 (destruct i as [|i]; [intros X; vm_compute in X; discriminate|]); lia|]); lia.
    + apply in2_inv in L. destruct L as (a & i & -> & La & Li).
      do 3 (destruct a as [|a]; [do 1 (destruct i as [|i]; [intros X; vm_compute in X; discriminate|]); lia|]); lia.
    + apply in4_inv in L. destruct L as (a & b & i & j & -> & La & Lb & Li & Lj).
      do 2 (destruct a as [|a]; [do 2 (destruct b as [|b]; [do 2 (destruct i as [|i]; [do 2 (destruct j as [|j]; [intros X; vm_compute in X; discriminate|]); lia|]); lia|]); lia|]); lia.
    + apply in4_inv in L. destruct L as (a & b & i & j & -> & La & Lb & Li & Lj).
      do 2 (destruct a as [|a]; [do 3 (destruct b as [|b]; [do 2 (destruct i as [|i]; [do 1 (destruct j as [|j]; [intros X; vm_compute in X; discriminate|]); lia|]); lia|]); lia|]); lia.
    + apply in4_inv in L. destruct L as (a & b & i & j & -> & La & Lb & Li & Lj).
      do 3 (destruct a as [|a]; [do 3 (destruct b as [|b]; [do 1 (destruct i as [|i]; [do 1 (destruct j as [|j]; [intros X; vm_compute in X; discriminate|]); lia|]); lia|]); lia|]); lia.
  - vm_compute. reflexivity.
Qed.
