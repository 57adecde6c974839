(** C58 - C61: unrestricted coupled cluster theory over spatial orbitals, and its
    agreement with the CI functions.  Specifications: CISpec.v (determinants,
    operators, [H_spatial], [u_space]), CIExpSpec.v (operator products, cluster
    operators), CCFockSpec.v ([opexp]), UFockSpec.v (the arguments of the
    unrestricted functions in terms of integrals), CCSpec.v, SpinSpec.v (inputs
    of the program, [returns]). *)
From Coq Require Import List String ZArith QArith Factorial Lia.
From Verif Require Import Scalar Tensor PySyntax PySem CCProg CIModel CICfromT CIRep CISpec CIFacts CIExpSpec CCSpec CCFockSpec SpinSpec CCExamples
  UFockSpec UCCSchr CIBases CILemmas CIExpU CIExpG CCCI UExamples.
Import ListNotations.
Local Open Scope string_scope.

(** C58: Ia, Ib, Iab are the integrals <pq|rs> over n spatial orbitals, ha and hb
    the one-electron integrals, |0> the determinant with the first noa alpha and
    nob beta orbitals occupied, |Psi> = exp(T)|0>.  Then <0|H|Psi> is <0|H|0>
    plus the number returned by ucc_energy, for all amplitudes; ... *)
Theorem C58_energy (K : cring) n noa nva nob nvb ha hb Ia Ib Iab Fa Fb Iaa Ibb J T1a T1b T2aa T2ab T2bb inv M :
  u_hamiltonian n noa nva nob nvb ha hb Ia Ib Iab Fa Fb Iaa Ibb J ->
  u_amps_ok noa nva nob nvb T1a T1b T2aa T2ab T2bb -> inverts inv M -> (nva + nvb < M)%nat ->
  let ref := (aufbau n noa ++ aufbau n nob)%list in
  let H := H_spatial_op n ha hb Ia Ib Iab in
  let Psi := opexp inv M (u_cluster n noa nva nob nvb T1a T1b T2aa T2ab T2bb) in
  exists e,
    returns (K := K) "ucc_energy" [tup [arr T1a; arr T1b]; tup [arr T2aa; arr T2ab; arr T2bb];
      arr (ov Fa); arr (ov Fb); arr (oovv Iaa); arr (oovv Ibb); arr (foovv J)] (numv e) /\
    amp ref Psi ref = c1 /\ amp ref (opmul H Psi) ref = (amp ref H ref + e)%K.
Proof.
  intros HU HT HI HM.
  destruct (u_schroedinger K n noa nva nob nvb ha hb Ia Ib Iab Fa Fb Iaa Ibb J HU T1a T1b T2aa T2ab T2bb HT inv M HI HM)
    as (e & ta & tb & aa & ab & bb & He & _ & N & E & _). exact (ex_intro _ e (conj He (conj N E))).
Qed.
Print Assumptions C58_energy.

(** ... the residuals returned by uccsd_stanton are zero if and only if
    <x|H|Psi> = E <x|Psi> for all determinants x reached by at most two
    excitations, where E = <0|H|0> + ucc_energy; ... *)
Theorem C58_projected_schroedinger_equation (K : cring) n noa nva nob nvb ha hb Ia Ib Iab Fa Fb Iaa Ibb J
    T1a T1b T2aa T2ab T2bb inv M :
  u_hamiltonian n noa nva nob nvb ha hb Ia Ib Iab Fa Fb Iaa Ibb J ->
  u_amps_ok noa nva nob nvb T1a T1b T2aa T2ab T2bb -> inverts inv M -> (nva + nvb < M)%nat ->
  let A := aufbau n noa in let B := aufbau n nob in let ref := (A ++ B)%list in
  let H := H_spatial_op n ha hb Ia Ib Iab in
  let Psi := opexp inv M (u_cluster n noa nva nob nvb T1a T1b T2aa T2ab T2bb) in
  exists e ta tb aa ab bb,
    returns (K := K) "ucc_energy" [tup [arr T1a; arr T1b]; tup [arr T2aa; arr T2ab; arr T2bb];
      arr (ov Fa); arr (ov Fb); arr (oovv Iaa); arr (oovv Ibb); arr (foovv J)] (numv e) /\
    returns (K := K) "uccsd_stanton" [py_one_e Fa; py_one_e Fb; py_two_e Iaa; py_two_e Ibb; py_two_e_full J;
        tup [arr T1a; arr T1b]; tup [arr T2aa; arr T2ab; arr T2bb]]
      (tup [tup [arr ta; arr tb]; tup [arr aa; arr ab; arr bb]]) /\
    (u_solved noa nva nob nvb ta tb aa ab bb <->
     forall x, u_space 2 A B x ->
       amp (fst x ++ snd x)%list (opmul H Psi) ref = ((amp ref H ref + e) * amp (fst x ++ snd x)%list Psi ref)%K).
Proof.
  intros HU HT HI HM.
  destruct (u_schroedinger K n noa nva nob nvb ha hb Ia Ib Iab Fa Fb Iaa Ibb J HU T1a T1b T2aa T2ab T2bb HT inv M HI HM)
    as (e & ta & tb & aa & ab & bb & He & HR & _ & _ & Q & _). exists e, ta, tb, aa, ab, bb. exact (conj He (conj HR Q)).
Qed.
Print Assumptions C58_projected_schroedinger_equation.

(** ... and if there are no more than two excitations, solved equations give an
    eigenstate of H in the full space. *)
Theorem C58_exact_for_two_excitations (K : cring) n noa nva nob nvb ha hb Ia Ib Iab Fa Fb Iaa Ibb J
    T1a T1b T2aa T2ab T2bb inv M :
  u_hamiltonian n noa nva nob nvb ha hb Ia Ib Iab Fa Fb Iaa Ibb J ->
  u_amps_ok noa nva nob nvb T1a T1b T2aa T2ab T2bb -> inverts inv M -> (nva + nvb < M)%nat ->
  (Nat.min noa nva + Nat.min nob nvb <= 2)%nat ->
  let ref := (aufbau n noa ++ aufbau n nob)%list in
  let H := H_spatial_op n ha hb Ia Ib Iab in
  let Psi := opexp inv M (u_cluster n noa nva nob nvb T1a T1b T2aa T2ab T2bb) in
  exists e ta tb aa ab bb,
    returns (K := K) "ucc_energy" [tup [arr T1a; arr T1b]; tup [arr T2aa; arr T2ab; arr T2bb];
      arr (ov Fa); arr (ov Fb); arr (oovv Iaa); arr (oovv Ibb); arr (foovv J)] (numv e) /\
    returns (K := K) "uccsd_stanton" [py_one_e Fa; py_one_e Fb; py_two_e Iaa; py_two_e Ibb; py_two_e_full J;
        tup [arr T1a; arr T1b]; tup [arr T2aa; arr T2ab; arr T2bb]]
      (tup [tup [arr ta; arr tb]; tup [arr aa; arr ab; arr bb]]) /\
    amp ref Psi ref = c1 /\
    (u_solved noa nva nob nvb ta tb aa ab bb -> forall t, List.length t = (n + n)%nat ->
       amp t (opmul H Psi) ref = ((amp ref H ref + e) * amp t Psi ref)%K).
Proof.
  intros HU HT HI HM Small.
  destruct (u_schroedinger K n noa nva nob nvb ha hb Ia Ib Iab Fa Fb Iaa Ibb J HU T1a T1b T2aa T2ab T2bb HT inv M HI HM)
    as (e & ta & tb & aa & ab & bb & He & HR & N & _ & _ & Q). exists e, ta, tb, aa, ab, bb.
  exact (conj He (conj HR (conj N (Q Small)))).
Qed.
Print Assumptions C58_exact_for_two_excitations.

(** [H_spatial_op] is the Hamiltonian whose matrix elements the CI functions are
    proved to return (C33, C35); every set of integrals has its arguments. *)
Theorem C58_same_hamiltonian (K : cring) n ha hb Ia Ib Iab s t :
  amp s (H_spatial_op n ha hb Ia Ib Iab) t = H_spatial (K := K) n c0 ha hb Ia Ib Iab s t.
Proof. exact (eq_sym (H_spatial_amp K n ha hb Ia Ib Iab s t)). Qed.
Print Assumptions C58_same_hamiltonian.

Theorem C58_every_hamiltonian (K : cring) n noa nva nob nvb ha hb Ia Ib Iab :
  (noa + nva)%nat = n -> (nob + nvb)%nat = n -> pair_symmetric n Ia -> pair_symmetric n Ib ->
  exists Fa Fb Iaa Ibb J, u_hamiltonian (K := K) n noa nva nob nvb ha hb Ia Ib Iab Fa Fb Iaa Ibb J.
Proof.
  intros Na Nb SA SB. exact (ex_intro _ _ (ex_intro _ _ (ex_intro _ _ (ex_intro _ _ (ex_intro _ _
    (build_ok K n noa nva nob nvb ha hb Ia Ib Iab Na Nb SA SB)))))).
Qed.
Print Assumptions C58_every_hamiltonian.

(** Two orbitals with one electron of each spin, and four orbitals with two alpha
    electrons and one beta electron: amplitudes that solve the equations. *)
Example C58_example :
  u_hamiltonian 2 1 1 1 1 (z2 x2_ha) (z2 x2_hb) (z4 x2_Ia) (z4 x2_Ib) (z4 x2_Iab) (uFa x2) (uFb x2) (uIaa x2) (uIbb x2) (uJ x2) /\
  u_amps_ok 1 1 1 1 (uT1a x2) (uT1b x2) (uT2aa x2) (uT2ab x2) (uT2bb x2) /\
  (Nat.min 1 1 + Nat.min 1 1 <= 2)%nat /\
  (exists ta tb aa ab bb,
    returns (K := QcK) "uccsd_stanton" [py_one_e (uFa x2); py_one_e (uFb x2); py_two_e (uIaa x2); py_two_e (uIbb x2); py_two_e_full (uJ x2);
        tup [arr (uT1a x2); arr (uT1b x2)]; tup [arr (uT2aa x2); arr (uT2ab x2); arr (uT2bb x2)]]
      (tup [tup [arr ta; arr tb]; tup [arr aa; arr ab; arr bb]]) /\ u_solved 1 1 1 1 ta tb aa ab bb) /\
  u_energy x2 = Some 29%Q /\
  u_hamiltonian 4 2 2 1 3 (z2 x4_ha) (z2 x4_hb) (z4 x4_Ia) (z4 x4_Ib) (z4 x4_Iab) (uFa x4) (uFb x4) (uIaa x4) (uIbb x4) (uJ x4) /\
  u_amps_ok 2 2 1 3 (uT1a x4) (uT1b x4) (uT2aa x4) (uT2ab x4) (uT2bb x4) /\
  (exists ta tb aa ab bb,
    returns (K := QcK) "uccsd_stanton" [py_one_e (uFa x4); py_one_e (uFb x4); py_two_e (uIaa x4); py_two_e (uIbb x4); py_two_e_full (uJ x4);
        tup [arr (uT1a x4); arr (uT1b x4)]; tup [arr (uT2aa x4); arr (uT2ab x4); arr (uT2bb x4)]]
      (tup [tup [arr ta; arr tb]; tup [arr aa; arr ab; arr bb]]) /\ u_solved 2 2 1 3 ta tb aa ab bb) /\
  u_energy x4 = Some (-7)%Q.
Proof.
  assert (A2 : u_hamiltonian 2 1 1 1 1 (z2 x2_ha) (z2 x2_hb) (z4 x2_Ia) (z4 x2_Ib) (z4 x2_Iab) (uFa x2) (uFb x2) (uIaa x2) (uIbb x2) (uJ x2)).
  { apply build_ok; try reflexivity; intros p q r s _ _ _ _; unfold z4; f_equal; unfold x2_Ib, x2_Ia; lia. }
  assert (A4 : u_hamiltonian 4 2 2 1 3 (z2 x4_ha) (z2 x4_hb) (z4 x4_Ia) (z4 x4_Ib) (z4 x4_Iab) (uFa x4) (uFb x4) (uIaa x4) (uIbb x4) (uJ x4)).
  { apply build_ok; try reflexivity; intros p q r s Lp Lq Lr Ls; unfold z4; f_equal;
      do 4 (destruct p as [|p]; [do 4 (destruct q as [|q]; [do 4 (destruct r as [|r]; [do 4 (destruct s as [|s]; [vm_compute; reflexivity|]); lia|]); lia|]); lia|]); lia. }
  assert (B2 : u_amps_ok 1 1 1 1 (uT1a x2) (uT1b x2) (uT2aa x2) (uT2ab x2) (uT2bb x2)).
  { repeat split; first [apply fill4_lead|apply fill4_tail]; intros; reflexivity. }
  assert (B4 : u_amps_ok 2 2 1 3 (uT1a x4) (uT1b x4) (uT2aa x4) (uT2ab x4) (uT2bb x4)).
  { repeat split; first [apply fill4_lead|apply fill4_tail]; intros; try reflexivity; ring. }
  assert (I : forall M, inverts qinv M) by (intros M k _; apply qinv_ok, lt_O_fact).
  destruct (C58_projected_schroedinger_equation _ _ _ _ _ _ _ _ _ _ _ _ _ _ _ _ _ _ _ _ _ qinv 3 A2 B2 (I 3%nat) ltac:(lia))
    as (_ & ta & tb & aa & ab & bb & _ & R2 & _).
  destruct (C58_projected_schroedinger_equation _ _ _ _ _ _ _ _ _ _ _ _ _ _ _ _ _ _ _ _ _ qinv 6 A4 B4 (I 6%nat) ltac:(lia))
    as (_ & ta' & tb' & aa' & ab' & bb' & _ & R4 & _).
  split; [exact A2|]. split; [exact B2|]. split; [lia|]. split.
  { exists ta, tb, aa, ab, bb. split; [exact R2|]. refine (u_check_solved 1 1 1 1 x2 _ _ _ _ _ _ R2). vm_compute. reflexivity. }
  split; [vm_compute; reflexivity|]. split; [exact A4|]. split; [exact B4|]. split.
  { exists ta', tb', aa', ab', bb'. split; [exact R4|]. refine (u_check_solved 2 2 1 3 x4 _ _ _ _ _ _ R4). vm_compute. reflexivity. }
  vm_compute. reflexivity.
Qed.

(** The bases of the CI functions with at most m excitations, for which
    makeCfromT gives the coefficients of exp(T)|0> (C27, C36). *)
Definition ci_basis (n noa nva nob nvb m : nat) (b : list (dstring * dstring)) : Prop :=
  (m = 2%nat /\ ucisd_basis n noa nob = Some b) \/
  (m = 3%nat /\ ucisdt_basis n noa nob = Some b) \/
  (m = 4%nat /\ ucisdtq_basis n noa nob = Some b /\ (noa < 4 \/ nva < 4)%nat /\ (nob < 4 \/ nvb < 4)%nat /\
    (noa < 2 \/ nva < 2 \/ nob < 2 \/ nvb < 2)%nat).

Section CI.
  Variables (K : cring) (inv : nat -> K) (n noa nva nob nvb m : nat) (ha hb Ia Ib Iab : tensor K).
  Variables (Fa Fb : one_e K) (Iaa Ibb : two_e K) (J : two_e_full K) (T1a T1b T2aa T2ab T2bb : tensor K).
  Variable b : list (dstring * dstring).
  Let ha_ p q := dat ha [p; q].
  Let hb_ p q := dat hb [p; q].
  Let Ia_ p q r s := dat Ia [p; q; r; s].
  Let Ib_ p q r s := dat Ib [p; q; r; s].
  Let Iab_ p q r s := dat Iab [p; q; r; s].
  (** the inputs: arrays of integrals over n orbitals, the arguments of the
      coupled cluster functions for them, amplitudes, a basis *)
  Definition ci_inputs : Prop :=
    (forall d, (0 < d)%nat -> (nK K d * inv d = 1)%K) /\
    shp ha = [n; n] /\ shp hb = [n; n] /\ shp Ia = [n; n; n; n] /\ shp Ib = [n; n; n; n] /\ shp Iab = [n; n; n; n] /\
    u_hamiltonian n noa nva nob nvb ha_ hb_ Ia_ Ib_ Iab_ Fa Fb Iaa Ibb J /\
    u_amps_ok noa nva nob nvb T1a T1b T2aa T2ab T2bb /\ ci_basis n noa nva nob nvb m b.
  (** the results: C from makeCfromT, HC from H_on_vec, e from ucc_energy and the
      residuals from uccsd_stanton *)
  Definition ci_results (C HC : list K) (e : K) (ta tb aa ab bb : tensor K) : Prop :=
    makeCfromT K inv noa nva nob nvb T1a T1b T2aa T2ab T2bb (Z.of_nat m) = Some C /\
    H_on_vec K b C ha hb Ia Ib Iab = Some HC /\
    returns (K := K) "ucc_energy" [tup [arr T1a; arr T1b]; tup [arr T2aa; arr T2ab; arr T2bb];
      arr (ov Fa); arr (ov Fb); arr (oovv Iaa); arr (oovv Ibb); arr (foovv J)] (numv e) /\
    returns (K := K) "uccsd_stanton" [py_one_e Fa; py_one_e Fb; py_two_e Iaa; py_two_e Ibb; py_two_e_full J;
        tup [arr T1a; arr T1b]; tup [arr T2aa; arr T2ab; arr T2bb]]
      (tup [tup [arr ta; arr tb]; tup [arr aa; arr ab; arr bb]]).
  (** <0|H|0> *)
  Definition ci_ref_energy : K :=
    H_spatial n c0 ha_ hb_ Ia_ Ib_ Iab_ (aufbau n noa ++ aufbau n nob)%list (aufbau n noa ++ aufbau n nob)%list.

  Lemma ci_all : ci_inputs -> exists C HC e ta tb aa ab bb, ci_results C HC e ta tb aa ab bb /\
    hd_error b = Some (dpair (aufbau n noa, aufbau n nob)) /\ nth 0 C c0 = c1 /\
    nth 0 HC c0 = (ci_ref_energy + e)%K /\
    (u_solved noa nva nob nvb ta tb aa ab bb -> forall j x, nth_error b j = Some (dpair x) ->
       u_space 2 (aufbau n noa) (aufbau n nob) x ->
       (exists k, u_space k (aufbau n noa) (aufbau n nob) x /\ (k + 2 <= m)%nat) \/ (Nat.min noa nva + Nat.min nob nvb <= m)%nat ->
       nth j HC c0 = ((ci_ref_energy + e) * nth j C c0)%K) /\
    ((4 <= m \/ Nat.min noa nva + Nat.min nob nvb <= m)%nat ->
     (forall j x, nth_error b j = Some (dpair x) -> u_space 2 (aufbau n noa) (aufbau n nob) x ->
       nth j HC c0 = ((ci_ref_energy + e) * nth j C c0)%K) -> u_solved noa nva nob nvb ta tb aa ab bb) /\
    (m = 2%nat -> (Nat.min noa nva + Nat.min nob nvb <= 2)%nat ->
     (HC = map (cmul (ci_ref_energy + e)%K) C <-> u_solved noa nva nob nvb ta tb aa ab bb)).
  Proof.
    intros (Inv & Pha & Phb & PIa & PIb & PIab & HU & HT & HB).
    pose proof (proj1 HU) as Na. pose proof (proj1 (proj2 HU)) as Nb.
    assert (OF : order_facts K inv n noa nva nob nvb T1a T1b T2aa T2ab T2bb m b).
    { destruct HB as [[-> E]|[[-> E]|(-> & E & Q1 & Q2 & Q3)]]; [apply order2|apply order3|apply order4]; assumption. }
    assert (L2 : (2 <= m)%nat) by (destruct HB as [[-> _]|[[-> _]|(-> & _)]]; lia). clear HB.
    destruct OF as (L & C & Eb & ND & Hd & InL & EC & HC). rewrite Eb in *.
    destruct (cc_ci K n noa nva nob nvb ha hb Ia Ib Iab Pha Phb PIa PIb PIab Fa Fb Iaa Ibb J HU T1a T1b T2aa T2ab T2bb HT inv Inv
      m L C ND InL Hd HC) as (e & ta & tb & aa & ab & bb & Hc & He & HR & EH & LH & LC & C0 & E0 & R1 & R2 & R3).
    assert (X : forall j x, nth_error (map dpair L) j = Some (dpair x) -> nth_error L j = Some x).
    { intros j x E. rewrite nth_error_map in E. destruct (nth_error L j) as [y|]; [|discriminate]. cbn [option_map] in E. apply f_equal.
      apply dpair_inj. congruence. }
    exists C, Hc, e, ta, tb, aa, ab, bb. split; [unfold ci_results; rewrite Eb; auto|].
    split; [destruct L; [discriminate Hd|]; cbn in *; injection Hd as ->; reflexivity|]. split; [exact C0|].
    split; [exact (E0 L2)|]. split; [|split].
    - intros S j x E U Cl. exact (R1 S j x (X j x E) U Cl).
    - intros Cl Rows. apply R2; auto. intros j x E U. apply (Rows j x); [|exact U]. rewrite nth_error_map, E. reflexivity.
    - intros Em Sm. exact (R3 Em Sm).
  Qed.
End CI.

(** C59: for all amplitudes, the first entry of H_on_vec applied to the
    coefficients of makeCfromT is the energy <0|H|0> + ucc_energy, the first
    determinant of the basis being the reference. *)
Theorem C59_energy_from_CI (K : cring) inv n noa nva nob nvb m ha hb Ia Ib Iab Fa Fb Iaa Ibb J T1a T1b T2aa T2ab T2bb b :
  ci_inputs K inv n noa nva nob nvb m ha hb Ia Ib Iab Fa Fb Iaa Ibb J T1a T1b T2aa T2ab T2bb b ->
  exists C HC e ta tb aa ab bb,
    ci_results K inv noa nva nob nvb m ha hb Ia Ib Iab Fa Fb Iaa Ibb J T1a T1b T2aa T2ab T2bb b C HC e ta tb aa ab bb /\
    hd_error b = Some (dpair (aufbau n noa, aufbau n nob)) /\ nth 0 C c0 = c1 /\
    nth 0 HC c0 = (ci_ref_energy K n noa nob ha hb Ia Ib Iab + e)%K.
Proof.
  intros H. destruct (ci_all K inv n noa nva nob nvb m ha hb Ia Ib Iab Fa Fb Iaa Ibb J T1a T1b T2aa T2ab T2bb b H)
    as (C & HC & e & ta & tb & aa & ab & bb & R & Hd & C0 & E & _).
  exists C, HC, e, ta, tb, aa, ab, bb. exact (conj R (conj Hd (conj C0 E))).
Qed.
Print Assumptions C59_energy_from_CI.

(** C60: if there are no more than two excitations, the coefficients are an
    eigenvector of the CI matrix with eigenvalue <0|H|0> + ucc_energy if and only
    if the residuals of uccsd_stanton are zero. *)
Theorem C60_full_CI (K : cring) inv n noa nva nob nvb ha hb Ia Ib Iab Fa Fb Iaa Ibb J T1a T1b T2aa T2ab T2bb b :
  ci_inputs K inv n noa nva nob nvb 2 ha hb Ia Ib Iab Fa Fb Iaa Ibb J T1a T1b T2aa T2ab T2bb b ->
  (Nat.min noa nva + Nat.min nob nvb <= 2)%nat ->
  exists C HC e ta tb aa ab bb,
    ci_results K inv noa nva nob nvb 2 ha hb Ia Ib Iab Fa Fb Iaa Ibb J T1a T1b T2aa T2ab T2bb b C HC e ta tb aa ab bb /\
    nth 0 C c0 = c1 /\
    (HC = map (cmul (ci_ref_energy K n noa nob ha hb Ia Ib Iab + e)%K) C <-> u_solved noa nva nob nvb ta tb aa ab bb).
Proof.
  intros H S. destruct (ci_all K inv n noa nva nob nvb 2 ha hb Ia Ib Iab Fa Fb Iaa Ibb J T1a T1b T2aa T2ab T2bb b H)
    as (C & HC & e & ta & tb & aa & ab & bb & R & Hd & C0 & _ & _ & _ & Q).
  exists C, HC, e, ta, tb, aa, ab, bb. exact (conj R (conj C0 (Q eq_refl S))).
Qed.
Print Assumptions C60_full_CI.

(** C61: if the residuals are zero, the rows of the eigenvalue equation hold for
    the determinants reached by k <= 2 excitations if the basis has all the
    determinants H connects them to: k + 2 <= m, or all of them. *)
Theorem C61_rows (K : cring) inv n noa nva nob nvb m ha hb Ia Ib Iab Fa Fb Iaa Ibb J T1a T1b T2aa T2ab T2bb b :
  ci_inputs K inv n noa nva nob nvb m ha hb Ia Ib Iab Fa Fb Iaa Ibb J T1a T1b T2aa T2ab T2bb b ->
  exists C HC e ta tb aa ab bb,
    ci_results K inv noa nva nob nvb m ha hb Ia Ib Iab Fa Fb Iaa Ibb J T1a T1b T2aa T2ab T2bb b C HC e ta tb aa ab bb /\
    (u_solved noa nva nob nvb ta tb aa ab bb ->
     forall j x, nth_error b j = Some (dpair x) -> u_space 2 (aufbau n noa) (aufbau n nob) x ->
       (exists k, u_space k (aufbau n noa) (aufbau n nob) x /\ (k + 2 <= m)%nat) \/ (Nat.min noa nva + Nat.min nob nvb <= m)%nat ->
       nth j HC c0 = ((ci_ref_energy K n noa nob ha hb Ia Ib Iab + e) * nth j C c0)%K).
Proof.
  intros H. destruct (ci_all K inv n noa nva nob nvb m ha hb Ia Ib Iab Fa Fb Iaa Ibb J T1a T1b T2aa T2ab T2bb b H)
    as (C & HC & e & ta & tb & aa & ab & bb & R & _ & _ & _ & Q & _).
  exists C, HC, e, ta, tb, aa, ab, bb. exact (conj R Q).
Qed.
Print Assumptions C61_rows.

(** Conversely, these rows solve the equations if the basis has quadruple
    excitations or all determinants. *)
Theorem C61_rows_suffice (K : cring) inv n noa nva nob nvb m ha hb Ia Ib Iab Fa Fb Iaa Ibb J T1a T1b T2aa T2ab T2bb b :
  ci_inputs K inv n noa nva nob nvb m ha hb Ia Ib Iab Fa Fb Iaa Ibb J T1a T1b T2aa T2ab T2bb b ->
  m = 4%nat \/ (Nat.min noa nva + Nat.min nob nvb <= m)%nat ->
  exists C HC e ta tb aa ab bb,
    ci_results K inv noa nva nob nvb m ha hb Ia Ib Iab Fa Fb Iaa Ibb J T1a T1b T2aa T2ab T2bb b C HC e ta tb aa ab bb /\
    ((forall j x, nth_error b j = Some (dpair x) -> u_space 2 (aufbau n noa) (aufbau n nob) x ->
       nth j HC c0 = ((ci_ref_energy K n noa nob ha hb Ia Ib Iab + e) * nth j C c0)%K) <->
     u_solved noa nva nob nvb ta tb aa ab bb).
Proof.
  intros H Cl. destruct (ci_all K inv n noa nva nob nvb m ha hb Ia Ib Iab Fa Fb Iaa Ibb J T1a T1b T2aa T2ab T2bb b H)
    as (C & HC & e & ta & tb & aa & ab & bb & R & _ & _ & _ & Q1 & Q2 & _).
  exists C, HC, e, ta, tb, aa, ab, bb. split; [exact R|]. split.
  - apply Q2. destruct Cl as [->|Cl]; [left; auto|right; exact Cl].
  - intros S j x E U. apply (Q1 S j x E U). destruct Cl as [->|Cl]; [left; exists 2%nat; auto|right; exact Cl].
Qed.
Print Assumptions C61_rows_suffice.

(** The cases of C58_example as CI problems.  In the first the matrix of H is
    v v^T with v = (1, 2, 3, 4), in the second the basis has 24 determinants, up
    to triple excitations. *)
Definition x2_b : list (dstring * dstring) := match ucisd_basis 2 1 1 with Some b => b | None => [] end.
Definition x4_b : list (dstring * dstring) := match ucisdt_basis 4 2 1 with Some b => b | None => [] end.
Definition x2_C : list QcK :=
  match makeCfromT QcK qinv 1 1 1 1 (uT1a x2) (uT1b x2) (uT2aa x2) (uT2ab x2) (uT2bb x2) 2 with Some c => c | None => [] end.
Definition x4_C : list QcK :=
  match makeCfromT QcK qinv 2 2 1 3 (uT1a x4) (uT1b x4) (uT2aa x4) (uT2ab x4) (uT2bb x4) 3 with Some c => c | None => [] end.
Example C59_example :
  ci_inputs QcK qinv 2 1 1 1 1 2 (fill2 QcK 2 2 x2_ha) (fill2 QcK 2 2 x2_hb)
     (fill4 QcK 2 2 2 2 x2_Ia) (fill4 QcK 2 2 2 2 x2_Ib) (fill4 QcK 2 2 2 2 x2_Iab)
     (uFa x2) (uFb x2) (uIaa x2) (uIbb x2) (uJ x2) (uT1a x2) (uT1b x2) (uT2aa x2) (uT2ab x2) (uT2bb x2) x2_b /\
  map Qcanon.this x2_C = [1; 2; 3; 4]%Q /\
  option_map (map Qcanon.this) (H_on_vec QcK x2_b x2_C (fill2 QcK 2 2 x2_ha) (fill2 QcK 2 2 x2_hb)
       (fill4 QcK 2 2 2 2 x2_Ia) (fill4 QcK 2 2 2 2 x2_Ib) (fill4 QcK 2 2 2 2 x2_Iab)) = Some [30; 60; 90; 120]%Q /\
  ci_inputs QcK qinv 4 2 2 1 3 3 (fill2 QcK 4 4 x4_ha) (fill2 QcK 4 4 x4_hb)
     (fill4 QcK 4 4 4 4 x4_Ia) (fill4 QcK 4 4 4 4 x4_Ib) (fill4 QcK 4 4 4 4 x4_Iab)
     (uFa x4) (uFb x4) (uIaa x4) (uIbb x4) (uJ x4) (uT1a x4) (uT1b x4) (uT2aa x4) (uT2ab x4) (uT2bb x4) x4_b /\
  List.length x4_b = 24%nat /\ (Nat.min 2 2 + Nat.min 1 3 <= 3)%nat /\
  map Qcanon.this (firstn 8 x4_C) = [1; 0; -1; -1; 0; -1; 0; 1]%Q /\
  option_map (fun l => map Qcanon.this (firstn 8 l)) (H_on_vec QcK x4_b x4_C (fill2 QcK 4 4 x4_ha) (fill2 QcK 4 4 x4_hb)
     (fill4 QcK 4 4 4 4 x4_Ia) (fill4 QcK 4 4 4 4 x4_Ib) (fill4 QcK 4 4 4 4 x4_Iab))
    = Some [-10; 0; 10; 10; 0; 10; 0; -10]%Q.
Proof.
  destruct C58_example as (A2 & B2 & _ & _ & _ & A4 & B4 & _).
  split; [|split; [|split; [|split; [|split; [|split; [|split]]]]]].
  - split; [exact qinv_ok|]. do 5 (split; [reflexivity|]). split; [exact A2|]. split; [exact B2|]. left.
    split; [reflexivity|]. vm_compute. reflexivity.
  - vm_compute. reflexivity.
  - vm_compute. reflexivity.
  - split; [exact qinv_ok|]. do 5 (split; [reflexivity|]). split; [exact A4|]. split; [exact B4|]. right. left.
    split; [reflexivity|]. vm_compute. reflexivity.
  - vm_compute. reflexivity.
  - lia.
  - vm_compute. reflexivity.
  - vm_compute. reflexivity.
Qed.
