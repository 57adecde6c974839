(** Complex arrays in functions that assign into real arrays: final statements.
    Vocabulary: DtypeSpec.v.  The functions with suffix _w are those of
    spin_utils.py, integrals.py and ci_utils.py with an explicit assignment into an
    array of fixed dtype (DtypeModel.v, DtypeCfromT.v); [real_store] and [re_store]
    are NumPy's assignment of a complex value to a float64 array. *)
From Coq Require Import List Bool Arith ZArith Lia Reals Lra.
From Verif Require Import Scalar Tensor CCSpec NpModel SpinModel SpinSpec SpinRound IntegralsModel CIModel CIRep CICfromT CISpec CIFacts ExModel ExSpec
  DtypeModel DtypeCfromT DtypeSpec Dtype DtypeC RoundSpec NegCSpec VarSpec VarCSpec PropertiesVarC.
Import ListNotations.
Local Open Scope list_scope.

(** C102: the conversions to spin orbitals return the real part of the arrays
    they should return, whatever the input. *)
Theorem C102_spin_arrays (R : cring) noa nva nob nvb :
  (forall Fa Fb : one_e (CplxK R),
     both real_part_of1 (F_to_spin_w (CplxK R) real_store Fa Fb noa nva nob nvb) (F_to_spin Fa Fb noa nva nob nvb)) /\
  (forall Ta Tb : tensor (CplxK R),
     both real_part_of (T1_to_spin_w (CplxK R) real_store Ta Tb noa nva nob nvb) (T1_to_spin Ta Tb noa nva nob nvb)) /\
  (forall Taa Tab Tbb : tensor (CplxK R),
     both real_part_of (T2_to_spin_w (CplxK R) real_store Taa Tab Tbb noa nva nob nvb) (T2_to_spin Taa Tab Tbb noa nva nob nvb) /\
     both real_part_of (D2_to_spin_w (CplxK R) real_store Taa Tab Tbb noa nva nob nvb) (D2_to_spin Taa Tab Tbb noa nva nob nvb)) /\
  (forall Ia Ib Iab : two_e_full (CplxK R),
     both real_part_of2 (int_to_spin_w (CplxK R) real_store Ia Ib Iab noa nva nob nvb) (int_to_spin Ia Ib Iab noa nva nob nvb)) /\
  (forall (Ia Ib : two_e (CplxK R)) (Iab : two_e_full (CplxK R)),
     both real_part_of2 (int_to_spin2_w (CplxK R) real_store Ia Ib Iab noa nva nob nvb) (int_to_spin2 Ia Ib Iab noa nva nob nvb)).
Proof.
  split; [intros; apply F_rel|]. split; [intros; apply T1_rel|]. split; [intros; split; [apply T2_rel|apply D2_rel]|].
  split; [intros; apply int_rel|intros; apply int2_rel].
Qed.
Print Assumptions C102_spin_arrays.

(** C102: for arrays of real numbers nothing is lost. *)
Theorem C102_real_input (R : cring) noa nva nob nvb :
  (forall Ta Tb : tensor (CplxK R), real_entries Ta -> real_entries Tb ->
     both same_entries (T1_to_spin_w (CplxK R) real_store Ta Tb noa nva nob nvb) (T1_to_spin Ta Tb noa nva nob nvb)) /\
  (forall Taa Tab Tbb : tensor (CplxK R), real_entries Taa -> real_entries Tab -> real_entries Tbb ->
     both same_entries (T2_to_spin_w (CplxK R) real_store Taa Tab Tbb noa nva nob nvb) (T2_to_spin Taa Tab Tbb noa nva nob nvb) /\
     both same_entries (D2_to_spin_w (CplxK R) real_store Taa Tab Tbb noa nva nob nvb) (D2_to_spin Taa Tab Tbb noa nva nob nvb)) /\
  (forall (u1 u2 u3 u4 u5 u6 : tensor (CplxK R)) a b c d e f g h,
     real_entries u1 -> real_entries u2 -> real_entries u3 -> real_entries u4 -> real_entries u5 -> real_entries u6 ->
     both same_entries (int_to_spin_block_w (CplxK R) real_store u1 u2 u3 u4 u5 u6 a b c d e f g h)
       (int_to_spin_block u1 u2 u3 u4 u5 u6 a b c d e f g h)).
Proof.
  split; [intros; apply same_of; [apply T1_rel|apply T1_real; assumption]|].
  split; [intros; split; apply same_of; [apply T2_rel|apply T2_real; assumption|apply D2_rel|apply D2_real; assumption]|].
  intros; apply same_of; [apply block_rel|apply block_real; assumption].
Qed.
Print Assumptions C102_real_input.

(** C102: to spin orbitals and back returns the real parts, so the round trip is
    the identity exactly for amplitudes that are real. *)
Theorem C102_round_trip (R : cring) (Ta Tb : tensor (CplxK R)) noa nva nob nvb :
  shp Ta = [nva; noa] -> shp Tb = [nvb; nob] ->
  exists t a b, T1_to_spin_w (CplxK R) real_store Ta Tb noa nva nob nvb = Some t /\
    T1_to_spatial t noa nva nob nvb = Some (a, b) /\
    shp a = [nva; noa] /\ shp b = [nvb; nob] /\
    (forall ix, inrange [nva; noa] ix -> dat a ix = re (dat Ta ix)) /\
    (forall ix, inrange [nvb; nob] ix -> dat b ix = re (dat Tb ix)) /\
    (teq a Ta /\ teq b Tb <->
     (forall ix, inrange [nva; noa] ix -> snd (dat Ta ix) = c0) /\ (forall ix, inrange [nvb; nob] ix -> snd (dat Tb ix) = c0)).
Proof.
  intros HA HB. destruct (T1_round (CplxK R) Ta Tb noa nva nob nvb HA HB) as (t' & a' & b' & E & E' & Qa & Qb).
  pose proof (T1_rel R Ta Tb noa nva nob nvb) as X. rewrite E in X.
  destruct (T1_to_spin_w (CplxK R) real_store Ta Tb noa nva nob nvb) as [t|]; [|destruct X]. cbn [both] in X.
  assert (Y : both (fun p q => real_part_of (fst p) (fst q) /\ real_part_of (snd p) (snd q)) (T1_to_spatial t noa nva nob nvb) (T1_to_spatial t' noa nva nob nvb)).
  { unfold T1_to_spatial. eapply both_bind; [apply slice_rel; exact X|]. intros p q Hpq. eapply both_bind; [apply slice_rel; exact X|].
    intros p' q' Hpq'. split; assumption. }
  rewrite E' in Y. destruct (T1_to_spatial t noa nva nob nvb) as [[a b]|] eqn:Et; [|destruct Y]. destruct Y as [Ya Yb]. cbn [fst snd] in Ya, Yb.
  destruct (back_re R a a' Ta Ya Qa) as [Sa Da]. destruct (back_re R b b' Tb Yb Qb) as [Sb Db].
  exists t, a, b. split; [reflexivity|]. split; [exact Et|]. rewrite HA in Sa, Da. rewrite HB in Sb, Db.
  split; [exact Sa|]. split; [exact Sb|]. split; [exact Da|]. split; [exact Db|].
  assert (Z : forall (x z : tensor (CplxK R)) sh, shp x = sh -> shp z = sh -> (forall ix, inrange sh ix -> dat x ix = re (dat z ix)) ->
    (teq x z <-> forall ix, inrange sh ix -> snd (dat z ix) = c0)).
  { intros x z sh Sx Sz D. split.
    - intros [_ Q] ix Ix. rewrite <- Q by (rewrite Sx; exact Ix). rewrite D by exact Ix. reflexivity.
    - intros Q. split; [congruence|]. intros ix Ix. rewrite Sx in Ix. rewrite D by exact Ix. specialize (Q ix Ix).
      destruct (dat z ix) as [p q]. cbn in *. subst. reflexivity. }
  rewrite (Z a Ta _ Sa HA Da), (Z b Tb _ Sb HB Db). reflexivity.
Qed.
Print Assumptions C102_round_trip.

(** C102: the unrestricted integrals have the dtype of the first coefficients: all
    of them for complex alpha orbitals, the real part for real ones, also when the
    integrals or the beta orbitals are complex. *)
Theorem C102_integrals (R : cring) (m : mol (CplxK R)) (alpha_complex : bool) :
  let P := if alpha_complex then same_entries else real_part_of (R := R) in
  let store := dtype_store (R := R) alpha_complex in
  (forall o1 o2 o3 o4 p1 p2 p3 p4 anti,
     both P (get_chemu_w (CplxK R) store m o1 o2 o3 o4 p1 p2 p3 p4 anti) (get_chemu (CplxK R) m o1 o2 o3 o4 p1 p2 p3 p4 anti) /\
     both P (get_phys_antiu_w (CplxK R) store m o1 o2 o3 o4 p1 p2 p3 p4) (get_phys_antiu (CplxK R) m o1 o2 o3 o4 p1 p2 p3 p4)) /\
  (forall oa ob anti,
     both P (get_chemu_all_w (CplxK R) store m oa ob anti) (get_chemu_all (CplxK R) m oa ob anti) /\
     both P (get_physu_all_w (CplxK R) store m oa ob anti) (get_physu_all (CplxK R) m oa ob anti)).
Proof.
  destruct alpha_complex; cbv zeta.
  - assert (Rf : forall x : option (tensor (CplxK R)), both same_entries x x) by (intros [x|]; [split; reflexivity|exact I]).
    split; intros; split; apply Rf.
  - split; intros; split; [apply chemu_rel|apply antiu_rel|apply chemu_all_rel|apply physu_all_rel].
Qed.
Print Assumptions C102_integrals.

(** C102: the operators on CI vectors and the CI coefficients of a coupled cluster
    state are real parts of what they should be. *)
Theorem C102_ci_vectors (R : cring) :
  let P := fun x y : list (CplxK R) => x = map re y in
  let s := re_store (R := R) in
  (forall basis vec i a, both P (s_on_vec_w (CplxK R) s basis vec i a) (s_on_vec (CplxK R) basis vec i a)) /\
  (forall basis vec i a, both P (sa_on_vec_w (CplxK R) s basis vec i a) (sa_on_vec (CplxK R) basis vec i a)) /\
  (forall basis vec i a, both P (sb_on_vec_w (CplxK R) s basis vec i a) (sb_on_vec (CplxK R) basis vec i a)) /\
  (forall basis vec i j a b, both P (d_on_vec_w (CplxK R) s basis vec i j a b) (d_on_vec (CplxK R) basis vec i j a b)) /\
  (forall basis vec i j a b, both P (da_on_vec_w (CplxK R) s basis vec i j a b) (da_on_vec (CplxK R) basis vec i j a b)) /\
  (forall basis vec i j a b, both P (db_on_vec_w (CplxK R) s basis vec i j a b) (db_on_vec (CplxK R) basis vec i j a b)) /\
  (forall basis vec i j a b, both P (sasb_on_vec_w (CplxK R) s basis vec i j a b) (sasb_on_vec (CplxK R) basis vec i j a b)) /\
  (forall basis vec ha hb Ia Ib Iab, both P (H_on_vec_w (CplxK R) s basis vec ha hb Ia Ib Iab) (H_on_vec (CplxK R) basis vec ha hb Ia Ib Iab)) /\
  (forall basis vec h I, both P (gH_on_vec_w (CplxK R) s basis vec h I) (gH_on_vec (CplxK R) basis vec h I)) /\
  (forall inv noa nva nob nvb T1a T1b T2aa T2ab T2bb order,
     both P (makeCfromT_w (CplxK R) s inv noa nva nob nvb T1a T1b T2aa T2ab T2bb order)
            (makeCfromT (CplxK R) inv noa nva nob nvb T1a T1b T2aa T2ab T2bb order)) /\
  (forall inv no nv T1 T2 order occ,
     both P (gmakeCfromT_w (CplxK R) s inv no nv T1 T2 order occ) (gmakeCfromT (CplxK R) inv no nv T1 T2 order occ)) /\
  (forall basis (ha hb Ia Ib Iab : tensor (CplxK R)) c,
     both (fun M N => M = map (map re) N) (ci_matrix_w (CplxK R) s basis ha hb Ia Ib Iab c) (ci_matrix basis ha hb Ia Ib Iab c)).
Proof.
  cbv zeta. split; [apply s_relv|]. split; [apply sa_relv|]. split; [apply sb_relv|]. split; [apply d_relv|]. split; [apply da_relv|].
  split; [apply db_relv|]. split; [apply sasb_relv|]. split; [apply H_relv|]. split; [apply gH_relv|].
  split; [intros; apply rel_makeCfromT|]. split; [intros; apply rel_gmakeCfromT|]. intros; apply matrix_rel.
Qed.
Print Assumptions C102_ci_vectors.

(** C102, refuted: complex amplitudes do not survive the conversion to spin
    orbitals, and the matrix of the CI examples does not have the energies of a
    complex Hermitian Hamiltonian.  Imaginary amplitudes i for one alpha electron
    come back as 0; the matrix of one electron with h = [[0, i], [-i, 0]], whose
    energies are 1 and -1 (C99_complex_example), is stored as zero. *)
Definition cx_T : tensor CK := mkT (K := CK) [1; 1]%nat (fun _ => (0, 1)%R).
Theorem C102_complex_refuted :
  (exists t a b, T1_to_spin_w CK real_store cx_T cx_T 1 1 1 1 = Some t /\
     T1_to_spatial t 1 1 1 1 = Some (a, b) /\ dat a [0; 0]%nat = (0, 0)%R /\ ~ teq a cx_T) /\
  hermitian_integrals 2 vc_h vc_h vc_I vc_I vc_I (0, 0)%R /\
  (exists M, ci_matrix (K := CK) (map dpair vc_L) vc_h vc_h vc_I vc_I vc_I (0, 0)%R = Some M /\
     eigenvector (K := CK) M [(1, 0); (0, 1)]%R (-1, 0)%R) /\
  (exists M, ci_matrix_w CK (re_store (R := RK)) (map dpair vc_L) vc_h vc_h vc_I vc_I vc_I (0, 0)%R = Some M /\
     forall v : list CK, List.length v = 2%nat -> eigenvector (K := CK) M v (0, 0)%R).
Proof.
  destruct C99_complex_example as (_ & HH & _ & _ & (M & EM & _ & EV & _) & _).
  split; [|split; [exact HH|split; [exists M; split; [exact EM|exact EV]|]]].
  - do 3 eexists. split; [reflexivity|]. split; [reflexivity|]. split; [reflexivity|].
    intros [_ Q]. assert (X : inrange [1; 1]%nat [0; 0]%nat) by (repeat constructor).
    specialize (Q [0; 0]%nat X). apply (f_equal snd) in Q. cbn in Q. lra.
  - assert (X : both (fun M N => M = map (map (@re RK)) N) (ci_matrix_w CK (re_store (R := RK)) (map dpair vc_L) vc_h vc_h vc_I vc_I vc_I (0, 0)%R)
      (ci_matrix (K := CK) (map dpair vc_L) vc_h vc_h vc_I vc_I vc_I (0, 0)%R)) by (apply (matrix_rel RK)).
    rewrite vc_matrix in X.
    destruct (ci_matrix_w CK _ _ _ _ _ _ _ _) as [N|] eqn:EN; [|destruct X]. cbn [both] in X. subst N. eexists. split; [reflexivity|].
    intros v Hv. destruct v as [|[a1 a2] [|[b1 b2] [|u v]]]; try discriminate Hv.
    unfold eigenvector. cbn. unfold cplx_mul. cbn. repeat match goal with |- _ :: _ = _ :: _ => f_equal | |- (_, _) = (_, _) => f_equal end; lra.
Qed.
Print Assumptions C102_complex_refuted.

(** Complex arrays to which the theorems apply and whose imaginary part is not
    zero; a real one. *)
Example C102_example :
  shp cx_T = [1; 1]%nat /\ ~ real_entries (R := RK) cx_T /\
  real_entries (R := RK) (mkT (K := CK) [1; 1]%nat (fun _ => (2, 0)%R)) /\
  (exists t, T1_to_spin_w CK real_store cx_T cx_T 1 1 1 1 = Some t /\ shp t = [2; 2]%nat) /\
  (exists t, T1_to_spin cx_T cx_T 1 1 1 1 = Some t /\ dat t [1; 1]%nat = (0, 1)%R /\ dat t [0; 1]%nat = (0, 0)%R) /\
  (exists M, ci_matrix (K := CK) (map dpair vc_L) vc_h vc_h vc_I vc_I vc_I (0, 0)%R = Some M /\ nth 1 (nth 0 M []) (0, 0)%R = (0, 1)%R).
Proof.
  split; [reflexivity|]. split; [intros H; specialize (H []); cbn in H; lra|]. split; [intros ix; reflexivity|].
  split; [eexists; split; reflexivity|]. split; [eexists; split; [reflexivity|split; reflexivity]|].
  eexists. split; [exact vc_matrix|reflexivity].
Qed.
