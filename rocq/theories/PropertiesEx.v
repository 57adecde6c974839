(** The CI calculations of /repo/examples: final statements.  Vocabulary:
    ExSpec.v (matrices, CIS equations), CISpec.v, CIExpSpec.v (determinants and
    operators), UFockSpec.v (integrals, [u_cluster]), SpinSpec.v, CCSpec.v
    (inputs of the program, [returns]).  [dpair] gives the program's form of a
    determinant (CIRep.v). *)
From Coq Require Import List String Bool Lia ZArith QArith Qcanon.
From Verif Require Import Scalar Tensor PySyntax PySem CCProg CIModel CISpec CIRep CIBases CILemmas CIExpSpec CCSpec CCFockSpec SpinModel SpinSpec
  UFockSpec PTSpec UExamples ExModel ExSpec ExRow ExSpan ExCI ExClosed ExCISD ExSpan2.
Import ListNotations.
Local Open Scope string_scope.
Notation f2 t := (fun p q => dat t [p; q]).
Notation f4 t := (fun p q r s => dat t [p; q; r; s]).

(** C88: the matrix of the CIS examples.  The vector of coefficients of
    sum ta_ai a+_a a_i |0> + sum tb_ai b+_a b_i |0> is an eigenvector with
    eigenvalue E exactly when ta and tb solve the CIS equations with excitation
    energy E - <0|H|0>; and every vector is the vector of exactly one set of
    amplitudes. *)
Theorem C88_cis (K : cring) n noa nva nob nvb (ha hb Ia Ib Iab : tensor K) c :
  (noa + nva)%nat = n -> (nob + nvb)%nat = n ->
  shp ha = [n; n] -> shp hb = [n; n] ->
  shp Ia = [n; n; n; n] -> shp Ib = [n; n; n; n] -> shp Iab = [n; n; n; n] ->
  pair_symmetric n (f4 Ia) -> pair_symmetric n (f4 Ib) ->
  let ref := (aufbau n noa ++ aufbau n nob)%list in
  let E0 := (c + u_energy noa nob (f2 ha) (f2 hb) (f4 Ia) (f4 Ib) (f4 Iab))%K in
  let Fa := fock_alpha noa nob (f2 ha) (f4 Ia) (f4 Iab) in
  let Fb := fock_beta noa nob (f2 hb) (f4 Ib) (f4 Iab) in
  exists L M,
    ucis_basis n noa nob false = Some (map dpair L) /\
    ci_matrix (map dpair L) ha hb Ia Ib Iab c = Some M /\
    H_spatial n c (f2 ha) (f2 hb) (f4 Ia) (f4 Ib) (f4 Iab) ref ref = E0 /\
    (forall (ta tb : nat -> nat -> K) E,
       eigenvector M (coefficients L (u_singles n noa nva nob nvb ta tb) ref) E <->
       (forall a i, (a < nva)%nat -> (i < noa)%nat ->
          cis_alpha noa nva nob nvb Fa (f4 Ia) (f4 Iab) ta tb a i = ((E - E0) * ta a i)%K) /\
       (forall a i, (a < nvb)%nat -> (i < nob)%nat ->
          cis_beta noa nva nob nvb Fb (f4 Ib) (f4 Iab) ta tb a i = ((E - E0) * tb a i)%K)) /\
    (forall v : list K, List.length v = List.length L ->
       exists ta tb : nat -> nat -> K, v = coefficients L (u_singles n noa nva nob nvb ta tb) ref) /\
    (forall ta tb ta' tb' : nat -> nat -> K,
       coefficients L (u_singles n noa nva nob nvb ta tb) ref = coefficients L (u_singles n noa nva nob nvb ta' tb') ref ->
       (forall a i, (a < nva)%nat -> (i < noa)%nat -> ta a i = ta' a i) /\
       (forall a i, (a < nvb)%nat -> (i < nob)%nat -> tb a i = tb' a i)).
Proof.
  intros Na Nb Pha Phb PIa PIb PIab SA SB ref E0 Fa Fb.
  destruct (ucis_singles n noa nob) as (L & EL & ND & InL).
  exists L, (rows K n ha hb Ia Ib Iab c L). split; [exact EL|].
  split; [exact (matrix_ok K n noa nva nob nvb (f2 ha) (f2 hb) (f4 Ia) (f4 Ib) (f4 Iab) Na Nb SA SB L InL ha hb Ia Ib Iab Pha Phb PIa PIb PIab eq_refl eq_refl c)|].
  split; [exact (const_energy K n noa nva nob nvb (f2 ha) (f2 hb) (f4 Ia) (f4 Ib) (f4 Iab) Na Nb SA SB c)|].
  split; [exact (fun ta tb E => cis_eigen K n noa nva nob nvb (f2 ha) (f2 hb) (f4 Ia) (f4 Ib) (f4 Iab) Na Nb SA SB L ND InL ha hb Ia Ib Iab
    eq_refl eq_refl eq_refl eq_refl eq_refl c ta tb E)|].
  split; [exact (span K n noa nva nob nvb Na Nb L ND InL)|].
  exact (unique K n noa nva nob nvb Na Nb L InL).
Qed.
Print Assumptions C88_cis.

(** C88: examples/cis.py and cis_H2.py, with no doubly occupied orbitals.  The
    eigenvectors of the matrix are the singlet and triplet excitations of the
    Tamm-Dancoff approximation that the examples compare with: with
    const = - Escf + mol.energy_nuc(), that is, E0 = 0, the eigenvalues are the
    excitation energies. *)
Theorem C88_closed_shell (K : cring) n no nv (h I : tensor K) const :
  (no + nv)%nat = n -> shp h = [n; n] -> shp I = [n; n; n; n] -> pair_symmetric n (f4 I) ->
  let ref := (aufbau n no ++ aufbau n no)%list in
  let F := closed_fock no (f2 h) (f4 I) in
  let E0 := (const + closed_energy no (f2 h) (f4 I))%K in
  exists L M,
    ucis_basis n no no false = Some (map dpair L) /\ cis_example n no no h h I const = Some M /\
    H_spatial n const (f2 h) (f2 h) (f4 I) (f4 I) (f4 I) ref ref = E0 /\
    forall (ta tb : nat -> nat -> K) E,
      eigenvector M (coefficients L (u_singles n no nv no nv ta tb) ref) E <->
      solves nv no (tda_singlet no nv F (f4 I)) (fun a i => ta a i + tb a i)%K (E - E0)%K /\
      solves nv no (tda_triplet no nv F (f4 I)) (fun a i => ta a i - tb a i)%K (E - E0)%K.
Proof.
  intros N Ph PI S ref F E0.
  destruct (C88_cis K n no nv no nv h h I I I const N N Ph Ph PI PI PI S S) as (L & M & EL & EM & Q0 & Q & _).
  exists L, M. split; [exact EL|]. split; [unfold cis_example; rewrite EL; exact EM|].
  split; [etransitivity; [exact Q0|]; rewrite (energy_closed K); reflexivity|]. intros ta tb E.
  eapply iff_trans; [exact (Q ta tb E)|]. rewrite (energy_closed K). exact (closed_iff K n no nv N (f2 h) (f4 I) S ta tb (E - E0)%K).
Qed.
Print Assumptions C88_closed_shell.

(** C88: the matrix of the CISD examples.  The vector of coefficients of
    (1 + T)|0> is an eigenvector with eigenvalue E exactly when E = <0|H|0> + e,
    e the value of mp2_energy, and the residuals of lccsd_simple over spin
    orbitals are e times the amplitudes up to the product of the Fock matrix and
    the singles; and every vector whose first entry is one is such a vector. *)
Theorem C88_cisd (K : cring) n noa nva nob nvb (ha hb Ia Ib Iab : tensor K) c Fa Fb Iaa Ibb J :
  shp ha = [n; n] -> shp hb = [n; n] ->
  shp Ia = [n; n; n; n] -> shp Ib = [n; n; n; n] -> shp Iab = [n; n; n; n] ->
  u_hamiltonian n noa nva nob nvb (f2 ha) (f2 hb) (f4 Ia) (f4 Ib) (f4 Iab) Fa Fb Iaa Ibb J ->
  let ref := (aufbau n noa ++ aufbau n nob)%list in
  let no := (noa + nob)%nat in
  let nv := (nva + nvb)%nat in
  exists L M,
    ucisd_basis n noa nob = Some (map dpair L) /\ ci_matrix (map dpair L) ha hb Ia Ib Iab c = Some M /\
    (Ia = Iab -> Ib = Iab -> cisd_example n noa nob ha hb Iab c = Some M) /\
    (forall T1a T1b T2aa T2ab T2bb F I T1 T2,
       u_amps_ok noa nva nob nvb T1a T1b T2aa T2ab T2bb ->
       F_to_spin Fa Fb noa nva nob nvb = Some F -> int_to_spin2 Iaa Ibb J noa nva nob nvb = Some I ->
       T1_to_spin T1a T1b noa nva nob nvb = Some T1 -> T2_to_spin T2aa T2ab T2bb noa nva nob nvb = Some T2 ->
       exists R1 R2 e,
         returns (K := K) "lccsd_simple" [py_one_e F; py_two_e I; arr T1; arr T2] (tup [arr R1; arr R2]) /\
         returns (K := K) "mp2_energy" [arr T1; arr T2; arr (ov F); arr (oovv I)] (numv e) /\
         shp R1 = [nv; no] /\ shp R2 = [nv; nv; no; no] /\
         forall E,
           eigenvector M (coefficients L (one ++ u_cluster n noa nva nob nvb T1a T1b T2aa T2ab T2bb) ref) E <->
           (E = c + u_energy noa nob (f2 ha) (f2 hb) (f4 Ia) (f4 Ib) (f4 Iab) + e)%K /\
           (forall a i, (a < nv)%nat -> (i < no)%nat -> (dat R1 [a; i] = e * dat T1 [a; i])%K) /\
           (forall a b i j, (a < nv)%nat -> (b < nv)%nat -> (i < no)%nat -> (j < no)%nat -> a <> b -> i <> j ->
              (dat R2 [a; b; i; j]
               + (dat (vo F) [a; i] * dat T1 [b; j] - dat (vo F) [a; j] * dat T1 [b; i]
                  - dat (vo F) [b; i] * dat T1 [a; j] + dat (vo F) [b; j] * dat T1 [a; i])
               = e * dat T2 [a; b; i; j])%K)) /\
    (forall v : list K, List.length v = List.length L -> hd_error v = Some c1 ->
       exists T1a T1b T2aa T2ab T2bb, u_amps_ok noa nva nob nvb T1a T1b T2aa T2ab T2bb /\
         v = coefficients L (one ++ u_cluster n noa nva nob nvb T1a T1b T2aa T2ab T2bb) ref).
Proof.
  intros Pha Phb PIa PIb PIab HU ref no nv. pose proof HU as (Na & Nb & _).
  destruct (ucisd_ok n noa nob) as (L & EL & ND & Hd & InL). apply NoDup_map_inv in ND.
  pose proof (matrix_ok2 K n noa nva nob nvb _ _ _ _ _ Fa Fb Iaa Ibb J HU L InL ha hb Ia Ib Iab Pha Phb PIa PIb PIab eq_refl eq_refl c) as EM.
  exists L, (rows K n ha hb Ia Ib Iab c L). split; [exact EL|]. split; [exact EM|].
  split; [intros -> ->; unfold cisd_example; rewrite EL; exact EM|].
  split; [|intros v Lv Hv; exact (span2 K n noa nva nob nvb L v Na Nb ND Hd InL Lv Hv)].
  intros T1a T1b T2aa T2ab T2bb F I T1 T2 HT EF EI E1 E2.
  exact (cisd_eigen K n noa nva nob nvb _ _ _ _ _ Fa Fb Iaa Ibb J HU L ND InL ha hb Ia Ib Iab eq_refl eq_refl eq_refl eq_refl eq_refl c
    T1a T1b T2aa T2ab T2bb HT F I T1 T2 EF EI E1 E2).
Qed.
Print Assumptions C88_cisd.

(** Two electrons in two orbitals: the triplet and the singlet excitation, and
    the two states of the CISD matrix that contain the reference. *)
Definition ex_h : tensor QcK := mkT (K := QcK) [2; 2]%nat (fun ix => match ix with [0; 0]%nat => Q2Qc (-1) | _ => Q2Qc 0 end).
Definition ex_I : tensor QcK := mkT (K := QcK) [2; 2; 2; 2]%nat (fun ix => match ix with
  | [0; 0; 0; 0]%nat | [0; 1; 0; 1]%nat | [1; 0; 1; 0]%nat => Q2Qc 1
  | [1; 1; 1; 1]%nat | [0; 0; 1; 1]%nat | [1; 1; 0; 0]%nat | [0; 1; 1; 0]%nat | [1; 0; 0; 1]%nat => Q2Qc 2
  | _ => Q2Qc 0
  end).
Definition qlist (l : list Q) : list QcK := map Q2Qc l.
Example C88_example :
  shp ex_h = [2; 2]%nat /\ shp ex_I = [2; 2; 2; 2]%nat /\ pair_symmetric 2 (f4 ex_I) /\
  (exists Fa Fb Iaa Ibb J, u_hamiltonian 2 1 1 1 1 (f2 ex_h) (f2 ex_h) (f4 ex_I) (f4 ex_I) (f4 ex_I) Fa Fb Iaa Ibb J) /\
  closed_energy 1 (f2 ex_h) (f4 ex_I) = Q2Qc (-1) /\
  (exists M, cis_example 2 1 1 ex_h ex_h ex_I (Q2Qc 1) = Some M /\
     List.length M = 2%nat /\
     eigenvector M (qlist [1; 1]%Q) (Q2Qc 3) /\ eigenvector M (qlist [1; -1]%Q) (Q2Qc (-1))) /\
  (exists M, cisd_example 2 1 1 ex_h ex_h ex_I (Q2Qc 1) = Some M /\
     List.length M = 4%nat /\
     eigenvector M (qlist [1; 0; 0; - (1 # 2)]%Q) (Q2Qc (-1)) /\ eigenvector M (qlist [1; 0; 0; 2]%Q) (Q2Qc 4)).
Proof.
  assert (S : pair_symmetric (K := QcK) 2 (f4 ex_I)).
  { intros p q r t Hp Hq Hr Ht.
    destruct p as [|[|p]]; [| |lia]; destruct q as [|[|q]]; [| |lia| | |lia]; destruct r as [|[|r]]; try lia; destruct t as [|[|t]]; try lia;
      vm_compute; reflexivity. }
  split; [reflexivity|]. split; [reflexivity|]. split; [exact S|].
  split; [do 5 eexists; exact (build_ok QcK 2 1 1 1 1 (f2 ex_h) (f2 ex_h) (f4 ex_I) (f4 ex_I) (f4 ex_I) eq_refl eq_refl S S)|].
  split; [vm_compute; reflexivity|]. split.
  - eexists. split; [vm_compute; reflexivity|]. split; [reflexivity|]. split; vm_compute; reflexivity.
  - eexists. split; [vm_compute; reflexivity|]. split; [reflexivity|]. split; vm_compute; reflexivity.
Qed.
