(** Ring and ladder coupled cluster doubles as random phase approximations: final
    statements.  Vocabulary: RPASpec.v ([rpa_solution], [pprpa_solution]),
    CCFockSpec.v (integrals and their blocks), CCSpec.v ([returns]), UtilsModel.v
    ([D2], characterised by C42), [orbital_energy] of UPTSpec.v. *)
From Coq Require Import List String ZArith QArith Qcanon Lia.
From Verif Require Import Scalar Tensor PySyntax PySem CCProg CISpec CIExpSpec CCSpec CCFockSpec CCExamples CCFock.
From Verif Require Import UtilsModel RPASpec RPA PropertiesPT.
Import ListNotations.
Local Open Scope string_scope.

(** C82: for amplitudes symmetric under exchange of the two electron-hole pairs,
    the ring equations D2 * T2 + ccd_ring_simple(I, T2) = 0 hold exactly when the
    columns of (t, 1), with t_ai,bj = T2_abij, span an invariant subspace of the
    particle-hole RPA matrix ... *)
Theorem C82_ring_rpa (K : cring) no nv g I T2 e_occ e_virt Db :
  antisym_ints (no + nv) g -> blocks2 no nv g I -> shp T2 = [nv; nv; no; no] ->
  shp e_occ = [no] -> shp e_virt = [nv] -> D2 e_virt e_occ = Some Db ->
  (forall a b i j, (a < nv)%nat -> (b < nv)%nat -> (i < no)%nat -> (j < no)%nat ->
     dat T2 [a; b; i; j] = dat T2 [b; a; j; i]) ->
  exists R, returns (K := K) "ccd_ring_simple" [py_two_e I; arr T2] (arr R) /\ shp R = [nv; nv; no; no] /\
    ((forall a b i j, (a < nv)%nat -> (b < nv)%nat -> (i < no)%nat -> (j < no)%nat ->
        (dat Db [a; b; i; j] * dat T2 [a; b; i; j] + dat R [a; b; i; j] = 0)%K)
     <-> exists W, rpa_solution no nv (orbital_energy no e_occ e_virt) g (fun a i b j => dat T2 [a; b; i; j]) W).
Proof.
  intros AG BI S2 So Sv HD PS. exact (ring_rpa K no nv g I AG BI T2 S2 e_occ e_virt Db So Sv HD PS).
Qed.
Print Assumptions C82_ring_rpa.

(** ... and four times the correlation energy is minus the trace of the RPA matrix
    on that subspace, minus the trace of A. *)
Theorem C82_ring_energy (K : cring) no nv g I T2 F_ov e_occ e_virt W :
  antisym_ints (no + nv) g -> blocks2 no nv g I -> shp T2 = [nv; nv; no; no] -> shp F_ov = [no; nv] ->
  (forall a b i j, (a < nv)%nat -> (b < nv)%nat -> (i < no)%nat -> (j < no)%nat ->
     dat T2 [a; b; i; j] = dat T2 [b; a; j; i]) ->
  let e := orbital_energy no e_occ e_virt in
  rpa_solution no nv e g (fun a i b j => dat T2 [a; b; i; j]) W ->
  exists ec,
    returns (K := K) "cc_energy" [arr (tzeros K [nv; no]); arr T2; arr F_ov; arr (oovv I)] (numv ec) /\
    ((1 + 1) * (1 + 1) * ec = - sum_ph no nv (fun a i => W a i a i) - sum_ph no nv (fun a i => rpa_A no e g a i a i))%K.
Proof.
  intros AG BI S2 Sf PS e HW. exact (ring_energy K no nv g I AG BI T2 S2 e_occ e_virt PS F_ov W Sf HW).
Qed.
Print Assumptions C82_ring_energy.

(** C82: for amplitudes antisymmetric in the two occupied orbitals, the ladder
    equations D2 * T2 + ccd_ladder_simple(I, T2) = 0 hold exactly when the columns
    of (T2, 1) span an invariant subspace of the particle-particle RPA matrix ... *)
Theorem C82_ladder_pprpa (K : cring) no nv g I T2 e_occ e_virt Db :
  antisym_ints (no + nv) g -> blocks2 no nv g I -> shp T2 = [nv; nv; no; no] ->
  shp e_occ = [no] -> shp e_virt = [nv] -> D2 e_virt e_occ = Some Db ->
  (forall a b i j, (a < nv)%nat -> (b < nv)%nat -> (i < no)%nat -> (j < no)%nat ->
     (dat T2 [a; b; i; j] = - dat T2 [a; b; j; i])%K) ->
  exists R, returns (K := K) "ccd_ladder_simple" [py_two_e I; arr T2] (arr R) /\ shp R = [nv; nv; no; no] /\
    ((forall a b i j, (a < nv)%nat -> (b < nv)%nat -> (i < no)%nat -> (j < no)%nat ->
        (dat Db [a; b; i; j] * dat T2 [a; b; i; j] + dat R [a; b; i; j] = 0)%K)
     <-> exists W, pprpa_solution no nv (orbital_energy no e_occ e_virt) g (fun a b i j => dat T2 [a; b; i; j]) W).
Proof.
  intros AG BI S2 So Sv HD AT. exact (ladder_rpa K no nv g I AG BI T2 S2 e_occ e_virt Db So Sv HD AT).
Qed.
Print Assumptions C82_ladder_pprpa.

(** ... and the correlation energy is the trace of the matrix of the two removed
    electrons, without correlation, minus its trace on that subspace. *)
Theorem C82_ladder_energy (K : cring) no nv g I T2 F_ov e_occ e_virt W :
  antisym_ints (no + nv) g -> blocks2 no nv g I -> shp T2 = [nv; nv; no; no] -> shp F_ov = [no; nv] ->
  let e := orbital_energy no e_occ e_virt in
  pprpa_solution no nv e g (fun a b i j => dat T2 [a; b; i; j]) W ->
  exists ec,
    returns (K := K) "cc_energy" [arr (tzeros K [nv; no]); arr T2; arr F_ov; arr (oovv I)] (numv ec) /\
    (ec = sum_oo no (fun k l => (e k + e l) * pair_one k l k l - g k l k l) - sum_oo no (fun k l => W k l k l))%K.
Proof.
  intros AG BI S2 Sf e HW. exact (ladder_energy K no nv g I AG BI T2 S2 e_occ e_virt F_ov W Sf HW).
Qed.
Print Assumptions C82_ladder_energy.

(** Two occupied orbitals of energy 1 and two virtual orbitals of energy 4, with
    integrals for which T2_abij = -1/2 eps_ab eps_ij solves both sets of equations;
    its energy is -2. *)
Definition rpa_en (x : Z) : tensor QcK := mkT [2%nat] (fun _ => zK x).
Definition rpa_eps (x : Z) : tensor QcK :=
  fill4 QcK 2 2 2 2 (fun p q r s => (x * (Z.of_nat q - Z.of_nat p) * (Z.of_nat s - Z.of_nat r))%Z).
Definition rpa_I : two_e QcK :=
  TwoE QcK (rpa_eps 2) (rpa_eps 0) (rpa_eps 0) (rpa_eps 4)
    (fill4 QcK 2 2 2 2 (fun p q r s => if (Nat.eqb p r && Nat.eqb q s)%bool then (-2)%Z else 0%Z))
    (rpa_eps 4) (rpa_eps 0) (rpa_eps 0) (rpa_eps 2).
Definition rpa_T2 : tensor QcK := tscale (Qcopp (Q2Qc (1 # 2)) : QcK) (rpa_eps 1).
Definition rpa_zero (f : string) : bool :=
  match D2 (rpa_en 4) (rpa_en 1) with
  | Some D =>
      forallb (fun ix => match sample_entry f [py_two_e rpa_I; arr rpa_T2] 0 ix with
        | Some r => Qeq_bool (this (dat D ix) * this (dat rpa_T2 ix) + r) 0 | None => false end)
        (flat_map (fun a => flat_map (fun b => flat_map (fun i => map (fun j => [a; b; i; j]) [0; 1]%nat) [0; 1]%nat) [0; 1]%nat) [0; 1]%nat)
  | None => false
  end.
Example C82_example :
  (exists h g, antisym_ints (K := QcK) 4 g /\ blocks1 2 2 (fock 2 h g) (sampleF QcK 2 2) /\ blocks2 2 2 g rpa_I) /\
  shp rpa_T2 = [2; 2; 2; 2]%nat /\
  (forall a b i j, dat rpa_T2 [a; b; i; j] = dat rpa_T2 [b; a; j; i]) /\
  (forall a b i j, dat rpa_T2 [a; b; i; j] = (- dat rpa_T2 [a; b; j; i])%K) /\
  rpa_zero "ccd_ring_simple" = true /\ rpa_zero "ccd_ladder_simple" = true /\
  sample_entry "cc_energy" [arr (tzeros QcK [2; 2]%nat); arr rpa_T2; arr (ov (sampleF QcK 2 2)); arr (oovv rpa_I)] 0 [] = Some (-2)%Q.
Proof.
  destruct (sample_ok QcK 2 2) as (H1 & _).
  split; [apply (blocks_realized QcK 2 2 _ rpa_I H1)|].
  - split; [repeat split|].
    repeat split; first [apply fill4_lead|apply fill4_tail]; intros; ring.
  - split; [reflexivity|].
    split; [intros a b i j; cbn [dat rpa_T2 tscale rpa_eps fill4]; f_equal; f_equal; ring|].
    split; [|vm_compute; repeat split; reflexivity].
    intros a b i j. cbn [dat rpa_T2 tscale rpa_eps fill4].
    replace (1 * (Z.of_nat b - Z.of_nat a) * (Z.of_nat j - Z.of_nat i))%Z with (- (1 * (Z.of_nat b - Z.of_nat a) * (Z.of_nat i - Z.of_nat j)))%Z by ring.
    rewrite zK_opp. cbn. ring.
Qed.
