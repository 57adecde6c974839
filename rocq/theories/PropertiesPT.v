(** Second order perturbation theory: final statements.  Vocabulary: CISpec.v,
    CIExpSpec.v, CCFockSpec.v, PTSpec.v ([diagonal], [first_order]), UPTSpec.v
    ([orbital_energy]: e_p, the occupied orbitals come first), CCSpec.v
    (inputs of the program, [returns]), UtilsModel.v ([D1], [D2]: the arrays of
    energy denominators that cqcpy/utils.py makes, characterised by C42). *)
From Coq Require Import List String ZArith QArith Qcanon Lia.
From Verif Require Import Scalar Tensor PySyntax PySem CCProg CISpec CIExpSpec CCSpec CCFockSpec CCExamples CCFock.
From Verif Require Import UtilsModel PTSpec FockPT2.
From Verif Require Export UPTSpec.
Import ListNotations.
Local Open Scope string_scope.

(** C78: with H0 = sum e_p a+_p a_p and V = H - H0, the amplitudes -F_ai / D1_ai
    and -I_abij / D2_abij, with the denominators of D1 and D2, give the first order
    wave function T|0> ... *)
Theorem C78_first_order_wave_function (K : cring) no nv h g F I e_occ e_virt Da Db T1 T2 :
  antisym_ints (no + nv) g -> blocks1 no nv (fock no h g) F -> blocks2 no nv g I ->
  shp e_occ = [no] -> shp e_virt = [nv] ->
  D1 e_virt e_occ = Some Da -> D2 e_virt e_occ = Some Db ->
  shp T1 = [nv; no] -> shp T2 = [nv; nv; no; no] ->
  (forall a b i j, (a < nv)%nat -> (b < nv)%nat -> (i < no)%nat -> (j < no)%nat ->
     exists x, (x * dat Db [a; b; i; j] = 1)%K) ->
  (forall a i, (a < nv)%nat -> (i < no)%nat -> (dat T1 [a; i] * dat Da [a; i] = - dat (vo F) [a; i])%K) ->
  (forall a b i j, (a < nv)%nat -> (b < nv)%nat -> (i < no)%nat -> (j < no)%nat ->
     (dat T2 [a; b; i; j] * dat Db [a; b; i; j] = - dat (vvoo I) [a; b; i; j])%K) ->
  let ref := aufbau (no + nv) no in
  let H0 := diagonal (no + nv) (orbital_energy no e_occ e_virt) in
  let V := minus (H_op (no + nv) h g) H0 in
  let E0 := sumN (K := K) no (fun i => dat e_occ [i]) in
  eigenstate (no + nv) ref H0 E0 /\
  first_order (no + nv) ref H0 V E0 (amp ref V ref) (cluster no nv T1 T2).
Proof.
  intros AG BF BI So Sv HDa HDb _ S2 U2 E1 E2. split.
  - exact (pt_eigenstate K no nv e_occ e_virt).
  - exact (pt_first_order K no nv h g F I AG BF BI e_occ e_virt Da Db T1 T2 So Sv HDa HDb S2 U2 E1 E2).
Qed.
Print Assumptions C78_first_order_wave_function.

(** ... and mp2_energy returns the second order energy <0|V|1> of every first
    order wave function |1>. *)
Theorem C78_second_order_energy (K : cring) no nv h g F I e_occ e_virt Da Db T1 T2 :
  antisym_ints (no + nv) g -> blocks1 no nv (fock no h g) F -> blocks2 no nv g I ->
  shp e_occ = [no] -> shp e_virt = [nv] ->
  D1 e_virt e_occ = Some Da -> D2 e_virt e_occ = Some Db ->
  shp T1 = [nv; no] -> shp T2 = [nv; nv; no; no] ->
  (forall a i, (a < nv)%nat -> (i < no)%nat -> exists x, (x * dat Da [a; i] = 1)%K) ->
  (forall a b i j, (a < nv)%nat -> (b < nv)%nat -> (i < no)%nat -> (j < no)%nat ->
     exists x, (x * dat Db [a; b; i; j] = 1)%K) ->
  (forall a i, (a < nv)%nat -> (i < no)%nat -> (dat T1 [a; i] * dat Da [a; i] = - dat (vo F) [a; i])%K) ->
  (forall a b i j, (a < nv)%nat -> (b < nv)%nat -> (i < no)%nat -> (j < no)%nat ->
     (dat T2 [a; b; i; j] * dat Db [a; b; i; j] = - dat (vvoo I) [a; b; i; j])%K) ->
  let ref := aufbau (no + nv) no in
  let H0 := diagonal (no + nv) (orbital_energy no e_occ e_virt) in
  let V := minus (H_op (no + nv) h g) H0 in
  let E0 := sumN (K := K) no (fun i => dat e_occ [i]) in
  exists e,
    returns "mp2_energy" [arr T1; arr T2; arr (ov F); arr (oovv I)] (numv e) /\
    forall Psi, first_order (no + nv) ref H0 V E0 (amp ref V ref) Psi -> amp ref (opmul V Psi) ref = e.
Proof.
  intros AG BF BI So Sv HDa HDb S1 S2 U1 U2 E1 E2.
  exact (pt_energy K no nv h g F I AG BF BI e_occ e_virt Da Db T1 T2 So Sv HDa HDb S1 S2 U1 U2 E1 E2).
Qed.
Print Assumptions C78_second_order_energy.

(** A concrete case: two occupied and three virtual orbitals with energies 3, 4
    and 20, 21, 22; the amplitudes are the quotients. *)
Definition pt_en (n start : nat) : tensor QcK :=
  mkT [n] (fun idx => match idx with [i] => zK (Z.of_nat (start + i)) | _ => c0 end).
Definition pt_quot (f : tensor QcK) (d : option (tensor QcK)) : tensor QcK :=
  mkT (K := QcK) (shp f) (fun idx => match d with Some D => Qcopp (Qcdiv (dat f idx) (dat D idx)) : QcK | None => c0 : QcK end).
Definition ptT1 : tensor QcK := pt_quot (vo (sampleF QcK 2 3)) (D1 (pt_en 3 20) (pt_en 2 3)).
Definition ptT2 : tensor QcK := pt_quot (vvoo (sampleI QcK 2 3)) (D2 (pt_en 3 20) (pt_en 2 3)).
Definition pt_value : option Q :=
  match pycall (conc_alg QcK) cc_prog "mp2_energy"
    [arr ptT1; arr ptT2; arr (ov (sampleF QcK 2 3)); arr (oovv (sampleI QcK 2 3))] with
  | Ok (XNum v, _) => Some (this v)
  | _ => None
  end.
Example C78_example :
  (exists h g, antisym_ints (K := QcK) 5 g /\ blocks1 2 3 (fock 2 h g) (sampleF QcK 2 3) /\
     blocks2 2 3 g (sampleI QcK 2 3)) /\
  (exists Da Db, D1 (pt_en 3 20) (pt_en 2 3) = Some Da /\ D2 (pt_en 3 20) (pt_en 2 3) = Some Db /\
     (forall a i, (a < 3)%nat -> (i < 2)%nat -> exists x : QcK, (x * dat Da [a; i] = 1)%K) /\
     (forall a b i j, (a < 3)%nat -> (b < 3)%nat -> (i < 2)%nat -> (j < 2)%nat -> exists x : QcK, (x * dat Db [a; b; i; j] = 1)%K) /\
     (forall a i, (a < 3)%nat -> (i < 2)%nat -> (dat ptT1 [a; i] * dat Da [a; i] = - dat (vo (sampleF QcK 2 3)) [a; i])%K) /\
     (forall a b i j, (a < 3)%nat -> (b < 3)%nat -> (i < 2)%nat -> (j < 2)%nat ->
        (dat ptT2 [a; b; i; j] * dat Db [a; b; i; j] = - dat (vvoo (sampleI QcK 2 3)) [a; b; i; j])%K)) /\
  shp ptT1 = [3; 2]%nat /\ shp ptT2 = [3; 3; 2; 2]%nat /\
  pt_value = Some (-4882327 # 81396)%Q.
Proof.
  destruct (sample_ok QcK 2 3) as (H1 & H2 & _).
  split; [exact (blocks_realized QcK 2 3 _ _ H1 H2)|]. split; [|vm_compute; repeat split; reflexivity].
  assert (N : forall d : Qc, (Qcinv d * d = 1)%Qc \/ d = Q2Qc 0).
  { intros d. destruct (Qc_eq_dec d (Q2Qc 0)) as [E|E]; [right; exact E|left; apply Qcmult_inv_l; exact E]. }
  eexists _, _. split; [reflexivity|]. split; [reflexivity|].
  assert (X1 : forall a i, (a < 3)%nat -> (i < 2)%nat -> ((zK (Z.of_nat (20 + a)) : QcK) - zK (Z.of_nat (3 + i)) <> c0)%K).
  { intros a i La Li E. do 3 (destruct a as [|a]; [do 2 (destruct i as [|i]; [vm_compute in E; discriminate|]); lia|]). lia. }
  assert (X2 : forall a b i j, (a < 3)%nat -> (b < 3)%nat -> (i < 2)%nat -> (j < 2)%nat ->
    ((zK (Z.of_nat (20 + a)) : QcK) + zK (Z.of_nat (20 + b)) - zK (Z.of_nat (3 + i)) - zK (Z.of_nat (3 + j)) <> c0)%K).
  { intros a b i j La Lb Li Lj E.
    do 3 (destruct a as [|a]; [do 3 (destruct b as [|b]; [do 2 (destruct i as [|i]; [do 2 (destruct j as [|j]; [vm_compute in E; discriminate|]); lia|]); lia|]); lia|]). lia. }
  assert (Q : forall f d : Qc, d <> Q2Qc 0 -> (- (f / d) * d = - f)%Qc).
  { intros f d Hd. field. exact Hd. }
  split; [|split; [|split]].
  - intros a i La Li. specialize (X1 a i La Li). eexists. apply (Qcmult_inv_l _ X1).
  - intros a b i j La Lb Li Lj. specialize (X2 a b i j La Lb Li Lj). eexists. apply (Qcmult_inv_l _ X2).
  - intros a i La Li. exact (Q _ _ (X1 a i La Li)).
  - intros a b i j La Lb Li Lj. exact (Q _ _ (X2 a b i j La Lb Li Lj)).
Qed.
