(** Third order perturbation theory: final statements.  Vocabulary: PTSpec.v,
    PT3Spec.v ([second_order], [off_energies]), otherwise as in PropertiesPT.v. *)
From Coq Require Import List String ZArith QArith Qcanon Lia.
From Verif Require Import Scalar Tensor PySyntax PySem CCProg CISpec CIExpSpec CCSpec CCFockSpec CCExamples CCFock CCLinSpec.
From Verif Require Import UtilsModel PTSpec PT3Spec PropertiesPT FockPT3.
Import ListNotations.
Local Open Scope string_scope.

(** C84: H0 = sum e_p a+_p a_p, V = H - H0, F is the Fock matrix without the
    orbital energies on its diagonal, and T1, T2 are the amplitudes of the first order
    wave function |1> = T|0> (C78).  One application of lccsd_simple to them, with
    the product of F and T1 added to the doubles, divided by the denominators
    of D1 and D2, gives amplitudes with which mp2_energy returns the sum of
    the second and third order energies, <0|V|1> + <0|V|2>, for every second order
    wave function |2>.  If there are at most two occupied or two virtual orbitals,
    the new amplitudes minus the old ones are such a second order wave function. *)
Theorem C84_third_order_energy (K : cring) no nv h g F I e_occ e_virt Da Db T1 T2 :
  let e := orbital_energy no e_occ e_virt in
  antisym_ints (no + nv) g -> blocks1 no nv (off_energies e (fock no h g)) F -> blocks2 no nv g I ->
  shp e_occ = [no] -> shp e_virt = [nv] ->
  D1 e_virt e_occ = Some Da -> D2 e_virt e_occ = Some Db ->
  shp T1 = [nv; no] -> shp T2 = [nv; nv; no; no] ->
  (forall a i, (a < nv)%nat -> (i < no)%nat -> exists x, (x * dat Da [a; i] = 1)%K) ->
  (forall a b i j, (a < nv)%nat -> (b < nv)%nat -> (i < no)%nat -> (j < no)%nat ->
     exists x, (x * dat Db [a; b; i; j] = 1)%K) ->
  (forall a i, (a < nv)%nat -> (i < no)%nat -> (dat T1 [a; i] * dat Da [a; i] = - dat (vo F) [a; i])%K) ->
  (forall a b i j, (a < nv)%nat -> (b < nv)%nat -> (i < no)%nat -> (j < no)%nat ->
     (dat T2 [a; b; i; j] * dat Db [a; b; i; j] = - dat (vvoo I) [a; b; i; j])%K) ->
  let ref := aufbau (no + nv) no in
  let H0 := diagonal (no + nv) e in
  let V := minus (H_op (no + nv) h g) H0 in
  let E0 := sumN (K := K) no (fun i => dat e_occ [i]) in
  let Psi1 := cluster no nv T1 T2 in
  exists R1 R2,
    returns "lccsd_simple" [py_one_e F; py_two_e I; arr T1; arr T2] (tup [arr R1; arr R2]) /\
    shp R1 = [nv; no] /\ shp R2 = [nv; nv; no; no] /\
    forall X1 X2, shp X1 = [nv; no] -> shp X2 = [nv; nv; no; no] ->
      (forall a i, (a < nv)%nat -> (i < no)%nat -> (dat X1 [a; i] * dat Da [a; i] = - dat R1 [a; i])%K) ->
      (forall a b i j, (a < nv)%nat -> (b < nv)%nat -> (i < no)%nat -> (j < no)%nat ->
         (dat X2 [a; b; i; j] * dat Db [a; b; i; j]
          = - (dat R2 [a; b; i; j]
               + (dat (vo F) [a; i] * dat T1 [b; j] - dat (vo F) [a; j] * dat T1 [b; i]
                  - dat (vo F) [b; i] * dat T1 [a; j] + dat (vo F) [b; j] * dat T1 [a; i])))%K) ->
      (exists E, returns "mp2_energy" [arr X1; arr X2; arr (ov F); arr (oovv I)] (numv E) /\
         forall Psi2, second_order (no + nv) ref H0 V E0 (amp ref V ref) Psi1 Psi2 ->
           (amp ref (opmul V Psi1) ref + amp ref (opmul V Psi2) ref)%K = E) /\
      ((no <= 2 \/ nv <= 2)%nat ->
         second_order (no + nv) ref H0 V E0 (amp ref V ref) Psi1
           (cluster no nv (mkT [nv; no] (fun idx => (dat X1 idx - dat T1 idx)%K))
                          (mkT [nv; nv; no; no] (fun idx => (dat X2 idx - dat T2 idx)%K)))).
Proof.
  intros e AG BF BI So Sv HDa HDb S1 S2 U1 U2 E1 E2.
  exact (third_order K no nv h g F I AG e_occ e_virt Da Db BF BI T1 T2 So Sv HDa HDb S1 S2 U1 U2 E1 E2).
Qed.
Print Assumptions C84_third_order_energy.

(** C84: with Hartree-Fock orbitals, where the Fock matrix has no
    occupied-virtual elements, lccd_simple is enough and no singles are needed. *)
Theorem C84_mp3 (K : cring) no nv h g F I e_occ e_virt Da Db T2 :
  let e := orbital_energy no e_occ e_virt in
  antisym_ints (no + nv) g -> blocks1 no nv (off_energies e (fock no h g)) F -> blocks2 no nv g I ->
  shp e_occ = [no] -> shp e_virt = [nv] ->
  D1 e_virt e_occ = Some Da -> D2 e_virt e_occ = Some Db ->
  shp T2 = [nv; nv; no; no] ->
  (forall a i, (a < nv)%nat -> (i < no)%nat -> exists x, (x * dat Da [a; i] = 1)%K) ->
  (forall a b i j, (a < nv)%nat -> (b < nv)%nat -> (i < no)%nat -> (j < no)%nat ->
     exists x, (x * dat Db [a; b; i; j] = 1)%K) ->
  (forall a i, (a < nv)%nat -> (i < no)%nat -> dat (vo F) [a; i] = c0) ->
  (forall i a, (i < no)%nat -> (a < nv)%nat -> dat (ov F) [i; a] = c0) ->
  (forall a b i j, (a < nv)%nat -> (b < nv)%nat -> (i < no)%nat -> (j < no)%nat ->
     (dat T2 [a; b; i; j] * dat Db [a; b; i; j] = - dat (vvoo I) [a; b; i; j])%K) ->
  let ref := aufbau (no + nv) no in
  let H0 := diagonal (no + nv) e in
  let V := minus (H_op (no + nv) h g) H0 in
  let E0 := sumN (K := K) no (fun i => dat e_occ [i]) in
  let Psi1 := doubles no nv T2 in
  exists R2,
    returns "lccd_simple" [py_one_e F; py_two_e I; arr T2] (arr R2) /\
    shp R2 = [nv; nv; no; no] /\
    forall X2, shp X2 = [nv; nv; no; no] ->
      (forall a b i j, (a < nv)%nat -> (b < nv)%nat -> (i < no)%nat -> (j < no)%nat ->
         (dat X2 [a; b; i; j] * dat Db [a; b; i; j] = - dat R2 [a; b; i; j])%K) ->
      exists E, returns "mp2_energy" [arr (tzeros K [nv; no]); arr X2; arr (ov F); arr (oovv I)] (numv E) /\
        forall Psi2, second_order (no + nv) ref H0 V E0 (amp ref V ref) Psi1 Psi2 ->
          (amp ref (opmul V Psi1) ref + amp ref (opmul V Psi2) ref)%K = E.
Proof.
  intros e AG BF BI So Sv HDa HDb S2 U1 U2 Bvo Bov E2.
  exact (third_order_hf K no nv h g F I AG e_occ e_virt Da Db BF BI T2 So Sv HDa HDb S2 U1 U2 Bvo Bov E2).
Qed.
Print Assumptions C84_mp3.

(** A concrete case: two occupied and three virtual orbitals with energies 3, 4
    and 20, 21, 22, as in C78_example, whose amplitudes are ptT1 and ptT2. *)
Definition pt3_res (k : nat) : tensor QcK :=
  match pycall (conc_alg QcK) cc_prog "lccsd_simple"
    [py_one_e (sampleF QcK 2 3); py_two_e (sampleI QcK 2 3); arr ptT1; arr ptT2] with
  | Ok (XTup [XArr r1; XArr r2], _) => match k with O => r1 | _ => r2 end
  | _ => tzeros QcK []
  end.
Definition pt3_dis : tensor QcK :=
  let f a i := dat (vo (sampleF QcK 2 3)) [a; i] in
  let t a i := dat ptT1 [a; i] in
  mkT (K := QcK) [3; 3; 2; 2]%nat (fun idx => match idx with
    | [a; b; i; j] => (dat (pt3_res 1) idx + (f a i * t b j - f a j * t b i - f b i * t a j + f b j * t a i))%K
    | _ => c0 end).
Definition ptX1 : tensor QcK := pt_quot (pt3_res 0) (D1 (pt_en 3 20) (pt_en 2 3)).
Definition ptX2 : tensor QcK := pt_quot pt3_dis (D2 (pt_en 3 20) (pt_en 2 3)).
Definition pt3_value : option Q :=
  match pycall (conc_alg QcK) cc_prog "mp2_energy"
    [arr ptX1; arr ptX2; arr (ov (sampleF QcK 2 3)); arr (oovv (sampleI QcK 2 3))] with
  | Ok (XNum v, _) => Some (this v)
  | _ => None
  end.
Example C84_example :
  (exists h g, antisym_ints (K := QcK) 5 g /\
     blocks1 2 3 (off_energies (orbital_energy 2 (pt_en 2 3) (pt_en 3 20)) (fock 2 h g)) (sampleF QcK 2 3) /\
     blocks2 2 3 g (sampleI QcK 2 3)) /\
  (exists Da Db, D1 (pt_en 3 20) (pt_en 2 3) = Some Da /\ D2 (pt_en 3 20) (pt_en 2 3) = Some Db /\
     (forall a i, (a < 3)%nat -> (i < 2)%nat -> (dat ptX1 [a; i] * dat Da [a; i] = - dat (pt3_res 0) [a; i])%K) /\
     (forall a b i j, (a < 3)%nat -> (b < 3)%nat -> (i < 2)%nat -> (j < 2)%nat ->
        (dat ptX2 [a; b; i; j] * dat Db [a; b; i; j] = - dat pt3_dis [a; b; i; j])%K)) /\
  shp ptX1 = [3; 2]%nat /\ shp ptX2 = [3; 3; 2; 2]%nat /\
  pt3_value = Some (-22205720560943 # 66253088160)%Q.
Proof.
  destruct (sample_ok QcK 2 3) as (H1 & H2 & _).
  split.
  { destruct (blocks_realized QcK 2 3 _ _ H1 H2) as (h & g & AG & (O & B1 & B2 & B3 & B4) & BI).
    exists (fun p q => (h p q + (if Nat.eqb p q then orbital_energy 2 (pt_en 2 3) (pt_en 3 20) p else c0))%K), g.
    split; [exact AG|]. split; [|exact BI]. split; [exact O|]. repeat split; intros; rewrite off_on; auto. }
  split; [|vm_compute; repeat split; reflexivity].
  eexists _, _. split; [reflexivity|]. split; [reflexivity|].
  assert (X1 : forall a i, (a < 3)%nat -> (i < 2)%nat -> ((zK (Z.of_nat (20 + a)) : QcK) - zK (Z.of_nat (3 + i)) <> c0)%K).
  { intros a i La Li E. do 3 (destruct a as [|a]; [do 2 (destruct i as [|i]; [vm_compute in E; discriminate|]); lia|]). lia. }
  assert (X2 : forall a b i j, (a < 3)%nat -> (b < 3)%nat -> (i < 2)%nat -> (j < 2)%nat ->
    ((zK (Z.of_nat (20 + a)) : QcK) + zK (Z.of_nat (20 + b)) - zK (Z.of_nat (3 + i)) - zK (Z.of_nat (3 + j)) <> c0)%K).
  { intros a b i j La Lb Li Lj E.
    do 3 (destruct a as [|a]; [do 3 (destruct b as [|b]; [do 2 (destruct i as [|i]; [do 2 (destruct j as [|j]; [vm_compute in E; discriminate|]); lia|]); lia|]); lia|]). lia. }
  assert (Q : forall f d : Qc, d <> Q2Qc 0 -> (- (f / d) * d = - f)%Qc).
  { intros f d Hd. field. exact Hd. }
  split.
  - intros a i La Li. exact (Q _ _ (X1 a i La Li)).
  - intros a b i j La Lb Li Lj. exact (Q _ _ (X2 a b i j La Lb Li Lj)).
Qed.
