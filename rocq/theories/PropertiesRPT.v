(** C11, C89: the energies of unrestricted and restricted amplitudes as explicit
    sums, and second order perturbation theory of closed shells: final
    statements.  Vocabulary: CCSpec.v (inputs of the program, [returns]),
    CISpec.v, CIExpSpec.v (determinants, operator products), UFockSpec.v
    ([H_spatial_op]), RFockSpec.v ([r_hamiltonian]), PTSpec.v ([diagonal],
    [first_order]), UPTSpec.v ([orbital_energy], [two_spins], [quotient]). *)
From Coq Require Import List String ZArith QArith Qcanon Lia Ring.
From Verif Require Import Scalar Tensor PySyntax PySem CCProg CISpec CIExpSpec CCSpec CCFockSpec SpinSpec CCExamples UFockSpec.
From Verif Require Import UtilsModel UtilsFacts RFockSpec RCC PTSpec UPTSpec UExamples RExamples UEnergy RPTSpec RPT PropertiesPT PropertiesUPT.
Import ListNotations.
Local Open Scope string_scope.

Section Ring_facts.
  Variable K : cring.
  Local Open Scope K_scope.
  Add Ring Kr11 : (c_th K).
  Lemma add5 (a b c d e : K) : a + b + c + d + e = a + b + (c + d + e).
  Proof. ring. Qed.
  Lemma add6 (x y z : K) : x + y + z = x + (y + z).
  Proof. ring. Qed.
  Lemma opp_zero (x y : K) : 0 * x = - y -> y = 0.
  Proof. intros H. transitivity (- - y); [ring|]. rewrite <- H. ring. Qed.
  Lemma zero_sum no nv (f : nat -> nat -> K) : (1 + 1) * sumN no (fun i => sumN nv (fun a => f i a * 0)) = 0.
  Proof.
    rewrite (sumN_ext K no _ (fun _ => 0)); [rewrite sumN_0; ring|]. intros i _.
    rewrite (sumN_ext K nv _ (fun _ => 0)); [apply sumN_0|]. intros a _. ring.
  Qed.
  Lemma add_zero_mul (x y : K) : x * (y + 0 * 0) = x * y.
  Proof. ring. Qed.
  Lemma zero_add (x : K) : 0 + x = x.
  Proof. ring. Qed.
End Ring_facts.

(** C11: E = sum f_ia t_ai + sum f'_ia t'_ai + 1/4 <ij||ab> t_abij + 1/4 <ij||ab>' t'_abij +
    <ij|ab> t_abij'' (ump2_energy); ucc_energy adds 1/2 <ij||ab> t_ai t_bj, 1/2 <ij||ab>' t'_ai t'_bj
    and <ij|ab> t_ai t'_bj.  The arrays need no symmetry. *)
Theorem C11_ucc_energy_formula (K : cring) noa nva nob nvb (T1a T1b T2aa T2ab T2bb fa fb ga gb gab : tensor K) :
  shp T1a = [nva; noa] -> shp T1b = [nvb; nob] ->
  shp T2aa = [nva; nva; noa; noa] -> shp T2ab = [nva; nvb; noa; nob] -> shp T2bb = [nvb; nvb; nob; nob] ->
  shp fa = [noa; nva] -> shp fb = [nob; nvb] ->
  shp ga = [noa; noa; nva; nva] -> shp gb = [nob; nob; nvb; nvb] -> shp gab = [noa; nob; nva; nvb] ->
  let sum2 no nv (g : nat -> nat -> K) := sumN no (fun i => sumN nv (fun a => g i a)) in
  let sum4 no no' nv nv' (g : nat -> nat -> nat -> nat -> K) :=
    sumN no (fun i => sumN no' (fun j => sumN nv (fun a => sumN nv' (fun b => g i j a b)))) in
  let singles := (sum2 noa nva (fun i a => dat fa [i; a] * dat T1a [a; i]) + sum2 nob nvb (fun i a => dat fb [i; a] * dat T1b [a; i]))%K in
  let doubles := (quarter * sum4 noa noa nva nva (fun i j a b => dat ga [i; j; a; b] * dat T2aa [a; b; i; j])
    + quarter * sum4 nob nob nvb nvb (fun i j a b => dat gb [i; j; a; b] * dat T2bb [a; b; i; j])
    + sum4 noa nob nva nvb (fun i j a b => dat gab [i; j; a; b] * dat T2ab [a; b; i; j]))%K in
  let products := (chalf * sum4 noa noa nva nva (fun i j a b => dat ga [i; j; a; b] * (dat T1a [a; i] * dat T1a [b; j]))
    + chalf * sum4 nob nob nvb nvb (fun i j a b => dat gb [i; j; a; b] * (dat T1b [a; i] * dat T1b [b; j]))
    + sum4 noa nob nva nvb (fun i j a b => dat gab [i; j; a; b] * (dat T1a [a; i] * dat T1b [b; j])))%K in
  let args := [tup [arr T1a; arr T1b]; tup [arr T2aa; arr T2ab; arr T2bb]; arr fa; arr fb; arr ga; arr gb; arr gab] in
  returns "ucc_energy" args (numv (singles + doubles + products)%K) /\
  returns "ump2_energy" args (numv (singles + doubles)%K).
Proof.
  intros H1 H2 H3 H4 H5 H6 H7 H8 H9 H10. cbv zeta. 
  pose proof (ucc_formula K noa nva nob nvb T1a T1b T2aa T2ab T2bb fa fb ga gb gab H1 H2 H3 H4 H5 H6 H7 H8 H9 H10) as E.
  pose proof (ump2_formula K noa nva nob nvb T1a T1b T2aa T2ab T2bb fa fb ga gb gab H1 H2 H3 H4 H5 H6 H7 H8 H9 H10) as M.
  unfold pair_sum, mp2_sum in *. split.
  - eapply eq_ind; [exact E|]. f_equal. exact (f_equal (fun z => cadd z _) (add5 K _ _ _ _ _)).
  - eapply eq_ind; [exact M|]. f_equal. exact (add5 K _ _ _ _ _).
Qed.
Print Assumptions C11_ucc_energy_formula.

(** arrays of C58 for two alpha electrons and one beta electron in four orbitals *)
Example C11_unrestricted_example :
  shp (uT1a x4) = [2; 2]%nat /\ shp (uT1b x4) = [3; 1]%nat /\ shp (uT2aa x4) = [2; 2; 2; 2]%nat /\ shp (uT2ab x4) = [2; 3; 2; 1]%nat /\
  shp (uT2bb x4) = [3; 3; 1; 1]%nat /\ shp (ov (uFa x4)) = [2; 2]%nat /\ shp (ov (uFb x4)) = [1; 3]%nat /\
  shp (oovv (uIaa x4)) = [2; 2; 2; 2]%nat /\ shp (oovv (uIbb x4)) = [1; 1; 3; 3]%nat /\ shp (foovv (uJ x4)) = [2; 1; 2; 3]%nat.
Proof. repeat split. Qed.

(** E = 2 sum f_ia t_ai + sum (2 <ij|ab> - <ij|ba>) (t_abij + t_ai t_bj) *)
Theorem C11_rcc_energy_formula (K : cring) no nv (T1 T2 f g : tensor K) :
  shp T1 = [nv; no] -> shp T2 = [nv; nv; no; no] -> shp f = [no; nv] -> shp g = [no; no; nv; nv] ->
  returns "rcc_energy" [arr T1; arr T2; arr f; arr g]
    (numv ((1 + 1) * sumN no (fun i => sumN nv (fun a => dat f [i; a] * dat T1 [a; i]))
      + sumN no (fun i => sumN no (fun j => sumN nv (fun a => sumN nv (fun b =>
          ((1 + 1) * dat g [i; j; a; b] - dat g [i; j; b; a]) * (dat T2 [a; b; i; j] + dat T1 [a; i] * dat T1 [b; j]))))))%K).
Proof.
  intros H1 H2 H3 H4. exact (rcc_formula K no nv 0 0 T1 (tzeros K [0%nat; 0%nat]) T2 (tzeros K []) (tzeros K []) f (tzeros K []) g (tzeros K []) (tzeros K []) H1 H2 H3 H4).
Qed.
Print Assumptions C11_rcc_energy_formula.

(** C89 for closed shells: |0> has the first no orbitals doubly occupied, H0 is
    diagonal with the given orbital energies.  If no denominator is zero, the
    Fock matrix has no elements between virtual and occupied orbitals (the
    quotients of D1 are zero) and T2 is minus <ab|ij> over the denominators of D2,
    then there is a first order wave function, and rcc_energy with these T2 and
    T1 = 0 returns the second order energy <0|V|1> of every first order wave
    function |1>. *)
Theorem C89_closed_shell (K : cring) n no nv h I F J (eo ev T2 : tensor K) :
  r_hamiltonian (K := K) n no nv h I F J -> shp eo = [no] -> shp ev = [nv] ->
  (exists D, D1 ev eo = Some D /\ quotient [nv; no] (vo F) D (tzeros K [nv; no])) ->
  (exists D, D2 ev eo = Some D /\ quotient [nv; nv; no; no] (fvvoo J) D T2) ->
  let ref := (aufbau n no ++ aufbau n no)%list in
  let H0 := diagonal (n + n) (two_spins n (orbital_energy no eo ev) (orbital_energy no eo ev)) in
  let V := minus (H_spatial_op n h h I I I) H0 in
  let E0 := ((1 + 1) * sumN no (fun i => dat eo [i]))%K in
  eigenstate (n + n) ref H0 E0 /\
  (exists Psi, first_order (n + n) ref H0 V E0 (amp ref V ref) Psi) /\
  exists e,
    returns "rcc_energy" [arr (tzeros K [nv; no]); arr T2; arr (ov F); arr (foovv J)] (numv e) /\
    forall Psi, first_order (n + n) ref H0 V E0 (amp ref V ref) Psi -> amp ref (opmul V Psi) ref = e.
Proof.
  intros (N & S & BF & BJ) So Sv (Da & Ha & Qa) (Db & Hb & Qb). cbv zeta.
  destruct (D1_spec K ev eo nv no Sv So) as (Da' & Ha' & _ & Va). rewrite Ha in Ha'. injection Ha' as <-.
  destruct (D2_spec K ev eo nv no Sv So) as (Db' & Hb' & _ & Vb & _). rewrite Hb in Hb'. injection Hb' as <-.
  destruct Qa as (_ & Qa). destruct Qb as (ST & Qb).
  destruct BF as ((_ & Sov & _ & _) & _ & _ & Bvo & _).
  pose proof BJ as (_ & _ & _ & _ & _ & (_ & Bvvoo) & _ & _ & _ & _ & (Soovv & Boovv) & _).
  assert (A2 : forall a i, (a < nv)%nat -> (i < no)%nat -> Forall2 lt [a; i] [nv; no]) by (intros; repeat constructor; assumption).
  assert (A4 : forall a b i j, (a < nv)%nat -> (b < nv)%nat -> (i < no)%nat -> (j < no)%nat -> Forall2 lt [a; b; i; j] [nv; nv; no; no])
    by (intros; repeat constructor; assumption).
  destruct (r_pt K n no nv N h I S (fun i => dat eo [i]) (fun a => dat ev [a]) (fun a b i j => dat T2 [a; b; i; j])) as (PA & PB & PC).
  - intros a i La Li. destruct (Qa [a; i] (A2 a i La Li)) as ((x & X) & _). rewrite Va in X by assumption. exists x. exact X.
  - intros a b i j La Lb Li Lj. destruct (Qb _ (A4 a b i j La Lb Li Lj)) as ((x & X) & _). rewrite Vb in X by assumption. exists x. exact X.
  - intros a i La Li. destruct (Qa [a; i] (A2 a i La Li)) as (_ & X). rewrite Bvo in X by assumption. cbn [tzeros dat] in X. exact (opp_zero K _ _ X).
  - intros a b i j La Lb Li Lj. destruct (Qb _ (A4 a b i j La Lb Li Lj)) as (_ & X). rewrite Vb, Bvvoo in X by assumption. exact X.
  - split; [exact PA|]. split; [exact PB|]. eexists.
    split; [exact (C11_rcc_energy_formula K no nv (tzeros K [nv; no]) T2 (ov F) (foovv J) eq_refl ST Sov Soovv)|].
    intros Psi HP. etransitivity; [exact (PC Psi HP)|]. cbn [tzeros dat]. rewrite zero_sum, zero_add.
    unfold closed_pairs. apply sumN_ext. intros i Li. apply sumN_ext. intros j Lj. apply sumN_ext. intros a La. apply sumN_ext. intros b Lb.
    rewrite !Boovv by assumption. rewrite add_zero_mul. reflexivity.
Qed.
Print Assumptions C89_closed_shell.

(** A concrete case: two electrons in three orbitals, the one-electron integrals
    chosen such that the Fock matrix has no virtual-occupied elements; the
    orbital energies are 3, 20, 21. *)
Definition rpt_h (p q : nat) : Z := match q with O => match p with O => y3_h 0 0 | _ => (- y3_I p 0 0 0)%Z end | _ => y3_h p q end.
Definition rpt : r_args := r_build 1 2 rpt_h y3_I (tzeros QcK [2%nat; 1%nat]) (tzeros QcK []).
Definition rptT2 := pt_quot (fvvoo (rJ rpt)) (D2 (pt_en 2 20) (pt_en 1 3)).
Definition rpt_value : option Q :=
  match pycall (conc_alg QcK) cc_prog "rcc_energy" [arr (tzeros QcK [2%nat; 1%nat]); arr rptT2; arr (ov (rF rpt)); arr (foovv (rJ rpt))] with
  | Ok (XNum v, _) => Some (this v)
  | _ => None
  end.
Example C89_closed_shell_example :
  r_hamiltonian 3 1 2 (z2 rpt_h) (z4 y3_I) (rF rpt) (rJ rpt) /\
  (exists D, D1 (pt_en 2 20) (pt_en 1 3) = Some D /\ quotient [2; 1]%nat (vo (rF rpt)) D (tzeros QcK [2; 1]%nat)) /\
  (exists D, D2 (pt_en 2 20) (pt_en 1 3) = Some D /\ quotient [2; 2; 1; 1]%nat (fvvoo (rJ rpt)) D rptT2) /\
  rpt_value = Some (-173 # 153)%Q.
Proof.
  split.
  { apply r_build_ok; [reflexivity|]. intros p q r s Lp Lq Lr Ls; unfold z4; f_equal;
      do 3 (destruct p as [|p]; [do 3 (destruct q as [|q]; [do 3 (destruct r as [|r]; [do 3 (destruct s as [|s]; [vm_compute; reflexivity|]); lia|]); lia|]); lia|]); lia. }
  split; [|split].
  - eexists. split; [reflexivity|]. split; [reflexivity|]. intros idx L. apply in2_inv in L. destruct L as (a & i & -> & La & Li).
    destruct i as [|i]; [|lia]. destruct a as [|[|a]]; [| |lia].
    + split; [exists (Q2Qc (1 # 17)); apply Qc_is_canon; vm_compute; reflexivity|apply Qc_is_canon; vm_compute; reflexivity].
    + split; [exists (Q2Qc (1 # 18)); apply Qc_is_canon; vm_compute; reflexivity|apply Qc_is_canon; vm_compute; reflexivity].
  - eexists. split; [reflexivity|]. apply pt_quot_ok; [reflexivity|]. intros idx L. apply in4_inv in L. destruct L as (a & b & i & j & -> & La & Lb & Li & Lj).
    do 2 (destruct a as [|a]; [do 2 (destruct b as [|b]; [do 1 (destruct i as [|i]; [do 1 (destruct j as [|j]; [intros X; vm_compute in X; discriminate|]); lia|]); lia|]); lia|]); lia.
  - vm_compute. reflexivity.
Qed.
