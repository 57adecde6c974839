(** C86: the functions of cc_equations.py whose names start with an underscore add fac
    times their contribution to the arrays passed first.  Vocabulary: AccSpec.v. *)
From Coq Require Import List String Ascii Bool ZArith QArith Qcanon.
From Verif Require Import Scalar Tensor PySyntax PySem CCProg CCSpec CCShapes CCExamples AccSpec Acc AccRun.
Import ListNotations.
Local Open Scope string_scope.

(** C86: for a function f of the table there are arrays Zs, what f adds to zero when fac is
    left out, such that f on any arrays Ts, with the Hamiltonian multiplied by h, T1 by
    s, T2 by t and Lambda by l, and any fac, leaves T + fac h^.. s^.. t^.. l^.. Z in each of
    them, with the exponents of the table; it returns None and changes no other argument. *)
Theorem C86_contributions (K : cring) (n : space -> nat) f accs args d (Ts : list (tensor K)) vs :
  In (f, accs, args, d) contributions ->
  Forall2 (fits n) (map arr Ts) accs -> Forall2 (fits n) vs (map fst args) ->
  exists Zs, Forall2 (fun T Z => shp Z = shp T) Ts Zs /\
    updates f (map zeros_like Ts) vs Zs /\
    (forall fac h s t l, updates f Ts (scaled_args h s t l args vs ++ [numv fac])%list
       (pluses (cmul fac (weight h s t l d)) Ts Zs)).
Proof. exact (contributions_scale K n f accs args d Ts vs). Qed.
Print Assumptions C86_contributions.

(** The table has every function whose name starts with an underscore, but one. *)
Theorem C86_table_complete name fd : In (String "_"%char name, fd) cc_prog ->
  String "_"%char name = "_Lambda_Stanton" \/
  exists accs args d, In (String "_"%char name, accs, args, d) contributions.
Proof.
  assert (H : forallb (fun p => match fst p with
      | String "_"%char _ => String.eqb (fst p) "_Lambda_Stanton" || existsb (fun r => String.eqb (fst p) (fst (fst (fst r)))) contributions
      | _ => true end) cc_prog = true) by (vm_compute; reflexivity).
  rewrite forallb_forall in H. intros Hp. specialize (H _ Hp). cbn [fst] in H. apply orb_prop in H as [H|H].
  - left. apply String.eqb_eq in H. exact H.
  - right. apply existsb_exists in H as ([[[g accs] args] d] & Hr & E). cbn [fst] in E. apply String.eqb_eq in E. rewrite E. eauto.
Qed.
Print Assumptions C86_table_complete.

(** C86: _Lambda_Stanton adds its contribution without the factor fac. *)
Theorem C86_lambda_stanton (K : cring) (n : space -> nat) (L1 L2 : tensor K) vs :
  let args := [H_ F_; H_ I_; Y_ L1_; Y_ L2_; N_ T1_; N_ T2_] in
  Forall2 (fits n) [arr L1; arr L2] [L1_; L2_] -> Forall2 (fits n) vs (map fst args) ->
  exists Z1 Z2, shp Z1 = shp L1 /\ shp Z2 = shp L2 /\
    updates "_Lambda_Stanton" [zeros_like L1; zeros_like L2] vs [Z1; Z2] /\
    (forall fac h s t l, updates "_Lambda_Stanton" [L1; L2] (scaled_args h s t l args vs ++ [numv fac])%list
       [plus (cmul h l) L1 Z1; plus (cmul h l) L2 Z2]).
Proof. exact (lambda_stanton_adds K n L1 L2 vs). Qed.
Print Assumptions C86_lambda_stanton.

(** So fac times the contribution is not what it adds: *)
Definition accumulated (f : string) (args : list (pyval QcK)) (k : nat) (idx : list nat) : option Q :=
  match pycall (conc_alg QcK) cc_prog f args with
  | Ok (_, out) => match nth_error out k with Some (XArr t) => Some (this (dat (t : tensor QcK) idx)) | _ => None end
  | Exn _ => None
  end.
Definition no2_nv3 (s : space) : nat := match s with so | sO => 2 | sv | sV => 3 end%nat.
Definition lam_zeros : list (tensor QcK) := [zeros_like (sampleL1 QcK 2 3); zeros_like (sampleL2 QcK 2 3)].
Definition lam_args : list (pyval QcK) :=
  [py_one_e (sampleF QcK 2 3); py_two_e (sampleI QcK 2 3); arr (sampleL1 QcK 2 3); arr (sampleL2 QcK 2 3);
   arr (sampleT1 QcK 2 3); arr (sampleT2 QcK 2 3)].
Definition two : QcK := cadd c1 c1.
Theorem C86_lambda_stanton_fac_refuted :
  Forall2 (fits no2_nv3) (map arr lam_zeros) [L1_; L2_] /\
  Forall2 (fits no2_nv3) lam_args [F_; I_; L1_; L2_; T1_; T2_] /\
  exists Z1 Z2, updates "_Lambda_Stanton" lam_zeros lam_args [Z1; Z2] /\
    ~ updates "_Lambda_Stanton" lam_zeros (lam_args ++ [numv two])%list (pluses two lam_zeros [Z1; Z2]).
Proof.
  assert (FT : Forall2 (fits no2_nv3) (map arr lam_zeros) [L1_; L2_]) by (repeat constructor).
  assert (Fv : Forall2 (fits no2_nv3) lam_args [F_; I_; L1_; L2_; T1_; T2_]) by (repeat constructor).
  split; [exact FT|]. split; [exact Fv|].
  destruct (lambda_stanton_adds QcK no2_nv3 (zeros_like (sampleL1 QcK 2 3)) (zeros_like (sampleL2 QcK 2 3)) lam_args FT Fv)
    as (Z1 & Z2 & S1 & S2 & U & _).
  exists Z1, Z2. split; [exact U|]. intros (Us & vs & P & T & _).
  destruct U as (Us0 & vs0 & P0 & T0 & _).
  inversion T0 as [|? u0 ? ? [_ E0] T0']; subst. inversion T as [|? u ? ? [_ E] T']; subst. clear T T' T0 T0'.
  assert (A0 : accumulated "_Lambda_Stanton" (map arr lam_zeros ++ lam_args)%list 0 [0; 1]%nat = Some (-1102931)%Q) by (vm_compute; reflexivity).
  assert (A1 : accumulated "_Lambda_Stanton" (map arr lam_zeros ++ lam_args ++ [numv two])%list 0 [0; 1]%nat = Some (-1102931)%Q) by (vm_compute; reflexivity).
  unfold accumulated in A0, A1. rewrite P in A1. change (map zeros_like _) with lam_zeros in P0.
  assert (P0' : pycall (conc_alg QcK) cc_prog "_Lambda_Stanton" (map arr lam_zeros ++ lam_args)%list = Ok (XTup [], (map arr (u0 :: l') ++ vs0)%list)) by exact P0.
  rewrite P0' in A0. clear P P0 P0'. cbn [map app nth_error] in A0, A1. injection A0 as A0. injection A1 as A1.
  specialize (E [0; 1]%nat). specialize (E0 [0; 1]%nat). cbn [pluses combine map plus fst snd dat shp] in E.
  assert (I : inrange [2; 3]%nat [0; 1]%nat) by (repeat constructor).
  assert (I0 : inrange (shp Z1) [0; 1]%nat) by (rewrite S1; exact I).
  specialize (E I). specialize (E0 I0). rewrite <- E in A1. rewrite <- E0 in A0.
  assert (Q0 : dat Z1 [0; 1]%nat = Q2Qc (-1102931)) by (apply Qc_is_canon; rewrite A0; reflexivity).
  rewrite Q0 in A1. vm_compute in A1. discriminate A1.
Qed.
Print Assumptions C86_lambda_stanton_fac_refuted.

(** A case of C86_contributions: _S_SSS with two occupied and three virtual orbitals,
    T1 as accumulator, fac = 2, T1 multiplied by 2. *)
Definition sss_args (T1 : tensor QcK) : list (pyval QcK) :=
  [py_one_e (sampleF QcK 2 3); py_two_e (sampleI QcK 2 3); arr T1].
Example C86_example :
  let T := sampleT1 QcK 2 3 in
  In ("_S_SSS", [T1_], [H_ F_; H_ I_; S_ T1_], Deg 1 3 0 0) contributions /\
  Forall2 (fits no2_nv3) [arr T] [T1_] /\
  Forall2 (fits no2_nv3) (sss_args T) [F_; I_; T1_] /\
  accumulated "_S_SSS" (arr (zeros_like T) :: sss_args T) 0 [2; 1]%nat = Some (-14520)%Q /\
  this (dat T [2; 1]%nat) = 44%Q /\
  accumulated "_S_SSS" (arr T :: sss_args (mkT (K := QcK) (shp T) (fun i => cmul two (dat T i))) ++ [numv two])%list 0 [2; 1]%nat
    = Some (44 + (2 * 2 ^ 3) * -14520)%Q.
Proof.
  cbv zeta. split; [cbn; tauto|]. split; [repeat constructor|]. split; [repeat constructor|]. vm_compute. repeat split; reflexivity.
Qed.
