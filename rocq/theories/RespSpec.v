(** Specification vocabulary for derivatives of the coupled cluster energy:
    Hamiltonians and amplitudes that depend on a parameter, and the contraction
    of the density matrices with the derivative of the Hamiltonian.
    No reference to the program other than the names of its functions. *)
From Coq Require Import List Bool Arith String ZArith Reals.
From Verif Require Import Scalar Tensor PySyntax PySem CCProg CCSpec CCShapes CovSpec RoundSpec.
Import ListNotations.
Local Open Scope string_scope.

(** *** Infinitesimal change: x + eps dx over the dual numbers *)
Section Dual.
  Variable K : cring.
  Definition perturbed_one_e (F dF : one_e K) : one_e (DualK K) :=
    OneE _ (perturbed (oo F) (oo dF)) (perturbed (ov F) (ov dF)) (perturbed (vo F) (vo dF)) (perturbed (vv F) (vv dF)).
  Definition perturbed_two_e (I dI : two_e K) : two_e (DualK K) :=
    TwoE _ (perturbed (vvvv I) (vvvv dI)) (perturbed (vvvo I) (vvvo dI)) (perturbed (vovv I) (vovv dI))
      (perturbed (vvoo I) (vvoo dI)) (perturbed (vovo I) (vovo dI)) (perturbed (oovv I) (oovv dI))
      (perturbed (vooo I) (vooo dI)) (perturbed (ooov I) (ooov dI)) (perturbed (oooo I) (oooo dI)).

  (** an array of the given shape all of whose entries vanish *)
  Definition zero_array (sh : list nat) (t : tensor K) : Prop :=
    shp t = sh /\ forall idx, inrange sh idx -> dat t idx = c0.

  (** sum of gamma_qp F_pq and of 1/4 Gamma_rspq I_pqrs over all orbitals,
      written with the blocks that the density functions return; [P f] is the
      block returned by the function [f], and the blocks for which there is no
      function are Lambda *)
  Local Open Scope K_scope.
  Definition contraction (no nv : nat) (L1 L2 : tensor K) (P : string -> tensor K) (F : one_e K) (I : two_e K) : K :=
    let d2 m n A B := dot2 (K:=K) m n (dat A) (dat B) in
    let d4 m n k l A B := dot4 (K:=K) m n k l (dat A) (dat B) in
    (d2 no nv L1 (vo F) + (d2 nv nv (P "ccsd_1rdm_ba"%string) (vv F) +
      (d2 no no (P "ccsd_1rdm_ji"%string) (oo F) + d2 nv no (P "ccsd_1rdm_ai"%string) (ov F)))) +
    (quarter * (d4 no no nv nv L2 (vvoo I) + (d4 nv nv nv nv (P "ccsd_2rdm_cdab"%string) (vvvv I) +
       (d4 no no no no (P "ccsd_2rdm_klij"%string) (oooo I) + d4 nv nv no no (P "ccsd_2rdm_abij"%string) (oovv I)))) +
    (chalf * (d4 nv no nv nv (P "ccsd_2rdm_ciab"%string) (vvvo I) + (d4 nv nv nv no (P "ccsd_2rdm_bcai"%string) (vovv I) +
       (d4 no no nv no (P "ccsd_2rdm_jkai"%string) (vooo I) + d4 no nv no no (P "ccsd_2rdm_kaij"%string) (ooov I)))) +
     d4 nv no nv no (P "ccsd_2rdm_bjai"%string) (vovo I))).
End Dual.
Arguments perturbed_one_e {K} F dF. Arguments perturbed_two_e {K} I dI.
Arguments zero_array {K} sh t.
Arguments contraction {K} no nv L1 L2 P F I.

Definition density_functions : list string :=
  ["ccsd_1rdm_ba"; "ccsd_1rdm_ji"; "ccsd_1rdm_ai"; "ccsd_2rdm_cdab"; "ccsd_2rdm_klij"; "ccsd_2rdm_abij";
   "ccsd_2rdm_ciab"; "ccsd_2rdm_bcai"; "ccsd_2rdm_jkai"; "ccsd_2rdm_kaij"; "ccsd_2rdm_bjai"]%string.

(** *** Dependence on a real parameter *)

(** scalars that are functions of a parameter t: a value over [FunK] is a family
    of values over the reals *)
Definition FunK : cring.
Proof.
  refine (CRing (R -> R) (fun _ => 0%R) (fun _ => 1%R) (fun x y t => (x t + y t)%R) (fun x y t => (x t * y t)%R)
           (fun x y t => (x t - y t)%R) (fun x t => (- x t)%R) (fun _ => (/ 2)%R) _ _).
  - constructor; intros; apply FunctionalExtensionality.functional_extensionality; intros t; ring.
  - apply FunctionalExtensionality.functional_extensionality. intros t. field.
Defined.

(** the member t of a family *)
Definition at_t (t : R) (x : FunK) : RK := x t.

(** the dual number [d] is the value and the derivative of [x] at [t0] *)
Definition tangent (t0 : R) (x : FunK) (d : DualK RK) : Prop :=
  fst d = x t0 /\ derivable_pt_lim x t0 (snd d).
Definition tangent_array (n : space -> nat) (t0 : R) (l : list space) (x : tensor FunK) (d : tensor (DualK RK)) : Prop :=
  shp x = map n l /\ shp d = map n l /\ forall idx, inrange (map n l) idx -> tangent t0 (dat x idx) (dat d idx).
Definition tangent_value (n : space -> nat) (t0 : R) : shape -> pyval FunK -> pyval (DualK RK) -> Prop :=
  related (tangent t0) (tangent_array n t0).

(** the entries of the arrays [x t] have the derivatives [d] at [t0] *)
Definition array_derivative (t0 : R) (x : R -> tensor RK) (d : tensor RK) : Prop :=
  forall idx, inrange (shp d) idx -> derivable_pt_lim (fun t => dat (x t) idx : R) t0 (dat d idx).
Definition one_e_derivative (t0 : R) (F : R -> one_e RK) (dF : one_e RK) : Prop :=
  array_derivative t0 (fun t => oo (F t)) (oo dF) /\ array_derivative t0 (fun t => ov (F t)) (ov dF) /\
  array_derivative t0 (fun t => vo (F t)) (vo dF) /\ array_derivative t0 (fun t => vv (F t)) (vv dF).
Definition two_e_derivative (t0 : R) (I : R -> two_e RK) (dI : two_e RK) : Prop :=
  Forall (fun block => array_derivative t0 (fun t => block (I t)) (block dI))
    [@vvvv RK; @vvvo RK; @vovv RK; @vvoo RK; @vovo RK; @oovv RK; @vooo RK; @ooov RK; @oooo RK].
