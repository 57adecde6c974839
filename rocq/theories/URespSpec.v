(** Specification vocabulary for the density matrices of unrestricted and
    restricted coupled cluster theory: pairing of Lambda with residuals, and
    contraction of the density matrices with a Hamiltonian.  [P f k] is the
    block number k returned by the function [f].  No reference to the program
    other than the names of its functions. *)
From Coq Require Import List Bool Arith String ZArith Reals.
From Verif Require Import Scalar Tensor PySyntax PySem CCProg CCSpec SpinSpec RoundSpec RespSpec.
Import ListNotations.
Local Open Scope string_scope.

Section Spec.
  Variable K : cring.
  Local Open Scope K_scope.
  Notation d2 := (fun m n (A B : tensor K) => dot2 (K:=K) m n (dat A) (dat B)).
  Notation d4 := (fun m n k l (A B : tensor K) => dot4 (K:=K) m n k l (dat A) (dat B)).

  Definition perturbed_two_e_full (I dI : two_e_full K) : two_e_full (DualK K) :=
    TwoEF _ (perturbed (fvvvv I) (fvvvv dI)) (perturbed (fvvvo I) (fvvvo dI)) (perturbed (fvvov I) (fvvov dI))
      (perturbed (fvovv I) (fvovv dI)) (perturbed (fovvv I) (fovvv dI)) (perturbed (fvvoo I) (fvvoo dI))
      (perturbed (fvovo I) (fvovo dI)) (perturbed (fvoov I) (fvoov dI)) (perturbed (fovvo I) (fovvo dI))
      (perturbed (fovov I) (fovov dI)) (perturbed (foovv I) (foovv dI)) (perturbed (fooov I) (fooov dI))
      (perturbed (foovo I) (foovo dI)) (perturbed (fovoo I) (fovoo dI)) (perturbed (fvooo I) (fvooo dI))
      (perturbed (foooo I) (foooo dI)).

  (** *** Two spins *)
  (** sum of Lambda times residuals, each excitation counted once *)
  Definition u_pairing (noa nva nob nvb : nat) (L1a L1b L2aa L2ab L2bb R1a R1b R2aa R2ab R2bb : tensor K) : K :=
    (d2 noa nva L1a R1a + d2 nob nvb L1b R1b) +
    (quarter * d4 noa noa nva nva L2aa R2aa + (quarter * d4 nob nob nvb nvb L2bb R2bb + d4 noa nob nva nvb L2ab R2ab)).

  (** sum of Gamma_rspq J_pqrs over p, r of alpha and q, s of beta spin; the
      blocks of the functions with beta in first place have their pairs
      exchanged, those with the spins exchanged on one side change the sign *)
  Definition mixed_contraction (noa nva nob nvb : nat) (L2ab : tensor K) (P : string -> nat -> tensor K) (J : two_e_full K) : K :=
    d4 noa nob nva nvb L2ab (fvvoo J) +
    (d4 nva nvb nva nvb (P "uccsd_2rdm_cdab"%string 2%nat) (fvvvv J) +
    (d4 noa nob noa nob (P "uccsd_2rdm_klij"%string 2%nat) (foooo J) +
    (d4 nva nvb noa nob (P "uccsd_2rdm_abij"%string 2%nat) (foovv J) +
    (d4 nva nob nva nvb (P "uccsd_2rdm_ciab"%string 2%nat) (fvvvo J) +
    (d4 noa nvb nva nvb (swap_both (P "uccsd_2rdm_ciab"%string 3%nat)) (fvvov J) +
    (d4 nva nvb nva nob (P "uccsd_2rdm_bcai"%string 2%nat) (fvovv J) +
    (d4 nva nvb noa nvb (swap_both (P "uccsd_2rdm_bcai"%string 3%nat)) (fovvv J) +
    (d4 noa nob nva nob (P "uccsd_2rdm_jkai"%string 2%nat) (fvooo J) +
    (d4 noa nob noa nvb (swap_both (P "uccsd_2rdm_jkai"%string 3%nat)) (fovoo J) +
    (d4 noa nvb noa nob (P "uccsd_2rdm_kaij"%string 2%nat) (fooov J) +
    (d4 nva nob noa nob (swap_both (P "uccsd_2rdm_kaij"%string 3%nat)) (foovo J) +
    (d4 nva nob nva nob (P "uccsd_2rdm_bjai"%string 2%nat) (fvovo J) +
    (d4 noa nvb noa nvb (swap_both (P "uccsd_2rdm_bjai"%string 5%nat)) (fovov J) +
    (d4 nva nob noa nvb (tneg (swap_ket (P "uccsd_2rdm_bjai"%string 3%nat))) (fovvo J) +
     d4 noa nvb nva nob (tneg (swap_bra (P "uccsd_2rdm_bjai"%string 4%nat))) (fvoov J))))))))))))))).

  Definition u_contraction (noa nva nob nvb : nat) (L1a L1b L2aa L2ab L2bb : tensor K) (P : string -> nat -> tensor K)
      (Fa Fb : one_e K) (Ia Ib : two_e K) (J : two_e_full K) : K :=
    contraction noa nva L1a L2aa (fun f => P (append "u" f) 0%nat) Fa Ia +
    (contraction nob nvb L1b L2bb (fun f => P (append "u" f) 1%nat) Fb Ib +
     mixed_contraction noa nva nob nvb L2ab P J).

  (** *** Closed shells *)
  Definition twice (x : K) : K := (1 + 1) * x.
  (** sum of A_pqrs (2 B_rspq - C_rsqp) *)
  Definition closed4 (m n k l : nat) (A B C : tensor K) : K := twice (d4 m n k l A B) - d4 m n k l A (swap_ket C).
  Definition r_pairing (no nv : nat) (L1 L2 R1 R2 : tensor K) : K :=
    twice (d2 no nv L1 R1) + closed4 no no nv nv L2 R2 R2.
  Definition r_contraction (no nv : nat) (L1 L2 : tensor K) (P : string -> tensor K) (F : one_e K) (J : two_e_full K) : K :=
    twice (d2 no nv L1 (vo F) + (d2 nv nv (P "rccsd_1rdm_ba"%string) (vv F) +
      (d2 no no (P "rccsd_1rdm_ji"%string) (oo F) + d2 nv no (P "rccsd_1rdm_ai"%string) (ov F)))) +
    ((closed4 no no nv nv L2 (fvvoo J) (fvvoo J) + (closed4 nv nv nv nv (P "rccsd_2rdm_cdab"%string) (fvvvv J) (fvvvv J) +
     (closed4 no no no no (P "rccsd_2rdm_klij"%string) (foooo J) (foooo J) + closed4 nv nv no no (P "rccsd_2rdm_abij"%string) (foovv J) (foovv J)))) +
    twice (closed4 nv no nv nv (P "rccsd_2rdm_ciab"%string) (fvvvo J) (fvvov J) +
      (closed4 nv nv nv no (P "rccsd_2rdm_bcai"%string) (fvovv J) (fvovv J) +
      (closed4 no no nv no (P "rccsd_2rdm_jkai"%string) (fvooo J) (fvooo J) +
      (closed4 no nv no no (P "rccsd_2rdm_kaij"%string) (fooov J) (foovo J) +
      (closed4 nv no nv no (P "rccsd_2rdm_bjai"%string) (fvovo J) (fvoov J) +
       closed4 nv no no nv (P "rccsd_2rdm_bjia"%string) (fovvo J) (fovov J))))))).
End Spec.
Arguments perturbed_two_e_full {K}. Arguments u_pairing {K}. Arguments u_contraction {K}. Arguments mixed_contraction {K}.
Arguments closed4 {K}. Arguments r_pairing {K}. Arguments r_contraction {K}. Arguments twice {K}.

(** the functions and the number of blocks they return *)
Definition u_density_functions : list (string * nat) :=
  [("uccsd_1rdm_ba", 2); ("uccsd_1rdm_ji", 2); ("uccsd_1rdm_ai", 2); ("uccsd_2rdm_cdab", 3); ("uccsd_2rdm_klij", 3);
   ("uccsd_2rdm_abij", 3); ("uccsd_2rdm_ciab", 4); ("uccsd_2rdm_bcai", 4); ("uccsd_2rdm_jkai", 4); ("uccsd_2rdm_kaij", 4);
   ("uccsd_2rdm_bjai", 6)]%nat.
Definition r_density_functions : list string :=
  ["rccsd_1rdm_ba"; "rccsd_1rdm_ji"; "rccsd_1rdm_ai"; "rccsd_2rdm_cdab"; "rccsd_2rdm_klij"; "rccsd_2rdm_abij";
   "rccsd_2rdm_ciab"; "rccsd_2rdm_bcai"; "rccsd_2rdm_jkai"; "rccsd_2rdm_kaij"; "rccsd_2rdm_bjai"; "rccsd_2rdm_bjia"].

(** the entries of the blocks [J t] have the derivatives [dJ] at [t0] *)
Definition two_e_full_derivative (t0 : R) (J : R -> two_e_full RK) (dJ : two_e_full RK) : Prop :=
  Forall (fun block => array_derivative t0 (fun t => block (J t)) (block dJ))
    [@fvvvv RK; @fvvvo RK; @fvvov RK; @fvovv RK; @fovvv RK; @fvvoo RK; @fvovo RK; @fvoov RK; @fovvo RK; @fovov RK;
     @foovv RK; @fooov RK; @foovo RK; @fovoo RK; @fvooo RK; @foooo RK].
