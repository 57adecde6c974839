(** Specification vocabulary for the traces of density matrices: the blocks
    returned by the density matrix functions laid out over all orbitals, the
    occupied ones first, and completed by the reference determinant.  No
    reference to the program other than the names of its functions. *)
From Coq Require Import List Bool Arith String.
From Verif Require Import Scalar Tensor SpinSpec.
Import ListNotations.
Local Open Scope string_scope.

Section Spec.
  Variable K : cring.
  Local Open Scope K_scope.

  (** *** Layout: orbital p of [no] occupied ones and then the virtual ones *)
  Definition is_virt (no p : nat) : bool := Nat.leb no p.
  Definition place (no p : nat) : nat := if Nat.leb no p then (p - no)%nat else p.
  (** blocks are labelled by which of the indices are virtual *)
  Definition all2 (no : nat) (B : bool -> bool -> tensor K) (p q : nat) : K :=
    dat (B (is_virt no p) (is_virt no q)) [place no p; place no q].
  (** p, r are orbitals of the first kind, q, s of the second kind *)
  Definition all4 (no no' : nat) (B : bool -> bool -> bool -> bool -> tensor K) (p q r s : nat) : K :=
    dat (B (is_virt no p) (is_virt no' q) (is_virt no r) (is_virt no' s)) [place no p; place no' q; place no r; place no' s].
  (** density matrix of the reference determinant *)
  Definition reference (no p q : nat) : K := if Nat.eqb p q && Nat.ltb p no then 1 else 0.

  (** *** Complete density matrices: the reference and the correlation part [g], [G] *)
  Definition gamma (no : nat) (g : nat -> nat -> K) (p q : nat) : K := g p q + reference no p q.
  (** two electrons of the same kind *)
  Definition Gamma (no : nat) (g : nat -> nat -> K) (G : nat -> nat -> nat -> nat -> K) (p q r s : nat) : K :=
    G p q r s + (reference no p r * g q s + reference no q s * g p r - reference no q r * g p s - reference no p s * g q r)
    + (reference no p r * reference no q s - reference no q r * reference no p s).
  (** two electrons of different kinds *)
  Definition Gamma_mixed (no no' : nat) (g g' : nat -> nat -> K) (G : nat -> nat -> nat -> nat -> K) (p q r s : nat) : K :=
    G p q r s + (reference no p r * g' q s + reference no' q s * g p r) + reference no p r * reference no' q s.

  (** *** Which function returns which block *)
  Section Blocks.
    Variable P : string -> tensor K.
    Definition one_blocks (L1 : tensor K) (p q : bool) : tensor K :=
      match p, q with
      | true, true => P "ccsd_1rdm_ba" | false, false => P "ccsd_1rdm_ji" | true, false => P "ccsd_1rdm_ai" | false, true => L1
      end.
    (** blocks that are not returned follow from the antisymmetry *)
    Definition two_blocks (L2 : tensor K) (p q r s : bool) : tensor K :=
      match p, q, r, s with
      | true, true, true, true => P "ccsd_2rdm_cdab"
      | false, false, false, false => P "ccsd_2rdm_klij"
      | true, true, false, false => P "ccsd_2rdm_abij"
      | false, false, true, true => L2
      | true, false, true, true => P "ccsd_2rdm_ciab"
      | false, true, true, true => tneg (swap_bra (P "ccsd_2rdm_ciab"))
      | true, true, true, false => P "ccsd_2rdm_bcai"
      | true, true, false, true => tneg (swap_ket (P "ccsd_2rdm_bcai"))
      | false, false, true, false => P "ccsd_2rdm_jkai"
      | false, false, false, true => tneg (swap_ket (P "ccsd_2rdm_jkai"))
      | false, true, false, false => P "ccsd_2rdm_kaij"
      | true, false, false, false => tneg (swap_bra (P "ccsd_2rdm_kaij"))
      | true, false, true, false => P "ccsd_2rdm_bjai"
      | false, true, false, true => swap_both (P "ccsd_2rdm_bjai")
      | true, false, false, true => tneg (swap_ket (P "ccsd_2rdm_bjai"))
      | false, true, true, false => tneg (swap_bra (P "ccsd_2rdm_bjai"))
      end.
  End Blocks.
  (** first electron of alpha and second of beta spin; [P f k] is block number k *)
  Definition mixed_blocks (P : string -> nat -> tensor K) (L2ab : tensor K) (p q r s : bool) : tensor K :=
    match p, q, r, s with
    | false, false, true, true => L2ab
    | true, true, true, true => P "uccsd_2rdm_cdab" 2%nat
    | false, false, false, false => P "uccsd_2rdm_klij" 2%nat
    | true, true, false, false => P "uccsd_2rdm_abij" 2%nat
    | true, false, true, true => P "uccsd_2rdm_ciab" 2%nat
    | false, true, true, true => swap_both (P "uccsd_2rdm_ciab" 3%nat)
    | true, true, true, false => P "uccsd_2rdm_bcai" 2%nat
    | true, true, false, true => swap_both (P "uccsd_2rdm_bcai" 3%nat)
    | false, false, true, false => P "uccsd_2rdm_jkai" 2%nat
    | false, false, false, true => swap_both (P "uccsd_2rdm_jkai" 3%nat)
    | false, true, false, false => P "uccsd_2rdm_kaij" 2%nat
    | true, false, false, false => swap_both (P "uccsd_2rdm_kaij" 3%nat)
    | true, false, true, false => P "uccsd_2rdm_bjai" 2%nat
    | false, true, false, true => swap_both (P "uccsd_2rdm_bjai" 5%nat)
    | true, false, false, true => tneg (swap_ket (P "uccsd_2rdm_bjai" 3%nat))
    | false, true, true, false => tneg (swap_bra (P "uccsd_2rdm_bjai" 4%nat))
    end.
  (** the same for a closed shell *)
  Definition closed_blocks (P : string -> tensor K) (L2 : tensor K) (p q r s : bool) : tensor K :=
    match p, q, r, s with
    | false, false, true, true => L2
    | true, true, true, true => P "rccsd_2rdm_cdab"
    | false, false, false, false => P "rccsd_2rdm_klij"
    | true, true, false, false => P "rccsd_2rdm_abij"
    | true, false, true, true => P "rccsd_2rdm_ciab"
    | false, true, true, true => swap_both (P "rccsd_2rdm_ciab")
    | true, true, true, false => P "rccsd_2rdm_bcai"
    | true, true, false, true => swap_both (P "rccsd_2rdm_bcai")
    | false, false, true, false => P "rccsd_2rdm_jkai"
    | false, false, false, true => swap_both (P "rccsd_2rdm_jkai")
    | false, true, false, false => P "rccsd_2rdm_kaij"
    | true, false, false, false => swap_both (P "rccsd_2rdm_kaij")
    | true, false, true, false => P "rccsd_2rdm_bjai"
    | false, true, false, true => swap_both (P "rccsd_2rdm_bjai")
    | true, false, false, true => P "rccsd_2rdm_bjia"
    | false, true, true, false => swap_both (P "rccsd_2rdm_bjia")
    end.
End Spec.
Arguments all2 {K}. Arguments all4 {K}. Arguments reference {K}. Arguments gamma {K}. Arguments Gamma {K}. Arguments Gamma_mixed {K}.
Arguments one_blocks {K}. Arguments two_blocks {K}. Arguments mixed_blocks {K}. Arguments closed_blocks {K}.
