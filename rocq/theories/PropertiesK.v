(** C90, C91: the k-point calculations of /repo/examples: final statements.  The
    model is KModel.v.  Vocabulary: KSpec.v (the crystal as one system of
    orbitals), IntegralsSpec.v ([kscf_ok], [k_exchangeable], [kERI], [korb]),
    CISpec.v, CIExpSpec.v (determinants, operator products), UFockSpec.v
    ([H_spatial_op]), PTSpec.v ([diagonal], [eigenstate], [first_order]),
    UPTSpec.v ([two_spins]). *)
From Coq Require Import String.
From Coq Require Import List Bool Arith ZArith QArith Qcanon Lia.
From Verif Require Import Scalar Tensor CISpec CIExpSpec UFockSpec PTSpec UPTSpec
  IntegralsModel IntegralsSpec PropertiesIntegrals KSpec KModel KFacts KProofs.
Import ListNotations.
Local Open Scope nat_scope.
Local Open Scope K_scope.

(** C90: the crystal with nocc occupied and nvir virtual orbitals at every
    k-point is a system of n orbitals, momentum conserved, whose two-electron
    integrals are those of get_solk_integrals times w = 1/nk.  |0> has the occupied
    orbitals of all k-points doubly occupied.  The energy computed by
    examples/kpt_hamiltonian.py is that of the nuclei plus <0|H|0> per k-point. *)
Theorem C90_crystal_energy (K : cring) (f : kscf K) (e_nuc w : K) nocc nvir :
  kscf_ok f -> momentum_group f -> k_exchangeable f ->
  let n := (k_n f * nocc + k_n f * nvir)%nat in
  let ref := (aufbau n (k_n f * nocc) ++ aufbau n (k_n f * nocc))%list in
  let h := crystal_h f nocc nvir in
  let I := crystal_I f w nocc nvir in
  kpt_scf_energy f e_nuc w nocc = Some (e_nuc + w * amp ref (H_spatial_op n h h I I I) ref).
Proof. exact (scf_energy K f e_nuc w nocc nvir). Qed.
Print Assumptions C90_crystal_energy.

(** The orbitals of the crystal are pairs of a k-point and an orbital there, each
    once. *)
Theorem C90_crystal_orbitals nk nocc nvir :
  (forall P, P < nk * nocc + nk * nvir -> momentum_of nk nocc nvir P < nk /\ orbital_of nk nocc nvir P < nocc + nvir /\
     (P < nk * nocc <-> orbital_of nk nocc nvir P < nocc))%nat /\
  (forall k p, k < nk -> p < nocc + nvir -> exists P, P < nk * nocc + nk * nvir /\
     momentum_of nk nocc nvir P = k /\ orbital_of nk nocc nvir P = p)%nat /\
  (forall P Q, P < nk * nocc + nk * nvir -> Q < nk * nocc + nk * nvir -> momentum_of nk nocc nvir P = momentum_of nk nocc nvir Q ->
     orbital_of nk nocc nvir P = orbital_of nk nocc nvir Q -> P = Q)%nat.
Proof. exact (KFacts.crystal_orbitals nk nocc nvir). Qed.
Print Assumptions C90_crystal_orbitals.

(** A cyclic mesh of three k-points, two orbitals at each, one occupied. *)
Lemma ex_k_group : momentum_group ex_k.
Proof.
  exists (fun a b => (a + b) mod 3)%nat, (fun a => (3 - a) mod 3)%nat, 0%nat. cbn [ex_k k_n kconserv].
  split; [lia|]. split; [|split; [|split]].
  - intros a A. destruct a as [|[|[|]]]; [| | |lia]; cbn; lia.
  - intros a b A B. destruct a as [|[|[|]]]; [| | |lia]; (destruct b as [|[|[|]]]; [| | |lia]); cbn; lia.
  - intros a b c A B C. destruct a as [|[|[|]]]; [| | |lia]; (destruct b as [|[|[|]]]; [| | |lia]); (destruct c as [|[|[|]]]; [| | |lia]); reflexivity.
  - intros a b c A B C. destruct a as [|[|[|]]]; [| | |lia]; (destruct b as [|[|[|]]]; [| | |lia]); (destruct c as [|[|[|]]]; [| | |lia]); reflexivity.
Qed.
Example C90_example : kscf_ok ex_k /\ momentum_group ex_k /\ k_exchangeable ex_k /\
  match kpt_scf_energy ex_k (Q2Qc 7 : QcK) (Q2Qc (1 # 3) : QcK) 1 with Some v => this v | None => 0%Q end = (8609 # 27)%Q.
Proof.
  destruct ex_k_ok as (A & _ & B & _). split; [exact A|]. split; [exact ex_k_group|]. split; [exact B|]. vm_compute. reflexivity.
Qed.

(** C91: e_kp are the orbital energies, H0 the diagonal operator with these
    energies and V = H - H0.  If no energy denominator is zero and the Fock matrix
    of every k-point has no elements between virtual and occupied orbitals, then |0>
    is an eigenstate of H0, there is a first order wave function, and
    examples/kmp2.py prints the real part of the second order energy <0|V|1> per
    k-point, for every first order wave function |1>. *)
Theorem C91_kmp2 (R : cring) (inv : R -> R) (f : kscf (CplxK R)) (e : nat -> nat -> R) nocc nvir :
  let nk := k_n f in
  let w : CplxK R := of_real (inv (zK (Z.of_nat nk))) in
  kscf_ok f -> k_nmo f = (nocc + nvir)%nat -> momentum_group f -> k_exchangeable f ->
  (forall x : R, x <> 0 -> inv x * x = 1) ->
  (forall k l a i, (k < nk)%nat -> (l < nk)%nat -> (a < nvir)%nat -> (i < nocc)%nat -> e k (nocc + a)%nat - e l i <> 0) ->
  (forall ka kb ki kj a b i j, (ka < nk)%nat -> (kb < nk)%nat -> (ki < nk)%nat -> (kj < nk)%nat ->
     (a < nvir)%nat -> (b < nvir)%nat -> (i < nocc)%nat -> (j < nocc)%nat ->
     e ka (nocc + a)%nat + e kb (nocc + b)%nat - e ki i - e kj j <> 0) ->
  (forall k a i, (k < nk)%nat -> (a < nvir)%nat -> (i < nocc)%nat -> k_fock f w nocc k (nocc + a) i = 0) ->
  let n := (nk * nocc + nk * nvir)%nat in
  let ref := (aufbau n (nk * nocc) ++ aufbau n (nk * nocc))%list in
  let h := crystal_h f nocc nvir in
  let I := crystal_I f w nocc nvir in
  let levels : nat -> CplxK R := crystal_levels nk nocc nvir (fun k p => of_real (e k p)) in
  let H0 := diagonal (n + n) (two_spins n levels levels) in
  let V := minus (H_spatial_op n h h I I I) H0 in
  let E0 : CplxK R := (1 + 1) * sumN (nk * nocc) (fun P => levels P) in
  eigenstate (n + n) ref H0 E0 /\
  (exists Psi, first_order (n + n) ref H0 V E0 (amp ref V ref) Psi) /\
  exists E, kmp2 inv f e nocc = Some E /\
    forall Psi, first_order (n + n) ref H0 V E0 (amp ref V ref) Psi ->
      E = fst (amp ref (opmul V Psi) ref) * inv (zK (Z.of_nat nk)).
Proof. intros nk w Ok M G X Inv G1 G2 Br. exact (kmp2_pt R inv f e nocc nvir Ok M G X Inv G1 G2 Br). Qed.
Print Assumptions C91_kmp2.

(** Two k-points 0 and 1/2, two orbitals at each, one occupied, with complex
    integrals; the one-electron integrals are such that the Fock matrices have no
    virtual-occupied elements. *)
Definition CQ := CplxK QcK.
Definition q (z : Z) : Qc := Q2Qc (z # 1).
Definition kx_eri (k1 k2 k3 k4 : nat) (idx : list nat) : CQ :=
  match idx with
  | [a; b; c; d] => (q (Z.of_nat ((a + b + k1 + 1) * (c + d + k3 + 1))%nat), q (Z.of_nat (a + 2 * b + k2)%nat + Z.of_nat (c + 2 * d + k4)%nat))
  | _ => (q 0, q 0)
  end.
Definition kx_bar (x : CQ) : CQ := (fst x, Qcopp (snd x)).
Definition kx_with (h : nat -> tensor CQ) : kscf CQ :=
  KScf CQ true 2 2 kx_eri kx_bar (fun a b c => (a + b + c) mod 2)%nat h
    [mkT (K := CQ) [2; 2]%nat (fun idx => match idx with [0; 0] | [1; 1] => (q 1, q 0) | _ => (q 0, q 0) end)%nat;
     mkT (K := CQ) [2; 2]%nat (fun idx => match idx with [0; 0] | [1; 1] => (q 0, q 1) | _ => (q 0, q 0) end)%nat] 2.
Definition kx0 := kx_with (fun _ => tzeros CQ [2; 2]%nat).
Definition kx_h (k : nat) : tensor CQ :=
  mkT (K := CQ) [2; 2]%nat (fun idx => match idx with [1; 0]%nat => copp (k_fock (K := CQ) kx0 (of_real (Q2Qc (1 # 2) : QcK)) 1 k 1 0) | _ => (q 2, q 0) end).
Definition kx := kx_with kx_h.
Definition kx_e (k p : nat) : QcK := q (Z.of_nat (k + 3 * p)%nat).
Lemma kx_group : momentum_group kx.
Proof.
  exists (fun a b => (a + b) mod 2)%nat, (fun a => a), 0%nat. cbn [kx kx_with k_n kconserv].
  split; [lia|]. split; [|split; [|split]].
  - intros a A. destruct a as [|[|]]; [| |lia]; cbn; lia.
  - intros a b A B. destruct a as [|[|]]; [| |lia]; (destruct b as [|[|]]; [| |lia]); cbn; lia.
  - intros a b c A B C. destruct a as [|[|]]; [| |lia]; (destruct b as [|[|]]; [| |lia]); (destruct c as [|[|]]; [| |lia]); reflexivity.
  - intros a b c A B C. destruct a as [|[|]]; [| |lia]; (destruct b as [|[|]]; [| |lia]); (destruct c as [|[|]]; [| |lia]); reflexivity.
Qed.
Example C91_example :
  kscf_ok kx /\ k_nmo kx = (1 + 1)%nat /\ momentum_group kx /\ k_exchangeable kx /\
  (forall x : QcK, x <> 0 -> (Qcinv x : QcK) * x = 1) /\
  (forall k l a i, (k < 2)%nat -> (l < 2)%nat -> (a < 1)%nat -> (i < 1)%nat -> kx_e k (1 + a)%nat - kx_e l i <> 0) /\
  (forall ka kb ki kj a b i j, (ka < 2)%nat -> (kb < 2)%nat -> (ki < 2)%nat -> (kj < 2)%nat ->
     (a < 1)%nat -> (b < 1)%nat -> (i < 1)%nat -> (j < 1)%nat ->
     kx_e ka (1 + a)%nat + kx_e kb (1 + b)%nat - kx_e ki i - kx_e kj j <> 0) /\
  (forall k a i, (k < 2)%nat -> (a < 1)%nat -> (i < 1)%nat ->
     k_fock (K := CQ) kx (of_real (R := QcK) (Qcinv (zK (K := QcK) (Z.of_nat 2)))) 1 k (1 + a) i = 0) /\
  match kmp2 (R := QcK) Qcinv kx kx_e 1 with Some v => this v | None => 0%Q end = (-197 # 48)%Q.
Proof.
  split; [split; [reflexivity|]; split; [reflexivity|]; split; [repeat constructor|reflexivity]|].
  split; [reflexivity|]. split; [exact kx_group|].
  split. { intros k1 k2 k3 k4 a b c d. cbn [kx kx_with k_eri kx_eri]. f_equal; f_equal; lia. }
  split; [exact Qcmult_inv_l|].
  split. { intros k l a i A B C D. destruct a; [|lia]. destruct i; [|lia]. destruct k as [|[|]]; [| |lia]; (destruct l as [|[|]]; [| |lia]); intros E; vm_compute in E; discriminate. }
  split. { intros ka kb ki kj a b i j A B C D La Lb Li Lj. destruct a; [|lia]. destruct b; [|lia]. destruct i; [|lia]. destruct j; [|lia].
    destruct ka as [|[|]]; [| |lia]; (destruct kb as [|[|]]; [| |lia]); (destruct ki as [|[|]]; [| |lia]); (destruct kj as [|[|]]; [| |lia]);
      intros E; vm_compute in E; discriminate. }
  split. { intros k a i A B C. destruct a; [|lia]. destruct i; [|lia]. destruct k as [|[|]]; [| |lia]; apply injective_projections; apply Qc_is_canon; vm_compute; reflexivity. }
  vm_compute. reflexivity.
Qed.
