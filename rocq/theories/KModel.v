(** Model of the k-point calculations in /repo/examples/kpt_hamiltonian.py and
    /repo/examples/kmp2.py.  PySCF (the cell, the mean field, KMP2) is the
    [kscf] record of IntegralsModel; the printed results are the values
    returned. *)
From Coq Require Import String.
From Coq Require Import List Bool Arith ZArith.
From Verif Require Import Scalar Tensor NpModel IntegralsModel.
Import ListNotations.

(** for k in range(n): acc = step(k, acc) *)
Definition for_range {A} (n : nat) (step : nat -> A -> A) (acc : A) : A := fold_left (fun a k => step k a) (seq 0 n) acc.

Section Scf.
  Variable K : cring.
  Local Open Scope K_scope.

  (** examples/kpt_hamiltonian.py:36-53.  [w] is 1/nkpts, so that x/nkpts is
      x * w; kmf.energy_nuc() is [e_nuc].  The slices :nocc and the einsum
      'ii->', 'iijj->', 'ijji->' over them are sums over range(nocc); a slice
      beyond nmo orbitals is cut short by Python, which is not modelled
      (nocc counts nonzero entries of mo_occ[0], of length nmo). *)
  Definition kpt_scf_energy (f : kscf K) (e_nuc w : K) (nocc : nat) : option K :=
    let? h := get_solk_integrals K f "chem" in
    let (h1, h2) := h in
    let h2 := tscale w h2 in
    let nk := k_n f in
    let Escf := e_nuc in
    let Escf := for_range nk (fun k Escf => Escf + (1 + 1) * sumN nocc (fun i => dat h1 [k; i; i]) * w) Escf in
    Some (for_range nk (fun kp Escf => for_range nk (fun kq Escf =>
      let Escf := Escf + (1 + 1) * sumN nocc (fun i => sumN nocc (fun j => dat h2 [kp; kp; kq; i; i; j; j])) * w in
      Escf - sumN nocc (fun i => sumN nocc (fun j => dat h2 [kp; kq; kq; i; j; j; i])) * w) Escf) Escf).
End Scf.
Arguments kpt_scf_energy {K}.

Section Mp2.
  Variable R : cring.
  (** 1/x *)
  Variable inv : R -> R.
  Notation C := (CplxK R).
  Local Open Scope K_scope.
  Definition of_real (x : R) : C := (x, c0).

  (** examples/kmp2.py:40-52: the blocks of kpt_eris before the division by nkpts *)
  Definition kpt_blocks (f : kscf C) : option (list (list (list (tensor C)))) :=
    let nk := k_n f in
    all_some (map (fun kp => all_some (map (fun kq => all_some (map (fun kr =>
      k_h2 C f false kp kq kr) (seq 0 nk))) (seq 0 nk))) (seq 0 nk)).
  (** kpt_eris[kp, kq, kr, p, q, r, s] *)
  Definition kpt_eri (f : kscf C) (l : list (list (list (tensor C)))) (kp kq kr p q r s : nat) : C :=
    dat (nth kr (nth kq (nth kp l []) []) (tzeros C [])) [p; q; r; s] * of_real (inv (zK (Z.of_nat (k_n f)))).

  (** examples/kmp2.py:54-66: kpt_abij[ka, kb, ki, a, b, i, j]; [e] is
      kmf.mo_energy *)
  Definition kpt_abij (f : kscf C) (e : nat -> nat -> R) (nocc : nat) l (ka kb ki a b i j : nat) : C :=
    let kj := kconserv f ka ki kb in
    let D2 := e ka (nocc + a)%nat + e kb (nocc + b)%nat - e ki i - e kj j in
    - kpt_eri f l ka kb ki (nocc + a) (nocc + b) i j * of_real (inv D2).

  (** examples/kmp2.py:40-80; .real is [fst].  nvir = nmo - nocc.  The slices are
      sums over range(nocc) and range(nvir). *)
  Definition kmp2 (f : kscf C) (e : nat -> nat -> R) (nocc : nat) : option R :=
    let nk := k_n f in
    let nvir := (k_nmo f - nocc)%nat in
    let? l := kpt_blocks f in
    let sum4 (g : nat -> nat -> nat -> nat -> C) : C :=
      sumN nocc (fun i => sumN nocc (fun j => sumN nvir (fun a => sumN nvir (fun b => g i j a b)))) in
    let emp2 := for_range nk (fun ka => for_range nk (fun kb => for_range nk (fun ki emp2 =>
      let kj := kconserv f ka ki kb in
      let I2 i j a b := kpt_eri f l ki kj ka i j (nocc + a) (nocc + b) in
      let I2x i j b a := kpt_eri f l ki kj kb i j (nocc + b) (nocc + a) in
      let T2 := kpt_abij f e nocc l ka kb ki in
      let emp2 := emp2 + (1 + 1) * fst (sum4 (fun i j a b => I2 i j a b * T2 a b i j)) in
      emp2 - fst (sum4 (fun i j a b => I2x i j b a * T2 a b i j))))) (0 : R) in
    Some (emp2 * inv (zK (Z.of_nat nk))).
End Mp2.
Arguments of_real {R}. Arguments kpt_blocks {R}. Arguments kpt_eri {R}. Arguments kpt_abij {R}. Arguments kmp2 {R}.
