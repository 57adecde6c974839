(** Specification vocabulary for restricted (closed-shell) coupled cluster theory
    in Fock space: operators summed over spins.  There are n alpha orbitals
    0 .. n-1 and n beta orbitals n .. 2n-1.  No reference to the program. *)
From Coq Require Import List Arith.
From Verif Require Import Scalar Tensor CISpec CIExpSpec CCSpec CCFockSpec UFockSpec.
Import ListNotations.

Section RFockSpec.
  Variable K : cring.
  Local Open Scope K_scope.
  Notation opsum := (list (K * list op)).

  (** E_pq = a+_p a_q + b+_p b_q *)
  Definition generator (n p q : nat) : opsum :=
    [(1, [Cre p; Ann q]); (1, [Cre (n + p); Ann (n + q)])].

  (** sum_pq h_pq E_pq + 1/2 sum_pqrs I_pqrs (E_pr E_qs - delta_qr E_ps), I_pqrs = <pq|rs> *)
  Definition H_closed (n : nat) (h : nat -> nat -> K) (I : nat -> nat -> nat -> nat -> K) : opsum :=
    flat_map (fun p => flat_map (fun q => opscale (h p q) (generator n p q)) (seq 0 n)) (seq 0 n) ++
    flat_map (fun p => flat_map (fun q => flat_map (fun r => flat_map (fun s =>
      opscale (chalf * I p q r s)
        (opmul (generator n p r) (generator n q s) ++
         (if Nat.eqb q r then opscale (- (1)) (generator n p s) else [])))
      (seq 0 n)) (seq 0 n)) (seq 0 n)) (seq 0 n).

  (** sum_ai t_ai E_ai + 1/2 sum_abij t_abij E_ai E_bj, the first no orbitals being occupied *)
  Definition r_cluster (n no nv : nat) (T1 T2 : tensor K) : opsum :=
    flat_map (fun a => flat_map (fun i => opscale (dat T1 [a; i]) (generator n (no + a) i)) (seq 0 no)) (seq 0 nv) ++
    flat_map (fun a => flat_map (fun b => flat_map (fun i => flat_map (fun j =>
      opscale (chalf * dat T2 [a; b; i; j]) (opmul (generator n (no + a) i) (generator n (no + b) j)))
      (seq 0 no)) (seq 0 no)) (seq 0 nv)) (seq 0 nv).

  (** the closed-shell Fock matrix h_pq + sum_i (2 <pi|qi> - <pi|iq>) *)
  Definition r_fock (no : nat) (h : nat -> nat -> K) (I : nat -> nat -> nat -> nat -> K) (p q : nat) : K :=
    h p q + sumN no (fun i => (1 + 1) * I p i q i - I p i i q).

  (** The arguments of the restricted functions for the Hamiltonian with integrals
      h, I and no doubly occupied orbitals *)
  Definition r_hamiltonian (n no nv : nat) (h : nat -> nat -> K) (I : nat -> nat -> nat -> nat -> K)
      (F : one_e K) (J : two_e_full K) : Prop :=
    (no + nv)%nat = n /\ pair_symmetric n I /\ blocks1 no nv (r_fock no h I) F /\ blocks2_mixed no nv no nv I J.

  (** amplitudes with t_abij = t_baji *)
  Definition r_amps_ok (no nv : nat) (T1 T2 : tensor K) : Prop :=
    shp T1 = [nv; no] /\ shp T2 = [nv; nv; no; no] /\
    forall a b i j, (a < nv)%nat -> (b < nv)%nat -> (i < no)%nat -> (j < no)%nat ->
      dat T2 [a; b; i; j] = dat T2 [b; a; j; i].

  (** all entries of the residuals vanish *)
  Definition r_solved (no nv : nat) (R1 R2 : tensor K) : Prop :=
    (forall a i, (a < nv)%nat -> (i < no)%nat -> dat R1 [a; i] = 0) /\
    (forall a b i j, (a < nv)%nat -> (b < nv)%nat -> (i < no)%nat -> (j < no)%nat -> dat R2 [a; b; i; j] = 0).

  (** the spin operators S+ = sum_p a+_p b_p and S- = sum_p b+_p a_p *)
  Definition S_plus (n : nat) : opsum := map (fun p => (1, [Cre p; Ann (n + p)])) (seq 0 n).
  Definition S_minus (n : nat) : opsum := map (fun p => (1, [Cre (n + p); Ann p])) (seq 0 n).
  (** S_z = 1/2 sum_p (a+_p a_p - b+_p b_p) and S^2 = S- S+ + S_z S_z + S_z *)
  Definition S_z (n : nat) : opsum :=
    map (fun p => (chalf, [Cre p; Ann p])) (seq 0 n) ++ map (fun p => (- chalf, [Cre (n + p); Ann (n + p)])) (seq 0 n).
  Definition S_squared (n : nat) : opsum := opmul (S_minus n) (S_plus n) ++ opmul (S_z n) (S_z n) ++ S_z n.
End RFockSpec.
Arguments S_z {K}. Arguments S_squared {K}.
Arguments generator {K}. Arguments H_closed {K}. Arguments r_cluster {K}. Arguments r_fock {K}. Arguments r_hamiltonian {K}.
Arguments r_amps_ok {K}. Arguments r_solved {K}. Arguments S_plus {K}. Arguments S_minus {K}.
