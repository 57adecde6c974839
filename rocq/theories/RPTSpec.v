(** Vocabulary for perturbation theory of closed shells.  No reference to the
    program. *)
From Coq Require Import List Arith.
From Verif Require Import Scalar Tensor UFockSpec.

(** occupied energies, then virtual energies *)
Definition levels {K : cring} (no : nat) (eo ev : nat -> K) (p : nat) : K := if Nat.ltb p no then eo p else ev (p - no)%nat.
(** sum_ijab (2 <ij|ab> - <ij|ba>) t_abij *)
Definition closed_pairs {K : cring} (no nv : nat) (I t : nat -> nat -> nat -> nat -> K) : K :=
  sumN no (fun i => sumN no (fun j => sumN nv (fun a => sumN nv (fun b =>
    ((1 + 1) * I i j (no + a)%nat (no + b)%nat - I i j (no + b)%nat (no + a)%nat) * t a b i j))))%K.
