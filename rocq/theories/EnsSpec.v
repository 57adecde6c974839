(** The grand canonical ensemble of independent electrons, written without
    reference to ft_utils: all occupations of the levels with their Boltzmann
    weights. *)
From Coq Require Import Reals List.
Import ListNotations.
Local Open Scope R_scope.

Definition total (l : list R) : R := fold_right Rplus 0 l.

(** all ways to occupy n levels *)
Fixpoint states (n : nat) : list (list bool) :=
  match n with
  | O => [[]]
  | S n' => map (cons false) (states n') ++ map (cons true) (states n')
  end.

(** the energy minus mu times the number of electrons *)
Fixpoint grand_energy (eps : list R) (mu : R) (s : list bool) : R :=
  match eps, s with
  | e :: eps', b :: s' => (if b then e - mu else 0) + grand_energy eps' mu s'
  | _, _ => 0
  end.

Definition boltzmann (beta : R) (eps : list R) (mu : R) (s : list bool) : R := exp (- (beta * grand_energy eps mu s)).

Definition partition (beta : R) (eps : list R) (mu : R) : R := total (map (boltzmann beta eps mu) (states (length eps))).

Definition probability (beta : R) (eps : list R) (mu : R) (s : list bool) : R :=
  boltzmann beta eps mu s / partition beta eps mu.

Definition average (beta : R) (eps : list R) (mu : R) (f : list bool -> R) : R :=
  total (map (fun s => f s * probability beta eps mu s) (states (length eps))).

(** 1 if level i is occupied, 0 if not, and the other way round *)
Definition filled (i : nat) (s : list bool) : R := if nth i s false then 1 else 0.
Definition empty (i : nat) (s : list bool) : R := if nth i s false then 0 else 1.

Definition electrons (s : list bool) : R := total (map (fun b : bool => if b then 1 else 0) s).

(** every level within a distance of d / beta from mu *)
Definition within (d beta : R) (eps : list R) (mu : R) : Prop :=
  forall e, In e eps -> - d <= beta * (e - mu) <= d.

(** a probability distribution on the occupations of n levels *)
Definition distribution (n : nat) (p : list bool -> R) : Prop :=
  (forall s, In s (states n) -> 0 <= p s) /\ total (map p (states n)) = 1.
