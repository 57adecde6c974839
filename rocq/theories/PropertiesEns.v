(** C101: occupations and grand potentials of ft_utils.py are those of the
    grand canonical ensemble ([EnsSpec]).  [derivable_pt_lim f x l] says that
    the derivative of f at x is l. *)
From Coq Require Import Reals List Lra Lia.
From Verif Require Import FTModel FTFacts EnsSpec Ens.
Import ListNotations.
Local Open Scope R_scope.

(** the elements of [ff] and [ffv] are the probabilities that a level is filled
    and that it is empty *)
Theorem C101_occupation (beta mu : R) (eps : list R) (i : nat) : (i < length eps)%nat ->
  within 30 beta eps mu ->
  nth i (ff beta eps mu) 0 = average beta eps mu (filled i) /\
  nth i (ffv beta eps mu) 0 = average beta eps mu (empty i).
Proof. exact (ff_avg beta mu eps i). Qed.
Print Assumptions C101_occupation.

Theorem C101_occupation_error (beta mu : R) (eps : list R) (i : nat) : (i < length eps)%nat ->
  Rabs (nth i (ff beta eps mu) 0 - average beta eps mu (filled i)) < exp (-60) /\
  Rabs (nth i (ffv beta eps mu) 0 - average beta eps mu (empty i)) < exp (-60).
Proof. exact (ff_avg_err beta mu eps i). Qed.
Print Assumptions C101_occupation_error.

(** products of occupations, as in finite temperature contractions, are the
    probabilities for two levels *)
Theorem C101_two_levels (beta mu : R) (eps : list R) (i j : nat) :
  i <> j -> (i < length eps)%nat -> (j < length eps)%nat -> within 30 beta eps mu ->
  nth i (ff beta eps mu) 0 * nth j (ff beta eps mu) 0 = average beta eps mu (fun s => filled i s * filled j s) /\
  nth i (ff beta eps mu) 0 * nth j (ffv beta eps mu) 0 = average beta eps mu (fun s => filled i s * empty j s).
Proof. exact (ff_pair beta mu eps i j). Qed.
Print Assumptions C101_two_levels.

Theorem C101_electrons (beta mu : R) (eps : list R) : within 30 beta eps mu ->
  total (ff beta eps mu) = average beta eps mu electrons.
Proof. exact (ff_number beta mu eps). Qed.
Print Assumptions C101_electrons.

(** the sum of [GP0] is -(1/beta) ln of the partition function *)
Theorem C101_grand_potential (beta mu : R) (eps : list R) : beta <> 0 -> within 20 beta eps mu ->
  total (GP0 beta eps mu) = - ln (partition beta eps mu) / beta.
Proof. exact (gp_total beta mu eps). Qed.
Print Assumptions C101_grand_potential.

Theorem C101_grand_potential_error (beta mu : R) (eps : list R) : beta <> 0 ->
  Rabs (total (GP0 beta eps mu) - - ln (partition beta eps mu) / beta)
  <= INR (length eps) * (exp (-40) / Rabs beta).
Proof. exact (gp_total_err beta mu eps). Qed.
Print Assumptions C101_grand_potential_error.

(** its derivatives *)
Theorem C101_derivatives (beta mu : R) (eps : list R) : beta <> 0 -> within 20 beta eps mu ->
  derivable_pt_lim (fun b => - ln (partition b eps mu) / b) beta (total (dGP0 beta eps mu)) /\
  derivable_pt_lim (fun m => - ln (partition beta eps m) / beta) mu (- total (ff beta eps mu)).
Proof.
  exact (fun B W => conj (omega_dbeta beta mu eps B W) (omega_dmu beta mu eps B (within_30 beta mu eps W))).
Qed.
Print Assumptions C101_derivatives.

(** the energy and the entropy of the ensemble from [GP0] and [dGP0] *)
Theorem C101_energy_and_entropy (beta mu : R) (eps : list R) : beta <> 0 -> within 20 beta eps mu ->
  total (GP0 beta eps mu) + beta * total (dGP0 beta eps mu) = average beta eps mu (grand_energy eps mu) /\
  beta * beta * total (dGP0 beta eps mu) = - average beta eps mu (fun s => ln (probability beta eps mu s)).
Proof. exact (fun B W => conj (energy_total beta mu eps B W) (entropy beta mu eps B W)). Qed.
Print Assumptions C101_energy_and_entropy.

(** no other distribution of the electrons has a lower grand potential
    (ln 0 is 0 in Coq, so that 0 ln 0 = 0), and that of the ensemble has this one *)
Theorem C101_gibbs (beta mu : R) (eps : list R) (p : list bool -> R) : 0 < beta -> within 20 beta eps mu ->
  distribution (length eps) p ->
  total (GP0 beta eps mu)
  <= total (map (fun s => p s * (grand_energy eps mu s + ln (p s) / beta)) (states (length eps))).
Proof.
  exact (fun B W D => eq_ind_r (fun x => x <= _) (gibbs beta mu eps p B D)
    (gp_total beta mu eps (Rgt_not_eq _ _ B) W)).
Qed.
Print Assumptions C101_gibbs.

Theorem C101_gibbs_equality (beta mu : R) (eps : list R) : 0 < beta -> within 20 beta eps mu ->
  distribution (length eps) (probability beta eps mu) /\
  total (GP0 beta eps mu)
  = total (map (fun s => probability beta eps mu s *
      (grand_energy eps mu s + ln (probability beta eps mu s) / beta)) (states (length eps))).
Proof. exact (gibbs_equal beta mu eps). Qed.
Print Assumptions C101_gibbs_equality.

(** two levels, one below and one above mu *)
Example C101_example :
  within 20 1 [-1; 3] 0 /\ states 2 = [[false; false]; [false; true]; [true; false]; [true; true]] /\
  partition 1 [-1; 3] 0 = 1 + exp (-3) + exp 1 + exp (-2) /\
  total (GP0 1 [-1; 3] 0) = - ln (1 + exp (-3) + exp 1 + exp (-2)) /\
  distribution 2 (fun s => if nth 0 s false then (if nth 1 s false then 0 else 1) else 0).
Proof.
  assert (W : within 20 1 [-1; 3] 0) by (intros e [<-|[<-|[]]]; lra).
  assert (P : partition 1 [-1; 3] 0 = 1 + exp (-3) + exp 1 + exp (-2)).
  { unfold partition, boltzmann. simpl.
    replace (- (1 * (0 + (0 + 0)))) with 0 by ring. replace (- (1 * (0 + (3 - 0 + 0)))) with (-3) by ring.
    replace (- (1 * (-1 - 0 + (0 + 0)))) with 1 by ring. replace (- (1 * (-1 - 0 + (3 - 0 + 0)))) with (-2) by ring.
    rewrite exp_0. ring. }
  split; [exact W|]. split; [reflexivity|]. split; [exact P|]. split.
  - rewrite (C101_grand_potential 1 0 [-1; 3]) by (assumption || lra). rewrite P. field.
  - split; [|simpl; ring]. intros s _. destruct (nth 0 s false), (nth 1 s false); lra.
Qed.
