(** Model of cqcpy/ft_utils.py, one definition per Python function.

    Numbers are the real numbers of the standard library: rounding, overflow,
    underflow and nan are not modelled.  x/0 is 0 in Coq; every theorem about a
    quotient by beta assumes that beta is not 0.  Vectors of energies are
    one-dimensional arrays (lists). *)
From Coq Require Import Reals List.
Import ListNotations.
Local Open Scope R_scope.

(** ft_utils.py:3-4 *)
Definition hartree_to_ev : R := 272113860217 / 10 ^ 10.
Definition kb : R := 8617330350 / 10 ^ 14.

(** HtoK, ft_utils.py:7-9 *)
Definition HtoK (T : R) : R := T * hartree_to_ev / kb.

(** fermi_function, ft_utils.py:12-21 *)
Definition fermi_function (beta epsilon mu : R) : R :=
  let emm := epsilon - mu in
  let x := beta * emm in
  if Rlt_dec x (-30) then 1 - exp x
  else if Rlt_dec 30 x then exp (- x)
  else 1 / (exp x + 1).

(** vfermi_function, ft_utils.py:24-33 *)
Definition vfermi_function (beta epsilon mu : R) : R :=
  let emm := epsilon - mu in
  let x := beta * emm in
  if Rlt_dec 30 x then 1 - exp (- x)
  else if Rlt_dec x (-30) then exp x
  else exp x / (exp x + 1).

(** [l[i] = x] on an array *)
Fixpoint put_at (i : nat) (x : R) (l : list R) {struct l} : list R :=
  match l, i with
  | [], _ => []
  | _ :: l', O => x :: l'
  | y :: l', S i' => y :: put_at i' x l'
  end.
(** [out = numpy.zeros(eps.shape)
     for i in range(eps.shape[0]): out[i] = f(eps[i])] *)
Definition fill (f : R -> R) (eps : list R) : list R :=
  fold_left (fun out i => put_at i (f (nth i eps 0)) out) (seq 0 (length eps))
    (repeat 0 (length eps)).

(** ffv, ft_utils.py:36-43 *)
Definition ffv (beta : R) (epsilon : list R) (mu : R) : list R :=
  fill (fun e => vfermi_function beta e mu) epsilon.

(** ff, ft_utils.py:46-53 *)
Definition ff (beta : R) (epsilon : list R) (mu : R) : list R :=
  fill (fun e => fermi_function beta e mu) epsilon.

(** grand_potential0, ft_utils.py:56-65 *)
Definition grand_potential0 (beta epsilon mu : R) : R :=
  let emm := epsilon - mu in
  let x := beta * emm in
  if Rlt_dec x (-20) then (- exp x) / beta + emm
  else if Rlt_dec 20 x then (- exp (- x)) / beta
  else ln (fermi_function beta epsilon mu) / beta + emm.

(** dgrand_potential0, ft_utils.py:68-80 *)
Definition dgrand_potential0 (beta epsilon mu : R) : R :=
  let emm := epsilon - mu in
  let x := beta * emm in
  if Rlt_dec x (-20) then
    - emm * vfermi_function beta epsilon mu / beta + exp x / (beta * beta)
  else if Rlt_dec 20 x then
    emm * fermi_function beta epsilon mu / beta + exp (- x) / (beta * beta)
  else
    - ln (fermi_function beta epsilon mu) / (beta * beta)
    - emm * vfermi_function beta epsilon mu / beta.

(** GP0, ft_utils.py:83-91 *)
Definition GP0 (beta : R) (epsilon : list R) (mu : R) : list R :=
  fill (fun e => grand_potential0 beta e mu) epsilon.

(** uGP0, ft_utils.py:94-105 *)
Definition uGP0 (beta : R) (ea eb : list R) (mu : R) : list R * list R :=
  (fill (fun e => grand_potential0 beta e mu) ea, fill (fun e => grand_potential0 beta e mu) eb).

(** dGP0, ft_utils.py:108-116 *)
Definition dGP0 (beta : R) (epsilon : list R) (mu : R) : list R :=
  fill (fun e => dgrand_potential0 beta e mu) epsilon.
