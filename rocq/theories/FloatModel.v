(** Model of cqcpy/ft_utils.py in IEEE 754 double precision, the arithmetic it
    runs in: one definition per Python function, over the 64 bit binary floating
    point numbers of Flocq (with signed zeros, infinities and nan), rounding to
    nearest, ties to even.

    [numpy.exp] and [numpy.log] are parameters: the theorems state what they assume
    about them (FloatSpec.v).  nan payloads are not modelled (there is one nan).
    beta, epsilon and mu are numpy doubles or Python floats; a division by zero
    follows IEEE 754 as in numpy (a Python float would raise ZeroDivisionError). *)
From Coq Require Import ZArith List.
From Flocq Require Import Core BinarySingleNaN.
Import ListNotations.

(** numpy.float64 *)
#[global] Instance prec_pos : Prec_gt_0 53 := eq_refl.
#[global] Instance prec_emax : Prec_lt_emax 53 1024 := eq_refl.
Definition b64 : Type := binary_float 53 1024.
Definition fadd : b64 -> b64 -> b64 := Bplus mode_NE.
Definition fsub : b64 -> b64 -> b64 := Bminus mode_NE.
Definition fmul : b64 -> b64 -> b64 := Bmult mode_NE.
Definition fdiv : b64 -> b64 -> b64 := Bdiv mode_NE.
Definition fneg : b64 -> b64 := Bopp.
Definition flt : b64 -> b64 -> bool := Bltb.
(** the literals 1.0, 20.0, 30.0 *)
Definition flit (z : Z) : b64 := binary_normalize 53 1024 _ _ mode_NE z 0 false.

Section Functions.
  Variable np_exp np_log : b64 -> b64.

  (** fermi_function, ft_utils.py:12-21 *)
  Definition fermi_function64 (beta epsilon mu : b64) : b64 :=
    let emm := fsub epsilon mu in
    let x := fmul beta emm in
    if flt x (fneg (flit 30)) then fsub (flit 1) (np_exp x)
    else if flt (flit 30) x then np_exp (fneg x)
    else fdiv (flit 1) (fadd (np_exp x) (flit 1)).

  (** vfermi_function, ft_utils.py:24-33 *)
  Definition vfermi_function64 (beta epsilon mu : b64) : b64 :=
    let emm := fsub epsilon mu in
    let x := fmul beta emm in
    if flt (flit 30) x then fsub (flit 1) (np_exp (fneg x))
    else if flt x (fneg (flit 30)) then np_exp x
    else fdiv (np_exp x) (fadd (np_exp x) (flit 1)).

  (** grand_potential0, ft_utils.py:56-65 *)
  Definition grand_potential064 (beta epsilon mu : b64) : b64 :=
    let emm := fsub epsilon mu in
    let x := fmul beta emm in
    if flt x (fneg (flit 20)) then fadd (fdiv (fneg (np_exp x)) beta) emm
    else if flt (flit 20) x then fdiv (fneg (np_exp (fneg x))) beta
    else fadd (fdiv (np_log (fermi_function64 beta epsilon mu)) beta) emm.

  (** dgrand_potential0, ft_utils.py:68-81 *)
  Definition dgrand_potential064 (beta epsilon mu : b64) : b64 :=
    let emm := fsub epsilon mu in
    let x := fmul beta emm in
    if flt x (fneg (flit 20)) then
      fadd (fdiv (fmul (fneg emm) (vfermi_function64 beta epsilon mu)) beta)
           (fdiv (np_exp x) (fmul beta beta))
    else if flt (flit 20) x then
      fadd (fdiv (fmul emm (fermi_function64 beta epsilon mu)) beta)
           (fdiv (np_exp (fneg x)) (fmul beta beta))
    else
      fsub (fdiv (fneg (np_log (fermi_function64 beta epsilon mu))) (fmul beta beta))
           (fdiv (fmul emm (vfermi_function64 beta epsilon mu)) beta).

  (** [l[i] = x] on an array *)
  Fixpoint fput (i : nat) (x : b64) (l : list b64) {struct l} : list b64 :=
    match l, i with
    | [], _ => []
    | _ :: l', O => x :: l'
    | y :: l', S i' => y :: fput i' x l'
    end.
  (** [out = numpy.zeros(eps.shape)
       for i in range(eps.shape[0]): out[i] = f(eps[i])] *)
  Definition ffill (f : b64 -> b64) (eps : list b64) : list b64 :=
    fold_left (fun out i => fput i (f (nth i eps (flit 0))) out) (seq 0 (length eps))
      (repeat (flit 0) (length eps)).

  (** ffv, ft_utils.py:36-43 *)
  Definition ffv64 (beta : b64) (epsilon : list b64) (mu : b64) : list b64 :=
    ffill (fun e => vfermi_function64 beta e mu) epsilon.
  (** ff, ft_utils.py:46-53 *)
  Definition ff64 (beta : b64) (epsilon : list b64) (mu : b64) : list b64 :=
    ffill (fun e => fermi_function64 beta e mu) epsilon.
  (** GP0, ft_utils.py:83-91 *)
  Definition GP064 (beta : b64) (epsilon : list b64) (mu : b64) : list b64 :=
    ffill (fun e => grand_potential064 beta e mu) epsilon.
  (** uGP0, ft_utils.py:94-105 *)
  Definition uGP064 (beta : b64) (ea eb : list b64) (mu : b64) : list b64 * list b64 :=
    (ffill (fun e => grand_potential064 beta e mu) ea, ffill (fun e => grand_potential064 beta e mu) eb).
  (** dGP0, ft_utils.py:108-116 *)
  Definition dGP064 (beta : b64) (epsilon : list b64) (mu : b64) : list b64 :=
    ffill (fun e => dgrand_potential064 beta e mu) epsilon.
End Functions.
