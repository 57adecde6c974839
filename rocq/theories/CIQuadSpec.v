(** Specification of the list that q_strings (ci_utils.py:135-168) returns.
    Independent of the model in CIModel.v. *)
From Coq Require Import List Bool Arith Permutation.
From Verif Require Import CISpec.
Import ListNotations.

(** in any order, the quadruple excitations of s that empty orbitals 0 and 1,
    each as many times as there are pairs of an electron of s and an empty
    orbital of s *)
Definition q_list_of (s : det) (l : list det) : Prop :=
  exists l1, NoDup l1 /\
    (forall t, In t l1 <-> excited 4 s t /\ occd t 0 = false /\ occd t 1 = false) /\
    Permutation l (concat (repeat l1 (nel s * (length s - nel s)))).
