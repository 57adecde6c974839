(** How the specification's determinants and occupation vectors are
    represented by the objects of ci_utils.py. *)
From Coq Require Import List Bool Arith ZArith.
From Verif Require Import CIModel CISpec.
Import ListNotations.

(** the Dstring object of a determinant *)
Definition b2z (b : bool) : Z := if b then 1%Z else 0%Z.
Definition dstr (s : det) : dstring := mkD (length s) (map b2z s).
(** a pair of an alpha and a beta determinant *)
Notation udet := (det * det)%type.
Definition dpair (x : udet) : upair := (dstr (fst x), dstr (snd x)).
(** the sign as Python returns it *)
Definition zsgn (g : bool) : Z := if g then (-1)%Z else 1%Z.

(** the Pstring object with v_p quanta in mode p *)
Definition pvec (v : list nat) : pstring := mkP (length v) (map Z.of_nat v).
(** total number of quanta *)
Fixpoint total (v : list nat) : nat := match v with [] => 0 | x :: v' => x + total v' end.

(** the reference of the g-bases: N electrons in m alpha and m beta orbitals,
    the alpha orbitals first, the extra electron alpha *)
Definition gref (m N : nat) : det := aufbau m (N - Nat.div N 2) ++ aufbau m (Nat.div N 2).
