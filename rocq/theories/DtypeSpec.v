(** Specification vocabulary for real work arrays.  No reference to the program.
    A complex number over the scalars R is the pair of its real and imaginary
    part. *)
From Coq Require Import List.
From Verif Require Import Scalar Tensor CCSpec.
Import ListNotations.

Section DtypeSpec.
  Context {R : cring}.
  Notation C := (CplxK R).
  (** the complex number with the real part of z and imaginary part zero *)
  Definition re (z : C) : C := (fst z, c0).
  (** x is the entrywise real part of y: arrays, Fock blocks, integral blocks *)
  Definition real_part_of (x y : tensor C) : Prop :=
    shp x = shp y /\ forall ix, dat x ix = re (dat y ix).
  Definition real_part_of1 (x y : one_e C) : Prop :=
    real_part_of (oo x) (oo y) /\ real_part_of (ov x) (ov y) /\ real_part_of (vo x) (vo y) /\ real_part_of (vv x) (vv y).
  Definition real_part_of2 (x y : two_e C) : Prop :=
    real_part_of (vvvv x) (vvvv y) /\ real_part_of (vvvo x) (vvvo y) /\ real_part_of (vovv x) (vovv y) /\
    real_part_of (vvoo x) (vvoo y) /\ real_part_of (vovo x) (vovo y) /\ real_part_of (oovv x) (oovv y) /\
    real_part_of (vooo x) (vooo y) /\ real_part_of (ooov x) (ooov y) /\ real_part_of (oooo x) (oooo y).
  (** the same call: both raise, or both return and the results are related *)
  Definition both {A B} (P : A -> B -> Prop) (x : option A) (y : option B) : Prop :=
    match x, y with Some a, Some b => P a b | None, None => True | _, _ => False end.
  (** all entries are real; the same entries *)
  Definition real_entries (t : tensor C) : Prop := forall ix, snd (dat t ix) = c0.
  Definition same_entries (x y : tensor C) : Prop := shp x = shp y /\ forall ix, dat x ix = dat y ix.
End DtypeSpec.
