(** Vocabulary for the statements about test_utils.py. *)
From Coq Require Import List Bool Arith.
From Verif Require Import Scalar Tensor CCSpec SpinSpec.
Import ListNotations.

Section TestUtilsSpec.
  Variable K : cring.
  Local Open Scope K_scope.
  Notation T := (tensor K).

  (** t[p, q] = t[q, p] *)
  Definition symmetric (t : T) : Prop :=
    forall p q, inrange (shp t) [p; q] -> dat t [p; q] = dat t [q; p].
  (** t[g, i, j, k, l] is antisymmetric in i, j and in k, l *)
  Definition antisym_ft (t : T) : Prop :=
    forall g i j k l, inrange (shp t) [g; i; j; k; l] ->
      dat t [g; i; j; k; l] = - dat t [g; j; i; k; l] /\ dat t [g; i; j; k; l] = - dat t [g; i; j; l; k].

  (** the entries of [t] are twice the antisymmetrized entries of [r], so they
      are not all zero for every draw [r] *)
  Definition antisymmetrized (r : list nat -> K) (t : T) : Prop :=
    forall i j k l, inrange (shp t) [i; j; k; l] ->
      dat t [i; j; k; l] = (c1 + c1) * (r [i; j; k; l] - r [j; i; k; l] - r [i; j; l; k] + r [j; i; l; k]).
  Definition antisymmetrized_ft (r : list nat -> K) (t : T) : Prop :=
    forall g i j k l, inrange (shp t) [g; i; j; k; l] ->
      dat t [g; i; j; k; l] =
        (c1 + c1) * (r [g; i; j; k; l] - r [g; j; i; k; l] - r [g; i; j; l; k] + r [g; j; i; l; k]).

  (** [u] holds the entries of the array [Itot] of all orbitals (occupied ones
      first) whose indices lie in the spaces [ss]: [false] occupied, [true]
      virtual *)
  Definition is_part (no nv : nat) (Itot : T) (ss : list bool) (u : T) : Prop :=
    shp u = sels ss [no; no; no; no]%nat [nv; nv; nv; nv]%nat /\
    forall idx, inrange (shp u) idx -> dat u idx = dat Itot (ats [no; no; no; no]%nat ss idx).
  Notation V := true. Notation O := false.
  Definition parts (no nv : nat) (Itot : T) (I : two_e K) : Prop :=
    is_part no nv Itot [V; V; V; V] (vvvv I) /\ is_part no nv Itot [V; V; V; O] (vvvo I) /\
    is_part no nv Itot [V; O; V; V] (vovv I) /\ is_part no nv Itot [V; V; O; O] (vvoo I) /\
    is_part no nv Itot [V; O; V; O] (vovo I) /\ is_part no nv Itot [O; O; V; V] (oovv I) /\
    is_part no nv Itot [V; O; O; O] (vooo I) /\ is_part no nv Itot [O; O; O; V] (ooov I) /\
    is_part no nv Itot [O; O; O; O] (oooo I).
  Definition parts_full (no nv : nat) (Itot : T) (I : two_e_full K) : Prop :=
    is_part no nv Itot [V; V; V; V] (fvvvv I) /\ is_part no nv Itot [V; V; V; O] (fvvvo I) /\
    is_part no nv Itot [V; V; O; V] (fvvov I) /\ is_part no nv Itot [V; O; V; V] (fvovv I) /\
    is_part no nv Itot [O; V; V; V] (fovvv I) /\ is_part no nv Itot [V; V; O; O] (fvvoo I) /\
    is_part no nv Itot [V; O; V; O] (fvovo I) /\ is_part no nv Itot [V; O; O; V] (fvoov I) /\
    is_part no nv Itot [O; V; V; O] (fovvo I) /\ is_part no nv Itot [O; V; O; V] (fovov I) /\
    is_part no nv Itot [O; O; V; V] (foovv I) /\ is_part no nv Itot [O; O; O; V] (fooov I) /\
    is_part no nv Itot [O; O; V; O] (foovo I) /\ is_part no nv Itot [O; V; O; O] (fovoo I) /\
    is_part no nv Itot [V; O; O; O] (fvooo I) /\ is_part no nv Itot [O; O; O; O] (foooo I).
End TestUtilsSpec.
Arguments symmetric {K}. Arguments antisym_ft {K}. Arguments antisymmetrized {K}. Arguments antisymmetrized_ft {K}. Arguments is_part {K}. Arguments parts {K}.
Arguments parts_full {K}.
