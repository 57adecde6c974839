(** Specification: a change of the occupied-occupied and virtual-virtual blocks
    of the Fock matrix, in particular of the orbital energies. *)
From Coq Require Import List Arith.
From Verif Require Import Scalar Tensor CCSpec.
Import ListNotations.

Section Shift.
  Context {K : cring}.
  Local Open Scope K_scope.
  Notation T := (tensor K).

  (** [w = t + u], entry by entry *)
  Definition plus (t u w : T) : Prop :=
    shp u = shp t /\ shp w = shp t /\
    forall idx, inrange (shp t) idx -> dat w idx = dat t idx + dat u idx.

  (** the Fock matrix [F'] is [F] with [hoo] and [hvv] added to two of its blocks *)
  Definition fock_plus (F : one_e K) (hoo hvv : T) (F' : one_e K) : Prop :=
    plus (oo F) hoo (oo F') /\ plus (vv F) hvv (vv F') /\ teq (ov F) (ov F') /\ teq (vo F) (vo F').

  (** the commutator of the one-particle operator with these two blocks with
      the cluster operator: singles, and doubles for two particles that may be
      of different spin *)
  Definition comm1 (no nv : nat) (hoo hvv t : T) : T :=
    mkT [nv; no] (fun idx => match idx with
      | [a; i] => sumN nv (fun b => dat hvv [a; b] * dat t [b; i])
                  - sumN no (fun j => dat t [a; j] * dat hoo [j; i])
      | _ => 0 end).
  Definition comm2 (no nv mo mv : nat) (hoo hvv goo gvv t : T) : T :=
    mkT [nv; mv; no; mo] (fun idx => match idx with
      | [a; b; i; j] => sumN nv (fun c => dat hvv [a; c] * dat t [c; b; i; j])
                        + sumN mv (fun c => dat gvv [b; c] * dat t [a; c; i; j])
                        - sumN no (fun k => dat t [a; b; k; j] * dat hoo [k; i])
                        - sumN mo (fun k => dat t [a; b; i; k] * dat goo [k; j])
      | _ => 0 end).
  (** the same with the operator on the other side, for Lambda *)
  Definition lcomm1 (no nv : nat) (hoo hvv l : T) : T :=
    mkT [no; nv] (fun idx => match idx with
      | [i; a] => sumN nv (fun b => dat l [i; b] * dat hvv [b; a])
                  - sumN no (fun j => dat hoo [i; j] * dat l [j; a])
      | _ => 0 end).
  Definition lcomm2 (no nv mo mv : nat) (hoo hvv goo gvv l : T) : T :=
    mkT [no; mo; nv; mv] (fun idx => match idx with
      | [i; j; a; b] => sumN nv (fun c => dat l [i; j; c; b] * dat hvv [c; a])
                        + sumN mv (fun c => dat l [i; j; a; c] * dat gvv [c; b])
                        - sumN no (fun k => dat hoo [i; k] * dat l [k; j; a; b])
                        - sumN mo (fun k => dat goo [j; k] * dat l [i; k; a; b])
      | _ => 0 end).

  (** a diagonal matrix; products entry by entry; for Lambda the first factor
      is stored with virtual indices first *)
  Definition diag (n : nat) (e : T) : T :=
    mkT [n; n] (fun idx => match idx with
      | [p; q] => if Nat.eqb p q then dat e [p] else 0 | _ => 0 end).
  Definition times (d t : T) : T := mkT (shp t) (fun idx => dat d idx * dat t idx).
  Definition times_l (d l : T) : T :=
    mkT (shp l) (fun idx => match idx with
      | [i; a] => dat d [a; i] * dat l idx
      | [i; j; a; b] => dat d [a; b; i; j] * dat l idx
      | _ => 0 end).
  (** orbital energies added on the diagonal *)
  Definition energy_shift (no nv : nat) (eo ev : T) (F F' : one_e K) : Prop :=
    shp eo = [no] /\ shp ev = [nv] /\ fock_plus F (diag no eo) (diag nv ev) F'.

  (** all entries zero *)
  Definition vanishes (t : T) : Prop := forall idx, inrange (shp t) idx -> dat t idx = 0.
  (** [u = - r], entry by entry *)
  Definition balances (u r : T) : Prop := forall idx, inrange (shp r) idx -> dat u idx = - dat r idx.
  (** [r'] is [r] with [u] added, and it is zero where [u] balances [r] *)
  Definition raised (r u r' : T) : Prop := plus r u r' /\ (vanishes r' <-> balances u r).
End Shift.
