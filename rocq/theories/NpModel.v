(** NumPy slices [:n] and [n:], reading and assigning. *)
From Coq Require Import List Bool Arith Lia.
From Verif Require Import Scalar Tensor.
Import ListNotations.

(** [:n] and [n:] for n >= 0; as in Python, bounds beyond the end are clipped *)
Inductive sl : Type := Upto (n : nat) | From (n : nat).

Definition sl_lo (s : sl) (d : nat) : nat := match s with Upto _ => 0 | From n => Nat.min n d end.
Definition sl_len (s : sl) (d : nat) : nat := match s with Upto n => Nat.min n d | From n => d - n end.

Fixpoint sl_lens (ss : list sl) (sh : list nat) : list nat :=
  match ss, sh with s :: ss', d :: sh' => sl_len s d :: sl_lens ss' sh' | _, _ => [] end.

(** index into the whole array of index [idx] of the slice *)
Fixpoint sl_out (ss : list sl) (sh idx : list nat) : list nat :=
  match ss, sh, idx with
  | s :: ss', d :: sh', i :: idx' => (sl_lo s d + i) :: sl_out ss' sh' idx'
  | _, _, _ => []
  end.

(** index into the slice of index [idx] of the whole array, if it lies there *)
Fixpoint sl_in (ss : list sl) (sh idx : list nat) : option (list nat) :=
  match ss, sh, idx with
  | s :: ss', d :: sh', i :: idx' =>
      if Nat.leb (sl_lo s d) i && Nat.ltb i (sl_lo s d + sl_len s d)
      then match sl_in ss' sh' idx' with Some r => Some ((i - sl_lo s d) :: r) | None => None end
      else None
  | _, _, _ => Some []
  end.

Section Slices.
  Variable K : cring.

  (** [t[s1, ..., sn]] with one slice per axis *)
  Definition tslice (ss : list sl) (t : tensor K) : option (tensor K) :=
    if Nat.eqb (List.length ss) (List.length (shp t))
    then Some (mkT (sl_lens ss (shp t)) (fun idx => dat t (sl_out ss (shp t) idx)))
    else None.

  (** [t[s1, ..., sn] = u]; simplification: [u] must have the shape of the
      slice (NumPy would also broadcast) *)
  Definition tset (ss : list sl) (u t : tensor K) : option (tensor K) :=
    if Nat.eqb (List.length ss) (List.length (shp t)) && shape_eqb (shp u) (sl_lens ss (shp t))
    then Some (mkT (shp t) (fun idx => match sl_in ss (shp t) idx with
                                       | Some r => dat u r | None => dat t idx end))
    else None.

  (** [A - B] *)
  Definition tsub (A B : tensor K) : option (tensor K) := tadd A (tneg B).
End Slices.
Arguments tslice {K}. Arguments tset {K}. Arguments tsub {K}.

(** exceptions as [None] *)
Definition bindo {A B} (o : option A) (f : A -> option B) : option B :=
  match o with Some a => f a | None => None end.
Notation "'let?' x := e 'in' b" := (bindo e (fun x => b))
  (at level 200, x pattern, b at level 200).
