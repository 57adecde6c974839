(** Vocabulary for the statements about utils.py and ov_blocks.py. *)
From Coq Require Import List Bool Arith String.
From Verif Require Import Scalar Tensor CCSpec SpinSpec UtilsModel.
Import ListNotations.

Section UtilsSpec.
  Variable K : cring.
  Local Open Scope K_scope.
  Notation T := (tensor K).

  (** entry of the concatenation of two vectors, the first of length [n] *)
  Definition cat (n : nat) (x y : T) (p : nat) : K :=
    if Nat.ltb p n then dat x [p] else dat y [p - n]%nat.

  (** spaces: [false] occupied, [true] virtual *)
  Definition letter (v : bool) : string := if v then "v" else "o".
  Definition block_name (l : list bool) : string := String.concat "" (map letter l).

  (** the attribute of [b] named by the spaces [ss] holds the entries of [Itot]
      at those spaces; [os] and [vs] are the numbers of occupied and virtual
      orbitals of the axes *)
  Definition is_block (os vs : list nat) (Itot : T) (b : blocks K) (ss : list bool) : Prop :=
    exists u, attr (block_name ss) b = Some u /\ shp u = sels ss os vs /\
      forall idx, inrange (sels ss os vs) idx -> dat u idx = dat Itot (ats os ss idx).

End UtilsSpec.
Arguments cat {K}. Arguments is_block {K}.
