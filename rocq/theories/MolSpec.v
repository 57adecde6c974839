(** Vocabulary for the statements that join integrals.py, ov_blocks.py and the
    coupled cluster functions: the electronic Hamiltonian of a molecule in its
    molecular (spin) orbitals. *)
From Coq Require Import List Bool Arith ZArith String.
From Verif Require Import Scalar Tensor CCSpec IntegralsModel IntegralsSpec UtilsModel.
Import ListNotations.
Local Open Scope string_scope.

Section MolSpec.
  Variable K : cring.
  Local Open Scope K_scope.
  Notation T := (tensor K).

  (** one-electron integrals <x|h|y> of the matrix [hc] over atomic orbitals *)
  Definition core (m : mol K) (hc : nat -> nat -> K) (c d : orbital K) : K :=
    sumN (nao m) (fun mu => sumN (nao m) (fun nu => bar m (c mu) * hc mu nu * d nu)).
  Definition so_core (m : mol K) (hc : nat -> nat -> K) (x y : spin_orbital K) : K :=
    if Bool.eqb (fst x) (fst y) then core m hc (snd x) (snd y) else 0.

  (** the spin orbitals of a mean field in the order occupied alpha, occupied
      beta, virtual alpha, virtual beta *)
  Definition ordered_so (occa occb : list Z) (moa mob : T) (p : nat) : spin_orbital K :=
    so moa mob (nth p (so_positions false occa occb ++ so_positions true occa occb)%list 0%nat).

  (** <12|34> over spatial orbitals *)
  Definition space_ints (m : mol K) (oa ob : T) (p q r s : nat) : K :=
    ERI m (column oa p) (column oa r) (column ob q) (column ob s).

  (** an object with the attributes of I *)
  Definition eri_object (B : eriB K) (I : two_e K) : Prop :=
    e_vvvv B = Some (vvvv I) /\ e_vvvo B = Some (vvvo I) /\ e_vovv B = Some (vovv I) /\
    e_vvoo B = Some (vvoo I) /\ e_vovo B = Some (vovo I) /\ e_oovv B = Some (oovv I) /\
    e_vooo B = Some (vooo I) /\ e_ooov B = Some (ooov I) /\ e_oooo B = Some (oooo I).
  Definition blocks_object (b : blocks K) (I : two_e K) : Prop :=
    attr "vvvv" b = Some (vvvv I) /\ attr "vvvo" b = Some (vvvo I) /\ attr "vovv" b = Some (vovv I) /\
    attr "vvoo" b = Some (vvoo I) /\ attr "vovo" b = Some (vovo I) /\ attr "oovv" b = Some (oovv I) /\
    attr "vooo" b = Some (vooo I) /\ attr "ooov" b = Some (ooov I) /\ attr "oooo" b = Some (oooo I).
  Definition full_object (b : blocks K) (J : two_e_full K) : Prop :=
    attr "vvvv" b = Some (fvvvv J) /\ attr "vvvo" b = Some (fvvvo J) /\ attr "vvov" b = Some (fvvov J) /\
    attr "vovv" b = Some (fvovv J) /\ attr "ovvv" b = Some (fovvv J) /\ attr "vvoo" b = Some (fvvoo J) /\
    attr "vovo" b = Some (fvovo J) /\ attr "voov" b = Some (fvoov J) /\ attr "ovvo" b = Some (fovvo J) /\
    attr "ovov" b = Some (fovov J) /\ attr "oovv" b = Some (foovv J) /\ attr "ooov" b = Some (fooov J) /\
    attr "oovo" b = Some (foovo J) /\ attr "ovoo" b = Some (fovoo J) /\ attr "vooo" b = Some (fvooo J) /\
    attr "oooo" b = Some (foooo J).
End MolSpec.
Arguments core {K}. Arguments so_core {K}. Arguments ordered_so {K}. Arguments space_ints {K}.
Arguments eri_object {K}. Arguments blocks_object {K}. Arguments full_object {K}.
