(** Specification: spin-orbital arrays in terms of spatial blocks.  On every
    axis the alpha orbitals come first, then the beta orbitals.  A spin is
    [false] (alpha) or [true] (beta). *)
From Coq Require Import List Bool Arith Lia Ring.
From Verif Require Import Scalar Tensor PySyntax PySem CCProg CCSpec.
Import ListNotations.

(** spin orbital number [i] of spin [s], if the axis has [n] alpha orbitals *)
Definition at_spin (n : nat) (s : bool) (i : nat) : nat := if s then n + i else i.

(** number of orbitals of spin [s] of an axis with [a] alpha and [b] beta orbitals *)
Definition side_len (s : bool) (a b : nat) : nat := if s then b else a.

(** the same for all axes: total sizes, sizes of the block at spins [ss],
    positions of the entries of that block *)
Fixpoint sums (na nb : list nat) : list nat :=
  match na, nb with a :: na', b :: nb' => (a + b) :: sums na' nb' | _, _ => [] end.
Fixpoint sels (ss : list bool) (na nb : list nat) : list nat :=
  match ss, na, nb with s :: ss', a :: na', b :: nb' => side_len s a b :: sels ss' na' nb'
  | _, _, _ => [] end.
Fixpoint ats (na : list nat) (ss : list bool) (idx : list nat) : list nat :=
  match na, ss, idx with a :: na', s :: ss', i :: idx' => at_spin a s i :: ats na' ss' idx'
  | _, _, _ => [] end.

Section SpinSpec.
  Variable K : cring.
  Local Open Scope K_scope.

  (** The array [t] with [na] alpha and [nb] beta orbitals per axis holds, at
      every spin pattern [ss], the block [b ss]; [None] means zeros. *)
  Definition holds (na nb : list nat) (t : tensor K) (b : list bool -> option (tensor K)) : Prop :=
    shp t = sums na nb /\ List.length nb = List.length na /\
    forall ss idx, List.length ss = List.length na -> inrange (sels ss na nb) idx ->
      dat t (ats na ss idx) = match b ss with Some u => dat u idx | None => 0 end.

  (** [t] with its axes exchanged by the involution [p] *)
  Definition swap (p : list nat) (t : tensor K) : tensor K :=
    mkT (map (fun k => nth k (shp t) 0%nat) p)
        (fun idx => dat t (map (fun k => nth k idx 0%nat) p)).
  (** exchange of both pairs, of the second pair, of the first pair *)
  Definition swap_both : tensor K -> tensor K := swap [1; 0; 3; 2]%nat.
  Definition swap_ket : tensor K -> tensor K := swap [0; 1; 3; 2]%nat.
  Definition swap_bra : tensor K -> tensor K := swap [1; 0; 2; 3]%nat.

  Definition spin2 (aa bb : tensor K) (ss : list bool) : option (tensor K) :=
    match ss with
    | [false; false] => Some aa | [true; true] => Some bb | _ => None
    end.
  Definition spin4 (aaaa bbbb abab baba abba baab : tensor K) (ss : list bool)
    : option (tensor K) :=
    match ss with
    | [false; false; false; false] => Some aaaa
    | [true; true; true; true] => Some bbbb
    | [false; true; false; true] => Some abab
    | [true; false; true; false] => Some baba
    | [false; true; true; false] => Some abba
    | [true; false; false; true] => Some baab
    | _ => None
    end.
  (** an antisymmetric array is given by its aaaa, bbbb and abab blocks *)
  Definition spin4_anti (aa ab bb : tensor K) : list bool -> option (tensor K) :=
    spin4 aa bb ab (swap_both ab) (tneg (swap_ket ab)) (tneg (swap_bra ab)).

  (** Density matrix blocks returned as a tuple [us]: which block each spin
      pattern holds.  Two blocks: aa, bb.  Three: aaaa, bbbb, abab.  Four:
      aaaa, bbbb, abab, baba, the array being antisymmetric in the last or in
      the first pair.  Six: aaaa, bbbb, abab, abba, baab, baba. *)
  Definition pick (us : list (tensor K)) (k : nat) : tensor K := nth k us (tzeros K []).
  Definition rdm2 us := spin2 (pick us 0%nat) (pick us 1%nat).
  Definition rdm3 us := spin4_anti (pick us 0%nat) (pick us 2%nat) (pick us 1%nat).
  Definition rdm4_ket us := spin4 (pick us 0%nat) (pick us 1%nat) (pick us 2%nat) (pick us 3%nat)
    (tneg (swap_ket (pick us 2%nat))) (tneg (swap_ket (pick us 3%nat))).
  Definition rdm4_bra us := spin4 (pick us 0%nat) (pick us 1%nat) (pick us 2%nat) (pick us 3%nat)
    (tneg (swap_bra (pick us 3%nat))) (tneg (swap_bra (pick us 2%nat))).
  Definition rdm6 us := spin4 (pick us 0%nat) (pick us 1%nat) (pick us 2%nat) (pick us 5%nat)
    (pick us 3%nat) (pick us 4%nat).

  (** *** Unrestricted inputs *)
  (** Fock blocks and integrals: alpha, beta antisymmetrised; alpha-beta plain *)
  Definition u_ham_ok (noa nva nob nvb : nat) (Fa Fb : one_e K) (Ia Ib : two_e K)
    (Iab : two_e_full K) : Prop :=
    one_e_ok noa nva Fa /\ one_e_ok nob nvb Fb /\ two_e_ok noa nva Ia /\ two_e_ok nob nvb Ib /\
    two_e_full_ok noa nva nob nvb Iab.
  (** amplitudes; the alpha-beta doubles need no symmetry *)
  Definition u_amps_ok (noa nva nob nvb : nat) (T1a T1b T2aa T2ab T2bb : tensor K) : Prop :=
    t1_ok noa nva T1a /\ t1_ok nob nvb T1b /\ t2_ok noa nva T2aa /\
    shp T2ab = [nva; nvb; noa; nob] /\ t2_ok nob nvb T2bb.
  Definition u_lams_ok (noa nva nob nvb : nat) (L1a L1b L2aa L2ab L2bb : tensor K) : Prop :=
    l1_ok noa nva L1a /\ l1_ok nob nvb L1b /\ l2_ok noa nva L2aa /\
    shp L2ab = [noa; nob; nva; nvb] /\ l2_ok nob nvb L2bb.
  (** *** Spin conservation *)
  (** is orbital [p] of an axis with [n] alpha orbitals a beta orbital? *)
  Definition is_beta (n p : nat) : nat := if Nat.leb n p then 1%nat else 0%nat.
  (** entries that change the number of beta electrons are zero *)
  Definition conserves2 (n1 n2 : nat) (t : tensor K) : Prop :=
    forall p q, inrange (shp t) [p; q] -> is_beta n1 p <> is_beta n2 q -> dat t [p; q] = 0.
  Definition conserves4 (n1 n2 n3 n4 : nat) (t : tensor K) : Prop :=
    forall p q r s, inrange (shp t) [p; q; r; s] ->
      (is_beta n1 p + is_beta n2 q <> is_beta n3 r + is_beta n4 s)%nat -> dat t [p; q; r; s] = 0.
  (** the nine blocks of two-electron integrals *)
  Definition conserves_two_e (noa nva : nat) (I : two_e K) : Prop :=
    conserves4 nva nva nva nva (vvvv I) /\ conserves4 nva nva nva noa (vvvo I) /\
    conserves4 nva noa nva nva (vovv I) /\ conserves4 nva nva noa noa (vvoo I) /\
    conserves4 nva noa nva noa (vovo I) /\ conserves4 noa noa nva nva (oovv I) /\
    conserves4 nva noa noa noa (vooo I) /\ conserves4 noa noa noa nva (ooov I) /\
    conserves4 noa noa noa noa (oooo I).

  (** *** Equality of blocks *)
  Definition same_one_e (F G : one_e K) : Prop :=
    teq (oo F) (oo G) /\ teq (ov F) (ov G) /\ teq (vo F) (vo G) /\ teq (vv F) (vv G).
  Definition same_two_e (I J : two_e K) : Prop :=
    teq (vvvv I) (vvvv J) /\ teq (vvvo I) (vvvo J) /\ teq (vovv I) (vovv J) /\
    teq (vvoo I) (vvoo J) /\ teq (vovo I) (vovo J) /\ teq (oovv I) (oovv J) /\
    teq (vooo I) (vooo J) /\ teq (ooov I) (ooov J) /\ teq (oooo I) (oooo J).
  Definition same_two_e_full (I J : two_e_full K) : Prop :=
    teq (fvvvv I) (fvvvv J) /\ teq (fvvvo I) (fvvvo J) /\ teq (fvvov I) (fvvov J) /\
    teq (fvovv I) (fvovv J) /\ teq (fovvv I) (fovvv J) /\ teq (fvvoo I) (fvvoo J) /\
    teq (fvovo I) (fvovo J) /\ teq (fvoov I) (fvoov J) /\ teq (fovvo I) (fovvo J) /\
    teq (fovov I) (fovov J) /\ teq (foovv I) (foovv J) /\ teq (fooov I) (fooov J) /\
    teq (foovo I) (foovo J) /\ teq (fovoo I) (fovoo J) /\ teq (fvooo I) (fvooo J) /\
    teq (foooo I) (foooo J).

  (** *** Closed shell *)
  (** [A - B] *)
  Definition tminus (A B : tensor K) : tensor K :=
    mkT (shp A) (fun idx => dat A idx - dat B idx).
  (** <pq|rs> - <pq|sr>, block by block *)
  Definition anti_of (I : two_e_full K) : two_e K :=
    TwoE K (tminus (fvvvv I) (swap_ket (fvvvv I))) (tminus (fvvvo I) (swap_ket (fvvov I)))
      (tminus (fvovv I) (swap_ket (fvovv I))) (tminus (fvvoo I) (swap_ket (fvvoo I)))
      (tminus (fvovo I) (swap_ket (fvoov I))) (tminus (foovv I) (swap_ket (foovv I)))
      (tminus (fvooo I) (swap_ket (fvooo I))) (tminus (fooov I) (swap_ket (foovo I)))
      (tminus (foooo I) (swap_ket (foooo I))).
  (** <pq|rs> = <qp|sr>, block by block *)
  Definition pair_sym (t : tensor K) : Prop := teq t (swap_both t).
  Definition pair_sym_full (I : two_e_full K) : Prop :=
    pair_sym (fvvvv I) /\ teq (fvvov I) (swap_both (fvvvo I)) /\
    teq (fovvv I) (swap_both (fvovv I)) /\ pair_sym (fvvoo I) /\
    teq (fovov I) (swap_both (fvovo I)) /\ teq (fovvo I) (swap_both (fvoov I)) /\
    pair_sym (foovv I) /\ teq (foovo I) (swap_both (fooov I)) /\
    teq (fovoo I) (swap_both (fvooo I)) /\ pair_sym (foooo I).
End SpinSpec.
Arguments conserves2 {K}. Arguments conserves_two_e {K}. Arguments conserves4 {K}. Arguments same_one_e {K}.
Arguments same_two_e {K}. Arguments same_two_e_full {K}. Arguments tminus {K}.
Arguments anti_of {K}. Arguments pair_sym {K}. Arguments pair_sym_full {K}.
Arguments holds {K}. Arguments swap {K}. Arguments swap_both {K}. Arguments swap_ket {K}.
Arguments swap_bra {K}. Arguments spin2 {K}. Arguments spin4 {K}. Arguments spin4_anti {K}.
Arguments rdm2 {K}. Arguments rdm3 {K}. Arguments rdm4_ket {K}. Arguments rdm4_bra {K}.
Arguments rdm6 {K}. Arguments pick {K}.
Arguments u_ham_ok {K}. Arguments u_amps_ok {K}. Arguments u_lams_ok {K}.
