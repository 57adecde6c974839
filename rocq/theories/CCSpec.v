(** Vocabulary for the statements about the coupled cluster functions: how
    Fock/integral blocks and amplitudes are passed, which symmetries they
    have, and what "returns" and "equal" mean.  No proofs here. *)
From Coq Require Import List String ZArith.
From Verif Require Import Scalar Tensor PySyntax PySem CCProg.
Import ListNotations.
Local Open Scope string_scope.

Section CCSpec.
  Variable K : cring.
  Local Open Scope K_scope.

  (** A Python value of the model over NumPy arrays with entries in [K]. *)
  Definition pyval := xval (conc_alg K).
  Definition arr (t : tensor K) : pyval := @XArr (conc_alg K) t.
  Definition numv (x : K) : pyval := @XNum (conc_alg K) x.
  Definition tup (l : list pyval) : pyval := XTup l.

  (** one_e_blocks, ov_blocks.py:1-6 *)
  Record one_e : Type := OneE { oo : tensor K; ov : tensor K; vo : tensor K; vv : tensor K }.
  Definition py_one_e (F : one_e) : pyval :=
    XObj [("oo", arr (oo F)); ("ov", arr (ov F)); ("vo", arr (vo F)); ("vv", arr (vv F))].

  (** two_e_blocks, ov_blocks.py:9-21 *)
  Record two_e : Type := TwoE {
    vvvv : tensor K; vvvo : tensor K; vovv : tensor K; vvoo : tensor K; vovo : tensor K;
    oovv : tensor K; vooo : tensor K; ooov : tensor K; oooo : tensor K }.
  Definition py_two_e (I : two_e) : pyval :=
    XObj [("vvvv", arr (vvvv I)); ("vvvo", arr (vvvo I)); ("vovv", arr (vovv I));
          ("vvoo", arr (vvoo I)); ("vovo", arr (vovo I)); ("oovv", arr (oovv I));
          ("vooo", arr (vooo I)); ("ooov", arr (ooov I)); ("oooo", arr (oooo I))].

  (** two_e_blocks_full, ov_blocks.py:45-66 *)
  Record two_e_full : Type := TwoEF {
    fvvvv : tensor K; fvvvo : tensor K; fvvov : tensor K; fvovv : tensor K; fovvv : tensor K;
    fvvoo : tensor K; fvovo : tensor K; fvoov : tensor K; fovvo : tensor K; fovov : tensor K;
    foovv : tensor K; fooov : tensor K; foovo : tensor K; fovoo : tensor K; fvooo : tensor K;
    foooo : tensor K }.
  Definition py_two_e_full (I : two_e_full) : pyval :=
    XObj [("vvvv", arr (fvvvv I)); ("vvvo", arr (fvvvo I)); ("vvov", arr (fvvov I));
          ("vovv", arr (fvovv I)); ("ovvv", arr (fovvv I)); ("vvoo", arr (fvvoo I));
          ("vovo", arr (fvovo I)); ("voov", arr (fvoov I)); ("ovvo", arr (fovvo I));
          ("ovov", arr (fovov I)); ("oovv", arr (foovv I)); ("ooov", arr (fooov I));
          ("oovo", arr (foovo I)); ("ovoo", arr (fovoo I)); ("vooo", arr (fvooo I));
          ("oooo", arr (foooo I))].
  (** shapes of the blocks of <pq|rs> with p, r of alpha and q, s of beta spin *)
  Definition two_e_full_ok (noa nva nob nvb : nat) (I : two_e_full) : Prop :=
    shp (fvvvv I) = [nva; nvb; nva; nvb] /\ shp (fvvvo I) = [nva; nvb; nva; nob] /\
    shp (fvvov I) = [nva; nvb; noa; nvb] /\ shp (fvovv I) = [nva; nob; nva; nvb] /\
    shp (fovvv I) = [noa; nvb; nva; nvb] /\ shp (fvvoo I) = [nva; nvb; noa; nob] /\
    shp (fvovo I) = [nva; nob; nva; nob] /\ shp (fvoov I) = [nva; nob; noa; nvb] /\
    shp (fovvo I) = [noa; nvb; nva; nob] /\ shp (fovov I) = [noa; nvb; noa; nvb] /\
    shp (foovv I) = [noa; nob; nva; nvb] /\ shp (fooov I) = [noa; nob; noa; nvb] /\
    shp (foovo I) = [noa; nob; nva; nob] /\ shp (fovoo I) = [noa; nvb; noa; nob] /\
    shp (fvooo I) = [nva; nob; noa; nob] /\ shp (foooo I) = [noa; nob; noa; nob].

  (** Antisymmetry of a rank-4 array in its first / last two indices. *)
  Definition antisym_lead (t : tensor K) : Prop :=
    forall i j k l, inrange (shp t) [i; j; k; l] -> dat t [i; j; k; l] = - dat t [j; i; k; l].
  Definition antisym_tail (t : tensor K) : Prop :=
    forall i j k l, inrange (shp t) [i; j; k; l] -> dat t [i; j; k; l] = - dat t [i; j; l; k].

  (** Fock blocks for [no] occupied and [nv] virtual orbitals: any values. *)
  Definition one_e_ok (no nv : nat) (F : one_e) : Prop :=
    shp (oo F) = [no; no] /\ shp (ov F) = [no; nv] /\
    shp (vo F) = [nv; no] /\ shp (vv F) = [nv; nv].

  (** Blocks of antisymmetrised integrals <pq||rs>: antisymmetric under the
      exchange of two bra or two ket indices where both lie in one block. *)
  Definition two_e_shape (no nv : nat) (I : two_e) : Prop :=
    shp (vvvv I) = [nv; nv; nv; nv] /\ shp (vvvo I) = [nv; nv; nv; no] /\
    shp (vovv I) = [nv; no; nv; nv] /\ shp (vvoo I) = [nv; nv; no; no] /\
    shp (vovo I) = [nv; no; nv; no] /\ shp (oovv I) = [no; no; nv; nv] /\
    shp (vooo I) = [nv; no; no; no] /\ shp (ooov I) = [no; no; no; nv] /\
    shp (oooo I) = [no; no; no; no].
  Definition two_e_antisym (I : two_e) : Prop :=
    (antisym_lead (vvvv I) /\ antisym_tail (vvvv I)) /\ antisym_lead (vvvo I) /\
    antisym_tail (vovv I) /\ (antisym_lead (vvoo I) /\ antisym_tail (vvoo I)) /\
    (antisym_lead (oovv I) /\ antisym_tail (oovv I)) /\ antisym_tail (vooo I) /\
    antisym_lead (ooov I) /\ (antisym_lead (oooo I) /\ antisym_tail (oooo I)).
  Definition two_e_ok (no nv : nat) (I : two_e) : Prop :=
    two_e_shape no nv I /\ two_e_antisym I.

  (** Amplitudes T (virtual indices first) and Lambda (occupied first). *)
  Definition t1_ok (no nv : nat) (T1 : tensor K) : Prop := shp T1 = [nv; no].
  Definition t2_ok (no nv : nat) (T2 : tensor K) : Prop :=
    shp T2 = [nv; nv; no; no] /\ antisym_lead T2 /\ antisym_tail T2.
  Definition l1_ok (no nv : nat) (L1 : tensor K) : Prop := shp L1 = [no; nv].
  Definition l2_ok (no nv : nat) (L2 : tensor K) : Prop :=
    shp L2 = [no; no; nv; nv] /\ antisym_lead L2 /\ antisym_tail L2.

  (** Equality of Python values: same structure, equal numbers, arrays of
      equal shape with equal entries. *)
  Inductive xeq : pyval -> pyval -> Prop :=
  | xeq_num (n : K) : xeq (numv n) (numv n)
  | xeq_arr (t u : tensor K) : teq t u -> xeq (arr t) (arr u)
  | xeq_tup vs ws : Forall2 xeq vs ws -> xeq (XTup vs) (XTup ws)
  | xeq_obj fs gs : Forall2 (fun p q => fst p = fst q /\ xeq (snd p) (snd q)) fs gs ->
      xeq (XObj fs) (XObj gs).

  (** What kind of value is returned, with the shapes of the arrays. *)
  Inductive layout : Type :=
  | LNum | LArr (sh : list nat) | LTup (ls : list layout).
  Inductive has_layout : pyval -> layout -> Prop :=
  | hl_num n : has_layout (numv n) LNum
  | hl_arr t : has_layout (arr t) (LArr (shp t))
  | hl_tup vs ls : Forall2 has_layout vs ls -> has_layout (XTup vs) (LTup ls).

  (** The call [f(args)] of a function of cc_equations.py or cc_energy.py
      returns [r] without raising, and every argument array is after the call
      what it was before. *)
  Definition returns (f : string) (args : list pyval) (r : pyval) : Prop :=
    exists args', pycall (conc_alg K) cc_prog f args = Ok (r, args') /\ Forall2 xeq args args'.

  (** The call raises an exception. *)
  Definition raises (f : string) (args : list pyval) : Prop :=
    exists msg, pycall (conc_alg K) cc_prog f args = Exn msg.

  (** sum_ia A_ia B_ai and sum_ijab A_ijab B_abij (and the same sums for other
      index ranges [m], [n]) *)
  Definition dot2 (m n : nat) (A B : list nat -> K) : K :=
    sumN m (fun p => sumN n (fun q => A [p; q] * B [q; p])).
  Definition dot4 (m n k l : nat) (A B : list nat -> K) : K :=
    sumN m (fun p => sumN n (fun q => sumN k (fun r => sumN l (fun s =>
      A [p; q; r; s] * B [r; s; p; q])))).
  Definition quarter : K := chalf * chalf.
End CCSpec.

Arguments arr {K}. Arguments numv {K}. Arguments tup {K}.
Arguments oo {K}. Arguments ov {K}. Arguments vo {K}. Arguments vv {K}.
Arguments vvvv {K}. Arguments vvvo {K}. Arguments vovv {K}. Arguments vvoo {K}.
Arguments vovo {K}. Arguments oovv {K}. Arguments vooo {K}. Arguments ooov {K}.
Arguments oooo {K}.
Arguments fvvvv {K}. Arguments fvvvo {K}. Arguments fvvov {K}. Arguments fvovv {K}.
Arguments fovvv {K}. Arguments fvvoo {K}. Arguments fvovo {K}. Arguments fvoov {K}.
Arguments fovvo {K}. Arguments fovov {K}. Arguments foovv {K}. Arguments fooov {K}.
Arguments foovo {K}. Arguments fovoo {K}. Arguments fvooo {K}. Arguments foooo {K}.
Arguments py_two_e_full {K}. Arguments two_e_full_ok {K}.
Arguments py_one_e {K}. Arguments py_two_e {K}.
Arguments antisym_lead {K}. Arguments antisym_tail {K}.
Arguments one_e_ok {K}. Arguments two_e_ok {K}. Arguments two_e_shape {K}. Arguments two_e_antisym {K}.
Arguments t1_ok {K}. Arguments t2_ok {K}. Arguments l1_ok {K}. Arguments l2_ok {K}.
Arguments dot2 {K}. Arguments dot4 {K}. Arguments quarter {K}.
Arguments xeq {K}. Arguments has_layout {K}. Arguments returns {K}. Arguments raises {K}.

(** Inputs over the dual numbers: constant, t + eps*dt, eps*t. *)
Section DualInputs.
  Variable K : cring.
  Definition lift (t : tensor K) : tensor (DualK K) := @mkT (DualK K) (shp t) (fun i => (dat t i, c0 : K)).
  Definition perturbed (t dt : tensor K) : tensor (DualK K) :=
    @mkT (DualK K) (shp t) (fun i => (dat t i, dat dt i)).
  Definition infinitesimal (t : tensor K) : tensor (DualK K) :=
    @mkT (DualK K) (shp t) (fun i => (c0 : K, dat t i)).
  Definition lift_one_e (F : one_e K) : one_e (DualK K) :=
    OneE _ (lift (oo F)) (lift (ov F)) (lift (vo F)) (lift (vv F)).
  Definition lift_two_e (I : two_e K) : two_e (DualK K) :=
    TwoE _ (lift (vvvv I)) (lift (vvvo I)) (lift (vovv I)) (lift (vvoo I)) (lift (vovo I))
         (lift (oovv I)) (lift (vooo I)) (lift (ooov I)) (lift (oooo I)).
End DualInputs.
Arguments lift {K}. Arguments perturbed {K}. Arguments infinitesimal {K}.
Arguments lift_one_e {K}. Arguments lift_two_e {K}.
