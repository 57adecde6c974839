(** Properties of test_utils.py: final statements.  The model is
    TestUtilsModel.v ([None] = exception): every array numpy.random.random
    returns is a parameter, so the statements hold for every draw.  The
    vocabulary is CCSpec.v, SpinSpec.v, UtilsSpec.v and TestUtilsSpec.v. *)
From Coq Require Import List Bool Arith ZArith QArith Qcanon.
From Verif Require Import Scalar Tensor NpModel CCSpec SpinSpec UtilsModel UtilsSpec TestUtilsModel TestUtilsSpec
  TestUtilsFacts.
Import ListNotations.
Local Open Scope nat_scope.
Local Open Scope K_scope.

(** C48: make_random_F: symmetric diagonal blocks, vo the transpose of ov; the ov
    block is the draw, the others the draw plus its transpose. *)
Theorem C48_F_symmetric (K : cring) (roo rov rvv : list nat -> K) (no nv : nat) : exists F, make_random_F K roo rov rvv no nv = Some F /\
  one_e_ok no nv F /\ symmetric (oo F) /\ symmetric (vv F) /\
  (forall a i, (a < nv)%nat -> (i < no)%nat -> dat (vo F) [a; i] = dat (ov F) [i; a]) /\
  (forall i j, dat (oo F) [i; j] = roo [i; j] + roo [j; i]) /\ (forall i a, dat (ov F) [i; a] = rov [i; a]) /\
  (forall a b, dat (vv F) [a; b] = rvv [a; b] + rvv [b; a]).
Proof. exact (R_F K roo rov rvv no nv). Qed.
Print Assumptions C48_F_symmetric.

(** C48: make_random_I: nine blocks of one array with I[p,q,r,s] = I[q,p,s,r]. *)
Theorem C48_I_pair_symmetric (K : cring) (r : list nat -> K) (no nv : nat) : exists Itot I, make_random_I K r no nv = Some I /\
  shp Itot = [no + nv; no + nv; no + nv; no + nv]%nat /\ pair_sym Itot /\
  (forall p q s t, dat Itot [p; q; s; t] = r [p; q; s; t] + r [q; p; t; s]) /\
  parts no nv Itot I /\ two_e_shape no nv I.
Proof. exact (R_I K r no nv). Qed.
Print Assumptions C48_I_pair_symmetric.

(** C48: make_random_I_anti: nine blocks of one array, antisymmetric in both pairs,
    whose entries are twice the antisymmetrized draw. *)
Theorem C48_I_antisymmetric (K : cring) (r : list nat -> K) (no nv : nat) : exists Itot I, make_random_I_anti K r no nv = Some I /\
  shp Itot = [no + nv; no + nv; no + nv; no + nv]%nat /\ antisym_lead Itot /\ antisym_tail Itot /\ antisymmetrized r Itot /\
  parts no nv Itot I /\ two_e_ok no nv I.
Proof. exact (R_I_anti K r no nv). Qed.
Print Assumptions C48_I_antisymmetric.

(** C48: make_random_integrals: a symmetric Fock matrix and antisymmetric integrals. *)
Theorem C48_integrals (K : cring) (roo rov rvv r : list nat -> K) (no nv : nat) : exists F Itot I,
  make_random_integrals K roo rov rvv r no nv = Some (F, I) /\
  one_e_ok no nv F /\ symmetric (oo F) /\ symmetric (vv F) /\
  (forall a i, (a < nv)%nat -> (i < no)%nat -> dat (vo F) [a; i] = dat (ov F) [i; a]) /\
  (forall i j, dat (oo F) [i; j] = roo [i; j] + roo [j; i]) /\ (forall i a, dat (ov F) [i; a] = rov [i; a]) /\
  (forall a b, dat (vv F) [a; b] = rvv [a; b] + rvv [b; a]) /\
  shp Itot = [no + nv; no + nv; no + nv; no + nv]%nat /\ antisym_lead Itot /\ antisym_tail Itot /\ antisymmetrized r Itot /\
  parts no nv Itot I /\ two_e_ok no nv I.
Proof.
  destruct (R_F K roo rov rvv no nv) as (F & EF & HF). destruct (R_I_anti K r no nv) as (Itot & I & EI & HI).
  exists F, Itot, I. unfold make_random_integrals. rewrite EF. cbn [bindo]. rewrite EI. cbn [bindo]. intuition.
Qed.
Print Assumptions C48_integrals.

(** C48: make_random_Itot: the three symmetries, and the entries. *)
Theorem C48_Itot_symmetries (K : cring) (r : list nat -> K) (n : nat) : exists I, make_random_Itot K r n = Some I /\ shp I = [n; n; n; n] /\
  forall p q s t, inrange (shp I) [p; q; s; t] ->
    dat I [p; q; s; t] = dat I [q; p; t; s] /\ dat I [p; q; s; t] = dat I [s; t; p; q] /\
    dat I [p; q; s; t] = dat I [t; s; q; p] /\
    dat I [p; q; s; t] = (c1 + c1) * (r [p; q; s; t] + r [q; p; t; s] + r [s; t; p; q] + r [t; s; q; p]).
Proof. exact (R_Itot K r n). Qed.
Print Assumptions C48_Itot_symmetries.

(** C48: make_random_Ifull: the sixteen blocks (seven of them made by transposing
    another block) are all blocks of one antisymmetric array. *)
Theorem C48_Ifull_antisymmetric (K : cring) (r : list nat -> K) (no nv : nat) : exists Itot I, make_random_Ifull K r no nv = Some I /\
  shp Itot = [no + nv; no + nv; no + nv; no + nv]%nat /\ antisym_lead Itot /\ antisym_tail Itot /\ antisymmetrized r Itot /\
  parts_full no nv Itot I /\ two_e_full_ok no nv no nv I.
Proof. exact (R_Ifull K r no nv). Qed.
Print Assumptions C48_Ifull_antisymmetric.

(** C48: make_random_Ifull_gen: the sixteen blocks of the drawn array. *)
Theorem C48_Ifull_gen_blocks (K : cring) (r : list nat -> K) (n1o n1v n2o n2v n3o n3v n4o n4v : nat) :
  exists b, make_random_Ifull_gen K r n1o n1v n2o n2v n3o n3v n4o n4v = Some b /\
  forall ss, length ss = 4%nat ->
    is_block [n1o; n2o; n3o; n4o] [n1v; n2v; n3v; n4v]
      (mkT [n1o + n1v; n2o + n2v; n3o + n3v; n4o + n4v]%nat r) b ss.
Proof. exact (R_gen K r n1o n1v n2o n2v n3o n3v n4o n4v). Qed.
Print Assumptions C48_Ifull_gen_blocks.

(** C48: make_random_T *)
Theorem C48_T_antisymmetric (K : cring) (r1 r2 : list nat -> K) (no nv : nat) : exists T1 T2, make_random_T K r1 r2 no nv = Some (T1, T2) /\
  t1_ok no nv T1 /\ t2_ok no nv T2 /\ (forall a i, dat T1 [a; i] = r1 [a; i]) /\ antisymmetrized r2 T2.
Proof. exact (R_T K r1 r2 no nv). Qed.
Print Assumptions C48_T_antisymmetric.

(** C48: make_random_L *)
Theorem C48_L_antisymmetric (K : cring) (r1 r2 : list nat -> K) (no nv : nat) : exists L1 L2, make_random_L K r1 r2 no nv = Some (L1, L2) /\
  l1_ok no nv L1 /\ l2_ok no nv L2 /\ (forall i a, dat L1 [i; a] = r1 [i; a]) /\ antisymmetrized r2 L2.
Proof. exact (R_L K r1 r2 no nv). Qed.
Print Assumptions C48_L_antisymmetric.

(** C48: make_random_T1_spatial, make_random_T2_spatial *)
Theorem C48_T_spatial_antisymmetric (K : cring) (ra rb raa rbb rab : list nat -> K) (noa nva nob nvb : nat) :
  let (T1a, T1b) := make_random_T1_spatial K ra rb noa nva nob nvb in
  exists T2aa T2ab T2bb, make_random_T2_spatial K raa rbb rab noa nva nob nvb = Some (T2aa, T2ab, T2bb) /\
  u_amps_ok noa nva nob nvb T1a T1b T2aa T2ab T2bb /\
  (forall a i, dat T1a [a; i] = ra [a; i]) /\ (forall a i, dat T1b [a; i] = rb [a; i]) /\
  antisymmetrized raa T2aa /\ antisymmetrized rbb T2bb /\
  (forall a b i j, dat T2ab [a; b; i; j] = rab [a; b; i; j]).
Proof. exact (R_T_spatial K ra rb raa rbb rab noa nva nob nvb). Qed.
Print Assumptions C48_T_spatial_antisymmetric.

(** C48: make_random_ft_integrals *)
Theorem C48_ft_integrals_symmetric (K : cring) (r1 r2 : list nat -> K) (n : nat) : exists F I, make_random_ft_integrals K r1 r2 n = Some (F, I) /\
  shp F = [n; n] /\ symmetric F /\ shp I = [n; n; n; n] /\ antisym_lead I /\ antisym_tail I /\
  (forall p q, dat F [p; q] = r1 [p; q] + r1 [q; p]) /\ antisymmetrized r2 I.
Proof. exact (R_ft_integrals K r1 r2 n). Qed.
Print Assumptions C48_ft_integrals_symmetric.

(** C48: make_random_ft_T: antisymmetric at every grid point. *)
Theorem C48_ft_T_antisymmetric (K : cring) (r1 r2 : list nat -> K) (ng n : nat) : exists T1 T2, make_random_ft_T K r1 r2 ng n = Some (T1, T2) /\
  shp T1 = [ng; n; n] /\ shp T2 = [ng; n; n; n; n] /\ antisym_ft T2 /\
  (forall g p q, dat T1 [g; p; q] = r1 [g; p; q]) /\ antisymmetrized_ft r2 T2.
Proof. exact (R_ft_T K r1 r2 ng n). Qed.
Print Assumptions C48_ft_T_antisymmetric.

(** C48: make_random_ft_T1_spatial, make_random_ft_T2_spatial *)
Theorem C48_ft_T_spatial_antisymmetric (K : cring) (ra rb raa rbb rab : list nat -> K) (ng na nb : nat) :
  (let (T1a, T1b) := make_random_ft_T1_spatial K ra rb ng na nb in
   shp T1a = [ng; na; na] /\ shp T1b = [ng; nb; nb] /\
   (forall g p q, dat T1a [g; p; q] = ra [g; p; q]) /\ (forall g p q, dat T1b [g; p; q] = rb [g; p; q])) /\
  exists T2aa T2ab T2bb, make_random_ft_T2_spatial K raa rbb rab ng na nb = Some (T2aa, T2ab, T2bb) /\
  shp T2aa = [ng; na; na; na; na] /\ antisym_ft T2aa /\ shp T2ab = [ng; na; nb; na; nb] /\
  shp T2bb = [ng; nb; nb; nb; nb] /\ antisym_ft T2bb /\
  antisymmetrized_ft raa T2aa /\ antisymmetrized_ft rbb T2bb /\
  (forall g p q s t, dat T2ab [g; p; q; s; t] = rab [g; p; q; s; t]).
Proof. exact (R_ft_T_spatial K ra rb raa rbb rab ng na nb). Qed.
Print Assumptions C48_ft_T_spatial_antisymmetric.

(** C48: make_random_ft_D, make_random_ft_D1: exchanging the particle and hole
    indices reverses the sign. *)
Theorem C48_ft_D_antisymmetric (K : cring) (r : list nat -> K) (n : nat) : exists d1 d2, make_random_ft_D K r n = Some (d1, d2) /\ make_random_ft_D1 K r n = Some d1 /\
  shp d1 = [n; n] /\ shp d2 = [n; n; n; n] /\
  (forall p q, (p < n)%nat -> (q < n)%nat -> dat d1 [p; q] = - dat d1 [q; p] /\ dat d1 [p; q] = r [p] - r [q]) /\
  (forall p q s t, inrange (shp d2) [p; q; s; t] ->
     dat d2 [p; q; s; t] = - dat d2 [s; t; p; q] /\ dat d2 [p; q; s; t] = dat d2 [q; p; s; t] /\
     dat d2 [p; q; s; t] = dat d1 [p; s] + dat d1 [q; t]).
Proof. exact (R_ft_D K r n). Qed.
Print Assumptions C48_ft_D_antisymmetric.

(** C48: make_random_ft_D2 *)
Theorem C48_ft_D2_antisymmetric (K : cring) (r1 r2 : list nat -> K) (n1 n2 : nat) : exists d2, make_random_ft_D2 K r1 r2 n1 n2 = Some d2 /\ shp d2 = [n1; n2; n1; n2] /\
  (forall p q s t, inrange (shp d2) [p; q; s; t] -> dat d2 [p; q; s; t] = - dat d2 [s; t; p; q] /\
     dat d2 [p; q; s; t] = r1 [p] + r2 [q] - r1 [s] - r2 [t]).
Proof. exact (R_ft_D2 K r1 r2 n1 n2). Qed.
Print Assumptions C48_ft_D2_antisymmetric.

(** A draw with distinct entries and what two of the functions return for it. *)
Definition sample_draw (idx : list nat) : Qc :=
  Q2Qc (fold_left (fun a i => (a * a + (a + 3) * Z.of_nat i + 5) mod 101)%Z idx 1%Z # 7).
Example C48_example :
  match make_random_I_anti QcK sample_draw 2 2 with
  | Some J => Some (this (dat (vvoo J) [0; 1; 0; 1]%nat), this (dat (vvoo J) [1; 0; 0; 1]%nat), this (dat (vovo J) [0; 1; 1; 0]%nat))
  | None => None end = Some (32 # 7, -32 # 7, -62 # 7)%Q /\
  match make_random_Itot QcK sample_draw 2 with
  | Some J => Some (this (dat J [0; 1; 0; 0]%nat), this (dat J [1; 0; 0; 0]%nat), this (dat J [0; 0; 1; 0]%nat))
  | None => None end = Some (290 # 7, 290 # 7, 290 # 7)%Q /\
  match make_random_ft_D QcK sample_draw 3 with
  | Some (D1, D2) => Some (this (dat D1 [0; 2]%nat), this (dat D2 [0; 1; 2; 2]%nat))
  | None => None end = Some (-8 # 7, -12 # 7)%Q.
Proof. vm_compute. repeat split; reflexivity. Qed.
