(** Model of cqcpy/test_utils.py, one definition per Python function.

    Every array drawn by numpy.random.random(shape) is a parameter: its entries
    are given by an arbitrary function r of the index, so a theorem about a
    definition here holds for every outcome of the generator.  Exceptions are
    [None].  [x += x.transpose(p)] reads x before it is updated (NumPy 1.13 and
    later copy overlapping operands). *)
From Coq Require Import List Bool Arith String.
From Verif Require Import Scalar Tensor NpModel CCSpec UtilsModel.
Import ListNotations.

Section TestUtilsModel.
  Variable K : cring.
  Notation T := (tensor K).
  Notation draw := (list nat -> K).

  (** numpy.random.random(sh) with outcome [r] *)
  Definition random (sh : list nat) (r : draw) : T := mkT sh r.
  (** [x += x.transpose(p)], [x -= x.transpose(p)] *)
  Definition iadd_tr (p : list nat) (x : T) : option T := let? y := ttrans p x in tadd x y.
  Definition isub_tr (p : list nat) (x : T) : option T := let? y := ttrans p x in tsub x y.

  (** make_random_F, test_utils.py:9-16 *)
  Definition make_random_F (roo rov rvv : draw) (no nv : nat) : option (one_e K) :=
    let foo := random [no; no] roo in
    let fov := random [no; nv] rov in
    let fvv := random [nv; nv] rvv in
    let? foo := iadd_tr [1; 0] foo in
    let? fvv := iadd_tr [1; 0] fvv in
    let? fvo := ttrans [1; 0] fov in
    Some (OneE K foo fov fvo fvv).

  (** make_random_I, test_utils.py:19-34 *)
  Definition make_random_I (r : draw) (no nv : nat) : option (two_e K) :=
    let n := no + nv in
    let Itot := random [n; n; n; n] r in
    let? Itot := iadd_tr [1; 0; 3; 2] Itot in
    let? Ivvvv := tslice [From no; From no; From no; From no] Itot in
    let? Ivvvo := tslice [From no; From no; From no; Upto no] Itot in
    let? Ivovv := tslice [From no; Upto no; From no; From no] Itot in
    let? Ivvoo := tslice [From no; From no; Upto no; Upto no] Itot in
    let? Ivovo := tslice [From no; Upto no; From no; Upto no] Itot in
    let? Ioovv := tslice [Upto no; Upto no; From no; From no] Itot in
    let? Ivooo := tslice [From no; Upto no; Upto no; Upto no] Itot in
    let? Iooov := tslice [Upto no; Upto no; Upto no; From no] Itot in
    let? Ioooo := tslice [Upto no; Upto no; Upto no; Upto no] Itot in
    Some (TwoE K Ivvvv Ivvvo Ivovv Ivvoo Ivovo Ioovv Ivooo Iooov Ioooo).

  (** make_random_I_anti, test_utils.py:37-54 *)
  Definition make_random_I_anti (r : draw) (no nv : nat) : option (two_e K) :=
    let n := no + nv in
    let Itot := random [n; n; n; n] r in
    let? Itot := isub_tr [0; 1; 3; 2] Itot in
    let? Itot := isub_tr [1; 0; 2; 3] Itot in
    let? Itot := iadd_tr [1; 0; 3; 2] Itot in
    let? Ivvvv := tslice [From no; From no; From no; From no] Itot in
    let? Ivvvo := tslice [From no; From no; From no; Upto no] Itot in
    let? Ivovv := tslice [From no; Upto no; From no; From no] Itot in
    let? Ivvoo := tslice [From no; From no; Upto no; Upto no] Itot in
    let? Ivovo := tslice [From no; Upto no; From no; Upto no] Itot in
    let? Ioovv := tslice [Upto no; Upto no; From no; From no] Itot in
    let? Ivooo := tslice [From no; Upto no; Upto no; Upto no] Itot in
    let? Iooov := tslice [Upto no; Upto no; Upto no; From no] Itot in
    let? Ioooo := tslice [Upto no; Upto no; Upto no; Upto no] Itot in
    Some (TwoE K Ivvvv Ivvvo Ivovv Ivvoo Ivovo Ioovv Ivooo Iooov Ioooo).

  (** make_random_Itot, test_utils.py:57-63 *)
  Definition make_random_Itot (r : draw) (n : nat) : option T :=
    let Ix := random [n; n; n; n] r in
    let? Ix := iadd_tr [1; 0; 3; 2] Ix in
    let? Ix := iadd_tr [2; 3; 0; 1] Ix in
    iadd_tr [3; 2; 1; 0] Ix.

  (** make_random_Ifull, test_utils.py:66-92 *)
  Definition make_random_Ifull (r : draw) (no nv : nat) : option (two_e_full K) :=
    let n := no + nv in
    let Itot := random [n; n; n; n] r in
    let? Itot := isub_tr [0; 1; 3; 2] Itot in
    let? Itot := isub_tr [1; 0; 2; 3] Itot in
    let? Itot := iadd_tr [1; 0; 3; 2] Itot in
    let? Ivvvv := tslice [From no; From no; From no; From no] Itot in
    let? Ivvvo := tslice [From no; From no; From no; Upto no] Itot in
    let? Ivvov := ttrans [1; 0; 3; 2] Ivvvo in
    let? Ivovv := tslice [From no; Upto no; From no; From no] Itot in
    let? Iovvv := ttrans [1; 0; 3; 2] Ivovv in
    let? Ivvoo := tslice [From no; From no; Upto no; Upto no] Itot in
    let? Ivovo := tslice [From no; Upto no; From no; Upto no] Itot in
    let? Iovov := ttrans [1; 0; 3; 2] Ivovo in
    let? Iovvo := tslice [Upto no; From no; From no; Upto no] Itot in
    let? Ivoov := ttrans [1; 0; 3; 2] Iovvo in
    let? Ioovv := tslice [Upto no; Upto no; From no; From no] Itot in
    let? Ivooo := tslice [From no; Upto no; Upto no; Upto no] Itot in
    let? Iovoo := ttrans [1; 0; 3; 2] Ivooo in
    let? Iooov := tslice [Upto no; Upto no; Upto no; From no] Itot in
    let? Ioovo := ttrans [1; 0; 3; 2] Iooov in
    let? Ioooo := tslice [Upto no; Upto no; Upto no; Upto no] Itot in
    Some (TwoEF K Ivvvv Ivvvo Ivvov Ivovv Iovvv Ivvoo Ivovo Ivoov Iovvo Iovov Ioovv Iooov Ioovo
            Iovoo Ivooo Ioooo).

  (** make_random_Ifull_gen, test_utils.py:95-101 *)
  Definition make_random_Ifull_gen (r : draw) (n1o n1v n2o n2v n3o n3v n4o n4v : nat)
    : option (blocks K) :=
    let n1 := n1o + n1v in
    let n2 := n2o + n2v in
    let n3 := n3o + n3v in
    let n4 := n4o + n4v in
    let Itot := random [n1; n2; n3; n4] r in
    make_two_e_blocks_full Itot n1o n1v n2o n2v n3o n3v n4o n4v.

  (** make_random_integrals, test_utils.py:104-108 *)
  Definition make_random_integrals (roo rov rvv r : draw) (no nv : nat)
    : option (one_e K * two_e K) :=
    let? F := make_random_F roo rov rvv no nv in
    let? Ix := make_random_I_anti r no nv in
    Some (F, Ix).

  (** make_random_T, test_utils.py:111-118 *)
  Definition make_random_T (r1 r2 : draw) (no nv : nat) : option (T * T) :=
    let T1 := random [nv; no] r1 in
    let T2 := random [nv; nv; no; no] r2 in
    let? T2 := isub_tr [1; 0; 2; 3] T2 in
    let? T2 := isub_tr [0; 1; 3; 2] T2 in
    let? T2 := iadd_tr [1; 0; 3; 2] T2 in
    Some (T1, T2).

  (** make_random_T1_spatial, test_utils.py:121-124 *)
  Definition make_random_T1_spatial (ra rb : draw) (noa nva nob nvb : nat) : T * T :=
    (random [nva; noa] ra, random [nvb; nob] rb).

  (** make_random_T2_spatial, test_utils.py:127-137 *)
  Definition make_random_T2_spatial (raa rbb rab : draw) (noa nva nob nvb : nat)
    : option (T * T * T) :=
    let Taa := random [nva; nva; noa; noa] raa in
    let Tbb := random [nvb; nvb; nob; nob] rbb in
    let Tab := random [nva; nvb; noa; nob] rab in
    let? Taa := isub_tr [1; 0; 2; 3] Taa in
    let? Taa := isub_tr [0; 1; 3; 2] Taa in
    let? Taa := iadd_tr [1; 0; 3; 2] Taa in
    let? Tbb := isub_tr [1; 0; 2; 3] Tbb in
    let? Tbb := isub_tr [0; 1; 3; 2] Tbb in
    let? Tbb := iadd_tr [1; 0; 3; 2] Tbb in
    Some (Taa, Tab, Tbb).

  (** make_random_L, test_utils.py:140-147 *)
  Definition make_random_L (r1 r2 : draw) (no nv : nat) : option (T * T) :=
    let L1 := random [no; nv] r1 in
    let L2 := random [no; no; nv; nv] r2 in
    let? L2 := isub_tr [1; 0; 2; 3] L2 in
    let? L2 := isub_tr [0; 1; 3; 2] L2 in
    let? L2 := iadd_tr [1; 0; 3; 2] L2 in
    Some (L1, L2).

  (** make_random_ft_integrals, test_utils.py:150-159 *)
  Definition make_random_ft_integrals (r1 r2 : draw) (n : nat) : option (T * T) :=
    let F := random [n; n] r1 in
    let? F := iadd_tr [1; 0] F in
    let Ix := random [n; n; n; n] r2 in
    let? Ix := isub_tr [0; 1; 3; 2] Ix in
    let? Ix := isub_tr [1; 0; 2; 3] Ix in
    let? Ix := iadd_tr [1; 0; 3; 2] Ix in
    Some (F, Ix).

  (** make_random_ft_T, test_utils.py:162-170 *)
  Definition make_random_ft_T (r1 r2 : draw) (ng n : nat) : option (T * T) :=
    let T1 := random [ng; n; n] r1 in
    let T2 := random [ng; n; n; n; n] r2 in
    let? T2 := isub_tr [0; 1; 2; 4; 3] T2 in
    let? T2 := isub_tr [0; 2; 1; 3; 4] T2 in
    let? T2 := iadd_tr [0; 2; 1; 4; 3] T2 in
    Some (T1, T2).

  (** make_random_ft_T1_spatial, test_utils.py:173-178 *)
  Definition make_random_ft_T1_spatial (ra rb : draw) (ng na nb : nat) : T * T :=
    (random [ng; na; na] ra, random [ng; nb; nb] rb).

  (** make_random_ft_T2_spatial, test_utils.py:181-191 *)
  Definition make_random_ft_T2_spatial (raa rbb rab : draw) (ng na nb : nat) : option (T * T * T) :=
    let T2aa := random [ng; na; na; na; na] raa in
    let? T2aa := isub_tr [0; 1; 2; 4; 3] T2aa in
    let? T2aa := isub_tr [0; 2; 1; 3; 4] T2aa in
    let? T2aa := iadd_tr [0; 2; 1; 4; 3] T2aa in
    let T2bb := random [ng; nb; nb; nb; nb] rbb in
    let? T2bb := isub_tr [0; 1; 2; 4; 3] T2bb in
    let? T2bb := isub_tr [0; 2; 1; 3; 4] T2bb in
    let? T2bb := iadd_tr [0; 2; 1; 4; 3] T2bb in
    let T2ab := random [ng; na; nb; na; nb] rab in
    Some (T2aa, T2ab, T2bb).

  (** make_random_ft_D, test_utils.py:194-199 *)
  Definition make_random_ft_D (r : draw) (n : nat) : option (T * T) :=
    let en := random [n] r in
    let? d1 := D1 en en in
    let? d2 := D2 en en in
    Some (d1, d2).

  (** make_random_ft_D1, test_utils.py:202-206 *)
  Definition make_random_ft_D1 (r : draw) (n : nat) : option T :=
    let en := random [n] r in
    D1 en en.

  (** make_random_ft_D2, test_utils.py:209-214 *)
  Definition make_random_ft_D2 (r1 r2 : draw) (n1 n2 : nat) : option T :=
    let e1 := random [n1] r1 in
    let e2 := random [n2] r2 in
    D2u e1 e2 e1 e2.
End TestUtilsModel.
