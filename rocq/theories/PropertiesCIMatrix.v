(** Theorems about the Hamiltonian between determinants and on CI vectors
    (ci_utils.py): C30 - C35.  Vocabulary: CISpec.v; [dstr s] and [dpair x] are
    the Dstring object, or the pair of them, with the occupations given. *)
From Coq Require Import List Bool Arith ZArith QArith Qcanon.
From Verif Require Import Scalar Tensor NpModel CIModel CISpec CIRep CIFock CIMatrix CIVec.
Import ListNotations.
Local Open Scope nat_scope.

(** A concrete Hamiltonian of two spatial orbitals over the rationals. *)
Definition ex_h : tensor QcK := mkT [2; 2] (fun i => match i with
  | [p; q] => zK (Z.of_nat (1 + p + q)) | _ => c0 end).
Definition ex_V (n : nat) : tensor QcK := mkT [n; n; n; n] (fun i => match i with
  | [p; q; r; s] => zK (Z.of_nat ((1 + p * r) * (1 + q * s) + p + q + r + s)) | _ => c0 end).

(** C30: ci_matrixel is <bra|H|ket>.  The determinants are strings of n alpha
    and n beta orbitals with the same numbers of alpha and of beta electrons. *)
Theorem C30_ci_matrixel (K : cring) (n : nat) (ha hb Ia Ib Iab : tensor K) (c : K)
    (braa brab keta ketb : det) :
  shp ha = [n; n] -> shp hb = [n; n] ->
  shp Ia = [n; n; n; n] -> shp Ib = [n; n; n; n] -> shp Iab = [n; n; n; n] ->
  (forall p q r s, p < n -> q < n -> r < n -> s < n -> dat Ia [p; q; r; s] = dat Ia [q; p; s; r]) ->
  (forall p q r s, p < n -> q < n -> r < n -> s < n -> dat Ib [p; q; r; s] = dat Ib [q; p; s; r]) ->
  length braa = n -> length brab = n -> length keta = n -> length ketb = n ->
  nel braa = nel keta -> nel brab = nel ketb ->
  ci_matrixel K (dstr braa) (dstr brab) (dstr keta) (dstr ketb) ha hb Ia Ib Iab c
  = Some (H_spatial n c
            (fun p q => dat ha [p; q]) (fun p q => dat hb [p; q])
            (fun p q r s => dat Ia [p; q; r; s]) (fun p q r s => dat Ib [p; q; r; s])
            (fun p q r s => dat Iab [p; q; r; s])
            (braa ++ brab) (keta ++ ketb)).
Proof. exact (ci_matrixel_spec K n ha hb Ia Ib Iab c braa brab keta ketb). Qed.
Print Assumptions C30_ci_matrixel.

Example C30_example :
  (forall p q r s, dat (ex_V 2) [p; q; r; s] = dat (ex_V 2) [q; p; s; r]) /\
  option_map this (ci_matrixel QcK (dstr [true; false]) (dstr [false; true]) (dstr [false; true]) (dstr [false; true])
    ex_h ex_h (ex_V 2) (ex_V 2) (ex_V 2) c0) = Some 7%Q /\
  option_map this (ci_matrixel QcK (dstr [true; false; true; true]) (dstr [true; false; false; false])
    (dstr [true; true; true; false]) (dstr [true; false; false; false])
    (mkT [4; 4] (fun i => dat (ex_V 4) [nth 0 i 0; 1; nth 1 i 0; 2]))
    (mkT [4; 4] (fun i => dat (ex_V 4) [nth 0 i 0; 1; nth 1 i 0; 1]))
    (ex_V 4) (ex_V 4) (ex_V 4) 1%Qc) = Some (-29)%Q.
Proof.
  split; [intros; cbn [dat ex_V]; do 2 f_equal; ring|]. split; vm_compute; reflexivity.
Qed.

(** C31: for real symmetric integrals the matrix is symmetric. *)
Theorem C31_ci_matrixel_symmetric (K : cring) (n : nat) (ha hb Ia Ib Iab : tensor K) (c : K)
    (braa brab keta ketb : det) :
  shp ha = [n; n] -> shp hb = [n; n] ->
  shp Ia = [n; n; n; n] -> shp Ib = [n; n; n; n] -> shp Iab = [n; n; n; n] ->
  (forall p q r s, p < n -> q < n -> r < n -> s < n -> dat Ia [p; q; r; s] = dat Ia [q; p; s; r]) ->
  (forall p q r s, p < n -> q < n -> r < n -> s < n -> dat Ib [p; q; r; s] = dat Ib [q; p; s; r]) ->
  (forall p q, p < n -> q < n -> dat ha [p; q] = dat ha [q; p]) ->
  (forall p q, p < n -> q < n -> dat hb [p; q] = dat hb [q; p]) ->
  (forall p q r s, p < n -> q < n -> r < n -> s < n -> dat Ia [p; q; r; s] = dat Ia [r; s; p; q]) ->
  (forall p q r s, p < n -> q < n -> r < n -> s < n -> dat Ib [p; q; r; s] = dat Ib [r; s; p; q]) ->
  (forall p q r s, p < n -> q < n -> r < n -> s < n -> dat Iab [p; q; r; s] = dat Iab [r; s; p; q]) ->
  length braa = n -> length brab = n -> length keta = n -> length ketb = n ->
  nel braa = nel keta -> nel brab = nel ketb ->
  ci_matrixel K (dstr braa) (dstr brab) (dstr keta) (dstr ketb) ha hb Ia Ib Iab c
  = ci_matrixel K (dstr keta) (dstr ketb) (dstr braa) (dstr brab) ha hb Ia Ib Iab c.
Proof. exact (ci_matrixel_sym K n ha hb Ia Ib Iab c braa brab keta ketb). Qed.
Print Assumptions C31_ci_matrixel_symmetric.

(** Both kinds of permutational symmetry are needed: with symmetric h and
    I_pqrs = I_rspq alone the matrix need not be symmetric. *)
Theorem C31_pair_symmetry_needed : exists (h V W : tensor QcK) (bra ket occ : det),
  shp h = [3; 3] /\ shp V = [3; 3; 3; 3] /\ shp W = [3; 3; 3; 3] /\
  length bra = 3 /\ length ket = 3 /\ length occ = 3 /\ nel bra = nel ket /\
  (forall p q, dat h [p; q] = dat h [q; p]) /\
  (forall p q r s, dat V [p; q; r; s] = dat V [r; s; p; q]) /\
  (forall p q r s, dat W [p; q; r; s] = dat W [r; s; p; q]) /\
  ci_matrixel QcK (dstr bra) (dstr occ) (dstr ket) (dstr occ) h h V V W c0
  <> ci_matrixel QcK (dstr ket) (dstr occ) (dstr bra) (dstr occ) h h V V W c0.
Proof. exact pair_symmetry_needed. Qed.
Print Assumptions C31_pair_symmetry_needed.

Example C31_example :
  (forall p q r s, dat (ex_V 2) [p; q; r; s] = dat (ex_V 2) [r; s; p; q]) /\
  option_map this (ci_matrixel QcK (dstr [false; true]) (dstr [false; true]) (dstr [true; false]) (dstr [false; true])
    ex_h ex_h (ex_V 2) (ex_V 2) (ex_V 2) c0) = Some 7%Q.
Proof.
  split; [intros; cbn [dat ex_V]; do 2 f_equal; ring|]. vm_compute; reflexivity.
Qed.

(** C32: beyond double excitations the elements vanish, for any integrals. *)
Theorem C32_ci_matrixel_zero (K : cring) (ha hb Ia Ib Iab : tensor K) (c : K)
    (braa brab keta ketb : det) (i j : nat) :
  excited i keta braa -> excited j ketb brab -> 2 < i + j ->
  ci_matrixel K (dstr braa) (dstr brab) (dstr keta) (dstr ketb) ha hb Ia Ib Iab c = Some c0.
Proof. exact (ci_zero K ha hb Ia Ib Iab c braa brab keta ketb i j). Qed.
Print Assumptions C32_ci_matrixel_zero.

Theorem C32_gci_matrixel_zero (K : cring) (h V : tensor K) (c : K) (bra ket : det) (i : nat) :
  excited i ket bra -> 2 < i ->
  gci_matrixel K (dstr bra) (dstr ket) h V c = Some c0.
Proof. exact (gci_zero K h V c bra ket i). Qed.
Print Assumptions C32_gci_matrixel_zero.

Example C32_example :
  excited 2 [true; true; false; false] [false; false; true; true] /\
  excited 1 [true; true; false; false] [true; false; false; true] /\
  excited 3 [true; true; true; false; false; false] [false; false; false; true; true; true].
Proof. repeat split. Qed.

(** C33: gci_matrixel.  For pairs other than double excitations that move two
    electrons past each other entirely it is <bra|H|ket> with the constant
    left out; for those double excitations the sign is wrong. *)
Theorem C33_gci_matrixel_right (K : cring) (n : nat) (h V : tensor K) (c : K) (bra ket : det) :
  shp h = [n; n] -> shp V = [n; n; n; n] ->
  (forall p q r s, p < n -> q < n -> r < n -> s < n -> dat V [p; q; r; s] = dat V [q; p; s; r]) ->
  length bra = n -> length ket = n -> nel bra = nel ket ->
  (forall o1 o2 v1 v2, moved2 ket bra o1 o2 v1 v2 -> ~ (v2 < o1 \/ o2 < v1)) ->
  gci_matrixel K (dstr bra) (dstr ket) h V c
  = Some (H_spin_orbital n c0 (fun p q => dat h [p; q]) (fun p q r s => dat V [p; q; r; s]) bra ket).
Proof. exact (gci_right K n h V c bra ket). Qed.
Print Assumptions C33_gci_matrixel_right.

Theorem C33_gci_matrixel_sign_wrong (K : cring) (n : nat) (h V : tensor K) (c : K) (bra ket : det)
    (o1 o2 v1 v2 : nat) :
  shp h = [n; n] -> shp V = [n; n; n; n] ->
  (forall p q r s, p < n -> q < n -> r < n -> s < n -> dat V [p; q; r; s] = dat V [q; p; s; r]) ->
  length ket = n -> moved2 ket bra o1 o2 v1 v2 -> v2 < o1 \/ o2 < v1 ->
  gci_matrixel K (dstr bra) (dstr ket) h V c
  = Some (copp (H_spin_orbital n c (fun p q => dat h [p; q]) (fun p q r s => dat V [p; q; r; s]) bra ket)).
Proof. exact (gci_wrong K n h V c bra ket o1 o2 v1 v2). Qed.
Print Assumptions C33_gci_matrixel_sign_wrong.

(** Hence it is not <bra|H|ket>, neither for a double excitation (with constant
    zero) nor on the diagonal (with a constant). *)
Theorem C33_gci_matrixel_refuted :
  (exists (h V : tensor QcK) (bra ket : det),
    shp h = [4; 4] /\ shp V = [4; 4; 4; 4] /\
    (forall p q r s, dat V [p; q; r; s] = dat V [q; p; s; r]) /\
    length bra = 4 /\ length ket = 4 /\ nel bra = nel ket /\
    gci_matrixel QcK (dstr bra) (dstr ket) h V c0
    <> Some (H_spin_orbital 4 c0 (fun p q => dat h [p; q]) (fun p q r s => dat V [p; q; r; s]) bra ket)) /\
  (exists (h V : tensor QcK) (c : QcK) (bra : det),
    shp h = [4; 4] /\ shp V = [4; 4; 4; 4] /\
    (forall p q r s, dat V [p; q; r; s] = dat V [q; p; s; r]) /\ length bra = 4 /\
    gci_matrixel QcK (dstr bra) (dstr bra) h V c
    <> Some (H_spin_orbital 4 c (fun p q => dat h [p; q]) (fun p q r s => dat V [p; q; r; s]) bra bra)).
Proof. exact gci_refuted. Qed.
Print Assumptions C33_gci_matrixel_refuted.

Example C33_example :
  moved2 [true; true; false; false] [false; false; true; true] 0 1 2 3 /\
  (forall o1 o2 v1 v2, moved2 [true; false; true; false] [false; true; false; true] o1 o2 v1 v2 ->
    ~ (v2 < o1 \/ o2 < v1)) /\
  option_map this (gci_matrixel QcK (dstr [false; true; false; true]) (dstr [true; false; true; false])
    (mkT [4; 4] (fun i => dat (ex_V 4) [nth 0 i 0; 1; nth 1 i 0; 2])) (ex_V 4) c0) = Some 4%Q.
Proof.
  split; [repeat split; auto|]. split; [|vm_compute; reflexivity].
  intros o1 o2 v1 v2 M. destruct (moved2_lists _ _ _ _ _ _ M) as (_ & _ & R & A).
  cbn in R, A. injection R as <- <-. injection A as <- <-. intros [X|X]; repeat apply le_S_n in X; inversion X.
Qed.

(** C34: excitation operators on CI vectors, on bases without duplicates.  The
    k-th coefficient belongs to the k-th element of the basis; a determinant of
    n alpha and n beta orbitals is the string alpha ++ beta. *)
Theorem C34_s_on_vec (K : cring) (n : nat) (L : list det) (vec : list K) (i a : nat) :
  (forall s, In s L -> length s = n) -> NoDup L -> length vec = length L ->
  i < n -> a < n -> i <> a ->
  s_on_vec K (map dstr L) vec i a = Some (project (fun J k => braket J [Cre a; Ann i] k) L vec).
Proof. intros Len ND Lv Hi Ha N. exact (s_on_vec_ok K n L Len ND vec i a Hi Ha N Lv). Qed.
Print Assumptions C34_s_on_vec.

Theorem C34_d_on_vec (K : cring) (n : nat) (L : list det) (vec : list K) (i j a b : nat) :
  (forall s, In s L -> length s = n) -> NoDup L -> length vec = length L ->
  i < n -> a < n -> j < n -> b < n -> i <> a -> j <> b ->
  d_on_vec K (map dstr L) vec i j a b
  = Some (project (fun J k => braket J [Cre b; Ann j; Cre a; Ann i] k) L vec).
Proof. intros Len ND Lv Hi Ha Hj Hb N M. exact (d_on_vec_ok K n L Len ND vec i j a b Hi Ha Hj Hb N M Lv). Qed.
Print Assumptions C34_d_on_vec.

Theorem C34_spin_on_vec (K : cring) (n : nat) (L : list (det * det)) (vec : list K) (i j a b : nat) :
  (forall s, In s L -> length (fst s) = n /\ length (snd s) = n) -> NoDup L -> length vec = length L ->
  i < n -> a < n -> j < n -> b < n -> i <> a -> j <> b ->
  let operator ops := project (fun J k => braket (fst J ++ snd J) ops (fst k ++ snd k)) L vec in
  sa_on_vec K (map dpair L) vec i a = Some (operator [Cre a; Ann i]) /\
  sb_on_vec K (map dpair L) vec i a = Some (operator [Cre (n + a); Ann (n + i)]) /\
  da_on_vec K (map dpair L) vec i j a b = Some (operator [Cre b; Ann j; Cre a; Ann i]) /\
  db_on_vec K (map dpair L) vec i j a b
    = Some (operator [Cre (n + b); Ann (n + j); Cre (n + a); Ann (n + i)]) /\
  sasb_on_vec K (map dpair L) vec i j a b = Some (operator [Cre (n + b); Ann (n + j); Cre a; Ann i]).
Proof. exact (spin_on_vec_ok K n L vec i j a b). Qed.
Print Assumptions C34_spin_on_vec.

(** The projected operators are linear: [axpy c u v] is u + c v. *)
Theorem C34_linear (K : cring) (A : Type) (amp : A -> A -> K) (L : list A) (c : K) (u v : list K) :
  length u = length L -> length v = length L ->
  project amp L (axpy c u v) = axpy c (project amp L u) (project amp L v).
Proof. exact (project_linear K amp L c u v). Qed.
Print Assumptions C34_linear.

Example C34_example :
  let L := [([true; false], [true; false]); ([false; true], [true; false]); ([false; true], [false; true])] in
  NoDup L /\
  option_map (map this) (sa_on_vec QcK (map dpair L) [zK 3; zK 5; zK 7] 0 1) = Some [0; 3; 0]%Q /\
  option_map (map this) (sasb_on_vec QcK (map dpair L) [zK 3; zK 5; zK 7] 0 0 1 1) = Some [0; 0; 3]%Q /\
  option_map (map this) (d_on_vec QcK (map dstr [[true; true; false; false]; [false; false; true; true]])
      [zK 3; zK 5] 0 1 3 2) = Some [0; (-3)]%Q.
Proof.
  split; [|split; [vm_compute; reflexivity|split; vm_compute; reflexivity]].
  repeat (apply NoDup_cons; [cbn; intuition congruence|]). apply NoDup_nil.
Qed.

(** C35: the Hamiltonian on CI vectors.  H_on_vec multiplies the vector with
    the matrix of H (constant zero) in the basis, ... *)
Theorem C35_H_on_vec (K : cring) (n na nb : nat) (L : list (det * det)) (vec : list K)
    (ha hb Ia Ib Iab : tensor K) :
  shp ha = [n; n] -> shp hb = [n; n] ->
  shp Ia = [n; n; n; n] -> shp Ib = [n; n; n; n] -> shp Iab = [n; n; n; n] ->
  (forall p q r s, p < n -> q < n -> r < n -> s < n -> dat Ia [p; q; r; s] = dat Ia [q; p; s; r]) ->
  (forall p q r s, p < n -> q < n -> r < n -> s < n -> dat Ib [p; q; r; s] = dat Ib [q; p; s; r]) ->
  (forall s, In s L -> length (fst s) = n /\ length (snd s) = n /\ nel (fst s) = na /\ nel (snd s) = nb) ->
  length vec = length L ->
  H_on_vec K (map dpair L) vec ha hb Ia Ib Iab
  = Some (project (fun J k => H_spatial n c0
            (fun p q => dat ha [p; q]) (fun p q => dat hb [p; q])
            (fun p q r s => dat Ia [p; q; r; s]) (fun p q r s => dat Ib [p; q; r; s])
            (fun p q r s => dat Iab [p; q; r; s])
            (fst J ++ snd J) (fst k ++ snd k)) L vec).
Proof. exact (H_on_vec_ok K n na nb L vec ha hb Ia Ib Iab). Qed.
Print Assumptions C35_H_on_vec.

(** ... it is linear and, for symmetric integrals, symmetric as a bilinear form
    ([dot u v] is the sum of the products of the entries). *)
Theorem C35_H_on_vec_linear_symmetric (K : cring) (n na nb : nat) (L : list (det * det)) (u v : list K) (c : K)
    (ha hb Ia Ib Iab : tensor K) :
  shp ha = [n; n] -> shp hb = [n; n] ->
  shp Ia = [n; n; n; n] -> shp Ib = [n; n; n; n] -> shp Iab = [n; n; n; n] ->
  (forall p q r s, p < n -> q < n -> r < n -> s < n -> dat Ia [p; q; r; s] = dat Ia [q; p; s; r]) ->
  (forall p q r s, p < n -> q < n -> r < n -> s < n -> dat Ib [p; q; r; s] = dat Ib [q; p; s; r]) ->
  (forall s, In s L -> length (fst s) = n /\ length (snd s) = n /\ nel (fst s) = na /\ nel (snd s) = nb) ->
  length u = length L -> length v = length L ->
  exists Hu Hv,
    H_on_vec K (map dpair L) u ha hb Ia Ib Iab = Some Hu /\
    H_on_vec K (map dpair L) v ha hb Ia Ib Iab = Some Hv /\
    H_on_vec K (map dpair L) (axpy c u v) ha hb Ia Ib Iab = Some (axpy c Hu Hv) /\
    ((forall p q, p < n -> q < n -> dat ha [p; q] = dat ha [q; p]) ->
     (forall p q, p < n -> q < n -> dat hb [p; q] = dat hb [q; p]) ->
     (forall p q r s, p < n -> q < n -> r < n -> s < n -> dat Ia [p; q; r; s] = dat Ia [r; s; p; q]) ->
     (forall p q r s, p < n -> q < n -> r < n -> s < n -> dat Ib [p; q; r; s] = dat Ib [r; s; p; q]) ->
     (forall p q r s, p < n -> q < n -> r < n -> s < n -> dat Iab [p; q; r; s] = dat Iab [r; s; p; q]) ->
     dot u Hv = dot v Hu).
Proof. exact (H_on_vec_lin_sym K n na nb L u v c ha hb Ia Ib Iab). Qed.
Print Assumptions C35_H_on_vec_linear_symmetric.

(** gH_on_vec multiplies with the matrix of the values of gci_matrixel.  In a
    basis where no two determinants differ by a double excitation of the kind
    of C33, that is the matrix of H. *)
Theorem C35_gH_on_vec (K : cring) (basis : list dstring) (vec : list K) (h V : tensor K)
    (M : dstring -> dstring -> K) :
  length vec = length basis ->
  (forall b k, In b basis -> In k basis -> gci_matrixel K b k h V c0 = Some (M b k)) ->
  gH_on_vec K basis vec h V = Some (project M basis vec).
Proof. exact (gH_on_vec_any K basis vec h V M). Qed.
Print Assumptions C35_gH_on_vec.

Theorem C35_gH_on_vec_right (K : cring) (n N : nat) (L : list det) (vec : list K) (h V : tensor K) :
  shp h = [n; n] -> shp V = [n; n; n; n] ->
  (forall p q r s, p < n -> q < n -> r < n -> s < n -> dat V [p; q; r; s] = dat V [q; p; s; r]) ->
  (forall s, In s L -> length s = n /\ nel s = N) ->
  (forall k b o1 o2 v1 v2, In k L -> In b L -> moved2 k b o1 o2 v1 v2 -> ~ (v2 < o1 \/ o2 < v1)) ->
  length vec = length L ->
  gH_on_vec K (map dstr L) vec h V
  = Some (project (fun J k => H_spin_orbital n c0 (fun p q => dat h [p; q])
                                (fun p q r s => dat V [p; q; r; s]) J k) L vec).
Proof. exact (gH_on_vec_ok K n N L vec h V). Qed.
Print Assumptions C35_gH_on_vec_right.

Example C35_example :
  let L := [([true; false], [true; false]); ([false; true], [true; false]); ([false; true], [false; true])] in
  (forall s, In s L -> length (fst s) = 2 /\ length (snd s) = 2 /\ nel (fst s) = 1 /\ nel (snd s) = 1) /\
  option_map (map this) (H_on_vec QcK (map dpair L) [zK 1; zK 2; zK 3] ex_h ex_h (ex_V 2) (ex_V 2) (ex_V 2))
    = Some [20; 41; 59]%Q /\
  option_map (map this) (gH_on_vec QcK (map dstr [[true; false]; [false; true]]) [zK 1; zK 2] ex_h (ex_V 2))
    = Some [5; 8]%Q.
Proof.
  split; [|split; vm_compute; reflexivity].
  intros s [<-|[<-|[<-|[]]]]; repeat split.
Qed.
