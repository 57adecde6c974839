(** Model of cqcpy/utils.py and cqcpy/ov_blocks.py, with the NumPy operations
    they use.  Exceptions are [None]. *)
From Coq Require Import List Bool Arith String.
From Verif Require Import Scalar Tensor NpModel.
Import ListNotations.
Local Open Scope string_scope.

(** *** NumPy *)
(** indexing with full slices and None: [true] stands for [:], [false] for
    None *)
Fixpoint new_shape (pat : list bool) (sh : list nat) : option (list nat) :=
  match pat, sh with
  | [], [] => Some []
  | true :: pat', d :: sh' => match new_shape pat' sh' with Some r => Some (d :: r) | None => None end
  | false :: pat', _ => match new_shape pat' sh with Some r => Some (1 :: r) | None => None end
  | _, _ => None
  end.
Fixpoint old_index (pat : list bool) (idx : list nat) : list nat :=
  match pat, idx with
  | true :: pat', i :: idx' => i :: old_index pat' idx'
  | false :: pat', _ :: idx' => old_index pat' idx'
  | _, _ => []
  end.

(** broadcasting; simplification: both arrays must have the same rank *)
Fixpoint bshape (a b : list nat) : option (list nat) :=
  match a, b with
  | [], [] => Some []
  | x :: a', y :: b' =>
      match bshape a' b' with
      | Some r => if Nat.eqb x y then Some (x :: r)
                  else if Nat.eqb x 1 then Some (y :: r)
                  else if Nat.eqb y 1 then Some (x :: r) else None
      | None => None
      end
  | _, _ => None
  end.
Fixpoint clip (sh idx : list nat) : list nat :=
  match sh, idx with
  | d :: sh', i :: idx' => (if Nat.eqb d 1 then 0 else i) :: clip sh' idx'
  | _, _ => []
  end.

Section UtilsModel.
  Variable K : cring.
  Local Open Scope K_scope.
  Notation T := (tensor K).

  Definition tnew (pat : list bool) (t : T) : option T :=
    match new_shape pat (shp t) with
    | Some sh => Some (mkT sh (fun idx => dat t (old_index pat idx)))
    | None => None
    end.
  Definition tbin (op : K -> K -> K) (A B : T) : option T :=
    match bshape (shp A) (shp B) with
    | Some sh => Some (mkT sh (fun idx => op (dat A (clip (shp A) idx)) (dat B (clip (shp B) idx))))
    | None => None
    end.

  (** numpy.hstack and numpy.vstack of two matrices *)
  Definition hstack (A B : T) : option T :=
    match shp A, shp B with
    | [m; n], [m'; n'] =>
        if Nat.eqb m m'
        then Some (mkT [m; (n + n')%nat] (fun idx => match idx with
               | [i; j] => if Nat.ltb j n then dat A [i; j] else dat B [i; (j - n)%nat]
               | _ => 0 end))
        else None
    | _, _ => None
    end.
  Definition vstack (A B : T) : option T :=
    match shp A, shp B with
    | [m; n], [m'; n'] =>
        if Nat.eqb n n'
        then Some (mkT [(m + m')%nat; n] (fun idx => match idx with
               | [i; j] => if Nat.ltb i m then dat A [i; j] else dat B [(i - m)%nat; j]
               | _ => 0 end))
        else None
    | _, _ => None
    end.

  (** *** utils.py *)
  (** block_diag, utils.py:4-18; simplification: a rank above two, which
      hstack would also accept, raises *)
  Definition block_diag (A B : T) : option T :=
    let? ma := nth_error (shp A) 0 in
    let? mb := nth_error (shp B) 0 in
    let? na := nth_error (shp A) 1 in
    let? nb := nth_error (shp B) 1 in
    let z1 := tzeros K [ma; nb] in
    let z2 := tzeros K [mb; na] in
    let? M1 := hstack A z1 in
    let? M2 := hstack z2 B in
    vstack M1 M2.

  (** D1, utils.py:21-25 *)
  Definition D1 (ev eo : T) : option T :=
    let? a := tnew [true; false] ev in
    let? b := tnew [false; true] eo in
    tbin csub a b.

  (** D2, utils.py:28-33 *)
  Definition D2 (ev eo : T) : option T :=
    let? a := tnew [true; false; false; false] ev in
    let? b := tnew [false; true; false; false] ev in
    let? i := tnew [false; false; true; false] eo in
    let? j := tnew [false; false; false; true] eo in
    let? ab := tbin cadd a b in
    let? abi := tbin csub ab i in
    tbin csub abi j.

  (** D2u, utils.py:36-41 *)
  Definition D2u (eva evb eoa eob : T) : option T :=
    let? a := tnew [true; false; false; false] eva in
    let? b := tnew [false; true; false; false] evb in
    let? i := tnew [false; false; true; false] eoa in
    let? j := tnew [false; false; false; true] eob in
    let? ab := tbin cadd a b in
    let? abi := tbin csub ab i in
    tbin csub abi j.

  (** *** ov_blocks.py *)
  (** an object of class two_e_blocks_full, ov_blocks.py:45-66: its attributes
      that are not None *)
  Definition blocks := list (string * T).
  Fixpoint attr (s : string) (b : blocks) : option T :=
    match b with
    | [] => None
    | (s', t) :: b' => if String.eqb s s' then Some t else attr s b'
    end.

  Definition assertion (b : bool) : option unit := if b then Some tt else None.

  (** the four assertions at ov_blocks.py:25-29 and 70-74 *)
  Definition check_sizes (Itot : T) (n1o n1v n2o n2v n3o n3v n4o n4v : nat) : option unit :=
    match shp Itot with
    | [n1; n2; n3; n4] =>
        let? _ := assertion (Nat.eqb n1 (n1o + n1v)) in
        let? _ := assertion (Nat.eqb n2 (n2o + n2v)) in
        let? _ := assertion (Nat.eqb n3 (n3o + n3v)) in
        assertion (Nat.eqb n4 (n4o + n4v))
    | _ => None
    end.

  (** make_two_e_blocks, ov_blocks.py:24-42 *)
  Definition make_two_e_blocks (Itot : T) (n1o n1v n2o n2v n3o n3v n4o n4v : nat) : option blocks :=
    let? _ := check_sizes Itot n1o n1v n2o n2v n3o n3v n4o n4v in
    let? Ivvvv := tslice [From n1o; From n2o; From n3o; From n4o] Itot in
    let? Ivvvo := tslice [From n1o; From n2o; From n3o; Upto n4o] Itot in
    let? Ivovv := tslice [From n1o; Upto n2o; From n3o; From n4o] Itot in
    let? Ivvoo := tslice [From n1o; From n2o; Upto n3o; Upto n4o] Itot in
    let? Ivovo := tslice [From n1o; Upto n2o; From n3o; Upto n4o] Itot in
    let? Ioovv := tslice [Upto n1o; Upto n2o; From n3o; From n4o] Itot in
    let? Ivooo := tslice [From n1o; Upto n2o; Upto n3o; Upto n4o] Itot in
    let? Iooov := tslice [Upto n1o; Upto n2o; Upto n3o; From n4o] Itot in
    let? Ioooo := tslice [Upto n1o; Upto n2o; Upto n3o; Upto n4o] Itot in
    Some [("vvvv", Ivvvv); ("vvvo", Ivvvo); ("vovv", Ivovv); ("vvoo", Ivvoo); ("vovo", Ivovo);
          ("oovv", Ioovv); ("vooo", Ivooo); ("ooov", Iooov); ("oooo", Ioooo)].

  (** make_two_e_blocks_full, ov_blocks.py:69-94 *)
  Definition make_two_e_blocks_full (Itot : T) (n1o n1v n2o n2v n3o n3v n4o n4v : nat)
    : option blocks :=
    let? _ := check_sizes Itot n1o n1v n2o n2v n3o n3v n4o n4v in
    let? Ivvvv := tslice [From n1o; From n2o; From n3o; From n4o] Itot in
    let? Ivvvo := tslice [From n1o; From n2o; From n3o; Upto n4o] Itot in
    let? Ivvov := tslice [From n1o; From n2o; Upto n3o; From n4o] Itot in
    let? Ivovv := tslice [From n1o; Upto n2o; From n3o; From n4o] Itot in
    let? Iovvv := tslice [Upto n1o; From n2o; From n3o; From n4o] Itot in
    let? Ivvoo := tslice [From n1o; From n2o; Upto n3o; Upto n4o] Itot in
    let? Ivovo := tslice [From n1o; Upto n2o; From n3o; Upto n4o] Itot in
    let? Iovvo := tslice [Upto n1o; From n2o; From n3o; Upto n4o] Itot in
    let? Ivoov := tslice [From n1o; Upto n2o; Upto n3o; From n4o] Itot in
    let? Iovov := tslice [Upto n1o; From n2o; Upto n3o; From n4o] Itot in
    let? Ioovv := tslice [Upto n1o; Upto n2o; From n3o; From n4o] Itot in
    let? Ivooo := tslice [From n1o; Upto n2o; Upto n3o; Upto n4o] Itot in
    let? Iovoo := tslice [Upto n1o; From n2o; Upto n3o; Upto n4o] Itot in
    let? Ioovo := tslice [Upto n1o; Upto n2o; From n3o; Upto n4o] Itot in
    let? Iooov := tslice [Upto n1o; Upto n2o; Upto n3o; From n4o] Itot in
    let? Ioooo := tslice [Upto n1o; Upto n2o; Upto n3o; Upto n4o] Itot in
    Some [("vvvv", Ivvvv); ("vvvo", Ivvvo); ("vvov", Ivvov); ("vovv", Ivovv); ("ovvv", Iovvv);
          ("vvoo", Ivvoo); ("vovo", Ivovo); ("ovov", Iovov); ("voov", Ivoov); ("ovvo", Iovvo);
          ("oovv", Ioovv); ("vooo", Ivooo); ("ovoo", Iovoo); ("oovo", Ioovo); ("ooov", Iooov);
          ("oooo", Ioooo)].
End UtilsModel.
Arguments tnew {K}. Arguments tbin {K}. Arguments hstack {K}. Arguments vstack {K}.
Arguments block_diag {K}. Arguments D1 {K}. Arguments D2 {K}. Arguments D2u {K}.
Arguments attr {K}. Arguments check_sizes {K}. Arguments make_two_e_blocks {K}.
Arguments make_two_e_blocks_full {K}.
