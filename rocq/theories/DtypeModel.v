(** The functions that write into an array of fixed dtype: spin_utils.py,
    integrals.py and ci_utils.py allocate their result with [numpy.zeros(shape)]
    (float64) or [numpy.zeros(shape, dtype=o1.dtype)] and assign into it.  When
    the value is complex and the array is real NumPy stores the real part (with a
    ComplexWarning).  This is so for values that are NumPy arrays or NumPy
    scalars, which they are when the arguments are NumPy arrays; a built-in Python
    complex number (as an element of a list of coefficients) raises a TypeError
    instead, which is not modelled.  [store] is what an assignment keeps of an array, [store1]
    of a number; with the identity these are the definitions of SpinModel.v,
    IntegralsModel.v and CIModel.v ([Dtype.v]), with the real part they
    model the same functions called with complex arrays. *)
From Coq Require Import List Bool Arith ZArith.
From Verif Require Import Scalar Tensor PySyntax PySem CCProg CCSpec NpModel IntegralsModel CIModel ExModel.
Import ListNotations.

Section Arrays.
  Variable K : cring.
  Notation T := (tensor K).
  Variable store : T -> T.

  (** [t[s1, ..., sn] = u] for an array t of fixed dtype *)
  Definition put (ss : list sl) (u t : T) : option T := tset ss (store u) t.

  (** F_to_spin, spin_utils.py:7-26 *)
  Definition F_to_spin_w (Faa Fbb : one_e K) (noa nva nob nvb : nat) : option (one_e K) :=
    let no := noa + nob in
    let nv := nva + nvb in
    let? Foo := put [Upto noa; Upto noa] (oo Faa) (tzeros K [no; no]) in
    let? Foo := put [From noa; From noa] (oo Fbb) Foo in
    let? Fov := put [Upto noa; Upto nva] (ov Faa) (tzeros K [no; nv]) in
    let? Fov := put [From noa; From nva] (ov Fbb) Fov in
    let? Fvo := put [Upto nva; Upto noa] (vo Faa) (tzeros K [nv; no]) in
    let? Fvo := put [From nva; From noa] (vo Fbb) Fvo in
    let? Fvv := put [Upto nva; Upto nva] (vv Faa) (tzeros K [nv; nv]) in
    let? Fvv := put [From nva; From nva] (vv Fbb) Fvv in
    Some (OneE K Foo Fov Fvo Fvv).

  (** T1_to_spin, spin_utils.py:48-54 *)
  Definition T1_to_spin_w (Ta Tb : T) (noa nva nob nvb : nat) : option T :=
    let no := noa + nob in
    let nv := nva + nvb in
    let? t := put [Upto nva; Upto noa] Ta (tzeros K [nv; no]) in
    let? t := put [From nva; From noa] Tb t in
    Some t.

  (** T2_to_spin, spin_utils.py:87-97 *)
  Definition T2_to_spin_w (Taa Tab Tbb : T) (noa nva nob nvb : nat) : option T :=
    let no := noa + nob in
    let nv := nva + nvb in
    let t := tzeros K [nv; nv; no; no] in
    let? t := put [Upto nva; Upto nva; Upto noa; Upto noa] Taa t in
    let? t := put [From nva; From nva; From noa; From noa] Tbb t in
    let? t := put [Upto nva; From nva; Upto noa; From noa] Tab t in
    let? u := ttrans [1; 0; 3; 2] Tab in
    let? t := put [From nva; Upto nva; From noa; Upto noa] u t in
    let? u := ttrans [0; 1; 3; 2] Tab in
    let? t := put [Upto nva; From nva; From noa; Upto noa] (tneg u) t in
    let? u := ttrans [1; 0; 2; 3] Tab in
    let? t := put [From nva; Upto nva; Upto noa; From noa] (tneg u) t in
    Some t.

  (** D2_to_spin, spin_utils.py:100-110 *)
  Definition D2_to_spin_w (Daa Dab Dbb : T) (noa nva nob nvb : nat) : option T :=
    let no := noa + nob in
    let nv := nva + nvb in
    let t := tzeros K [nv; nv; no; no] in
    let? t := put [Upto nva; Upto nva; Upto noa; Upto noa] Daa t in
    let? t := put [From nva; From nva; From noa; From noa] Dbb t in
    let? t := put [Upto nva; From nva; Upto noa; From noa] Dab t in
    let? u := ttrans [1; 0; 3; 2] Dab in
    let? t := put [From nva; Upto nva; From noa; Upto noa] u t in
    let? u := ttrans [0; 1; 3; 2] Dab in
    let? t := put [Upto nva; From nva; From noa; Upto noa] u t in
    let? u := ttrans [1; 0; 2; 3] Dab in
    let? t := put [From nva; Upto nva; Upto noa; From noa] u t in
    Some t.

  (** int_to_spin_block, spin_utils.py:120-133 *)
  Definition int_to_spin_block_w (aaaa bbbb abab baba abba baab : T)
      (na1 na2 na3 na4 nb1 nb2 nb3 nb4 : nat) : option T :=
    let n1 := na1 + nb1 in
    let n2 := na2 + nb2 in
    let n3 := na3 + nb3 in
    let n4 := na4 + nb4 in
    let t := tzeros K [n1; n2; n3; n4] in
    let? t := put [Upto na1; Upto na2; Upto na3; Upto na4] aaaa t in
    let? t := put [From na1; From na2; From na3; From na4] bbbb t in
    let? t := put [Upto na1; From na2; Upto na3; From na4] abab t in
    let? t := put [Upto na1; From na2; From na3; Upto na4] abba t in
    let? t := put [From na1; Upto na2; Upto na3; From na4] baab t in
    let? t := put [From na1; Upto na2; From na3; Upto na4] baba t in
    Some t.

  (** the call of int_to_spin_block_w for one block in int_to_spin,
      spin_utils.py:136-239: like-spin direct and exchange arrays, then the
      arrays that appear in abab, baba, abba, baab *)
  Definition raw_block_w (da xa db xb ab ba x y : T) (na1 na2 na3 na4 nb1 nb2 nb3 nb4 : nat) :=
    let? u := ttrans [0; 1; 3; 2] xa in
    let? aaaa := tsub da u in
    let? u := ttrans [0; 1; 3; 2] xb in
    let? bbbb := tsub db u in
    let? baba := ttrans [1; 0; 3; 2] ba in
    let? u := ttrans [0; 1; 3; 2] x in
    let? w := ttrans [1; 0; 2; 3] y in
    int_to_spin_block_w aaaa bbbb ab baba (tneg u) (tneg w)
      na1 na2 na3 na4 nb1 nb2 nb3 nb4.

  (** int_to_spin, spin_utils.py:136-239 *)
  Definition int_to_spin_w (Iaaaa Ibbbb Iabab : two_e_full K) (noa nva nob nvb : nat)
    : option (two_e K) :=
    let? Ivvvv := raw_block_w (fvvvv Iaaaa) (fvvvv Iaaaa) (fvvvv Ibbbb) (fvvvv Ibbbb)
      (fvvvv Iabab) (fvvvv Iabab) (fvvvv Iabab) (fvvvv Iabab) nva nva nva nva nvb nvb nvb nvb in
    let? Ivvvo := raw_block_w (fvvvo Iaaaa) (fvvov Iaaaa) (fvvvo Ibbbb) (fvvov Ibbbb)
      (fvvvo Iabab) (fvvov Iabab) (fvvov Iabab) (fvvvo Iabab) nva nva nva noa nvb nvb nvb nob in
    let? Ivovv := raw_block_w (fvovv Iaaaa) (fvovv Iaaaa) (fvovv Ibbbb) (fvovv Ibbbb)
      (fvovv Iabab) (fovvv Iabab) (fvovv Iabab) (fovvv Iabab) nva noa nva nva nvb nob nvb nvb in
    let? Ivvoo := raw_block_w (fvvoo Iaaaa) (fvvoo Iaaaa) (fvvoo Ibbbb) (fvvoo Ibbbb)
      (fvvoo Iabab) (fvvoo Iabab) (fvvoo Iabab) (fvvoo Iabab) nva nva noa noa nvb nvb nob nob in
    let? Ivovo := raw_block_w (fvovo Iaaaa) (fvoov Iaaaa) (fvovo Ibbbb) (fvoov Ibbbb)
      (fvovo Iabab) (fovov Iabab) (fvoov Iabab) (fovvo Iabab) nva noa nva noa nvb nob nvb nob in
    let? Ioovv := raw_block_w (foovv Iaaaa) (foovv Iaaaa) (foovv Ibbbb) (foovv Ibbbb)
      (foovv Iabab) (foovv Iabab) (foovv Iabab) (foovv Iabab) noa noa nva nva nob nob nvb nvb in
    let? Ivooo := raw_block_w (fvooo Iaaaa) (fvooo Iaaaa) (fvooo Ibbbb) (fvooo Ibbbb)
      (fvooo Iabab) (fovoo Iabab) (fvooo Iabab) (fovoo Iabab) nva noa noa noa nvb nob nob nob in
    let? Iooov := raw_block_w (fooov Iaaaa) (foovo Iaaaa) (fooov Ibbbb) (foovo Ibbbb)
      (fooov Iabab) (foovo Iabab) (foovo Iabab) (fooov Iabab) noa noa noa nva nob nob nob nvb in
    let? Ioooo := raw_block_w (foooo Iaaaa) (foooo Iaaaa) (foooo Ibbbb) (foooo Ibbbb)
      (foooo Iabab) (foooo Iabab) (foooo Iabab) (foooo Iabab) noa noa noa noa nob nob nob nob in
    Some (TwoE K Ivvvv Ivvvo Ivovv Ivvoo Ivovo Ioovv Ivooo Iooov Ioooo).

  (** the call of int_to_spin_block_w for one block in int_to_spin2,
      spin_utils.py:242-345 *)
  Definition anti_block_w (aaaa bbbb ab ba x y : T) (na1 na2 na3 na4 nb1 nb2 nb3 nb4 : nat) :=
    let? baba := ttrans [1; 0; 3; 2] ba in
    let? u := ttrans [0; 1; 3; 2] x in
    let? w := ttrans [1; 0; 2; 3] y in
    int_to_spin_block_w aaaa bbbb ab baba (tneg u) (tneg w)
      na1 na2 na3 na4 nb1 nb2 nb3 nb4.

  (** int_to_spin2, spin_utils.py:242-345 *)
  Definition int_to_spin2_w (Iaaaa Ibbbb : two_e K) (Iabab : two_e_full K) (noa nva nob nvb : nat)
    : option (two_e K) :=
    let? Ivvvv := anti_block_w (vvvv Iaaaa) (vvvv Ibbbb)
      (fvvvv Iabab) (fvvvv Iabab) (fvvvv Iabab) (fvvvv Iabab) nva nva nva nva nvb nvb nvb nvb in
    let? Ivvvo := anti_block_w (vvvo Iaaaa) (vvvo Ibbbb)
      (fvvvo Iabab) (fvvov Iabab) (fvvov Iabab) (fvvvo Iabab) nva nva nva noa nvb nvb nvb nob in
    let? Ivovv := anti_block_w (vovv Iaaaa) (vovv Ibbbb)
      (fvovv Iabab) (fovvv Iabab) (fvovv Iabab) (fovvv Iabab) nva noa nva nva nvb nob nvb nvb in
    let? Ivvoo := anti_block_w (vvoo Iaaaa) (vvoo Ibbbb)
      (fvvoo Iabab) (fvvoo Iabab) (fvvoo Iabab) (fvvoo Iabab) nva nva noa noa nvb nvb nob nob in
    let? Ivovo := anti_block_w (vovo Iaaaa) (vovo Ibbbb)
      (fvovo Iabab) (fovov Iabab) (fvoov Iabab) (fovvo Iabab) nva noa nva noa nvb nob nvb nob in
    let? Ioovv := anti_block_w (oovv Iaaaa) (oovv Ibbbb)
      (foovv Iabab) (foovv Iabab) (foovv Iabab) (foovv Iabab) noa noa nva nva nob nob nvb nvb in
    let? Ivooo := anti_block_w (vooo Iaaaa) (vooo Ibbbb)
      (fvooo Iabab) (fovoo Iabab) (fvooo Iabab) (fovoo Iabab) nva noa noa noa nvb nob nob nob in
    let? Iooov := anti_block_w (ooov Iaaaa) (ooov Ibbbb)
      (fooov Iabab) (foovo Iabab) (foovo Iabab) (fooov Iabab) noa noa noa nva nob nob nob nvb in
    let? Ioooo := anti_block_w (oooo Iaaaa) (oooo Ibbbb)
      (foooo Iabab) (foooo Iabab) (foooo Iabab) (foooo Iabab) noa noa noa noa nob nob nob nob in
    Some (TwoE K Ivvvv Ivvvo Ivovv Ivvoo Ivovo Ioovv Ivooo Iooov Ioooo).

  (** get_chemu, integrals.py:39-70; get_chemu_sol, integrals.py:232-263 *)
  Definition get_chemu_w (m : mol K) (o1 o2 o3 o4 p1 p2 p3 p4 : T) (anti : bool) : option T :=
    let? Ia := get_chem K m o1 o2 o3 o4 anti in
    let? Ib := get_chem K m p1 p2 p3 p4 anti in
    let? Iaabb := get_chem K m o1 o2 p3 p4 false in
    let? Ibbaa := get_chem K m p1 p2 o3 o4 false in
    let? a1 := ncols o1 in
    let? a2 := ncols o2 in
    let? a3 := ncols o3 in
    let? a4 := ncols o4 in
    let? b1 := ncols p1 in
    let? b2 := ncols p2 in
    let? b3 := ncols p3 in
    let? b4 := ncols p4 in
    let n1 := a1 + b1 in
    let n2 := a2 + b2 in
    let n3 := a3 + b3 in
    let n4 := a4 + b4 in
    let J := tzeros K [n1; n2; n3; n4] in
    let? J := put [Upto a1; Upto a2; Upto a3; Upto a4] Ia J in
    let? J := put [From a1; From a2; From a3; From a4] Ib J in
    let? J := put [Upto a1; Upto a2; From a3; From a4] Iaabb J in
    let? J := put [From a1; From a2; Upto a3; Upto a4] Ibbaa J in
    if anti then
      let? Iaabbx := get_chem K m o1 o4 p3 p2 false in
      let? Ibbaax := get_chem K m p1 p4 o3 o2 false in
      let? u := ttrans [0; 3; 2; 1] Iaabbx in
      let? J := put [Upto a1; From a2; From a3; Upto a4] (tneg u) J in
      let? u := ttrans [0; 3; 2; 1] Ibbaax in
      put [From a1; Upto a2; Upto a3; From a4] (tneg u) J
    else Some J.

  (** get_chem_antiu, integrals.py:73-77; get_chem_antiu_sol, integrals.py:266-267 *)
  Definition get_chem_antiu_w (m : mol K) (o1 o2 o3 o4 p1 p2 p3 p4 : T) : option T :=
    get_chemu_w m o1 o2 o3 o4 p1 p2 p3 p4 true.

  (** get_chemu_all, integrals.py:80-102; get_chemu_all_sol, integrals.py:278-299 *)
  Definition get_chemu_all_w (m : mol K) (oa ob : T) (anti : bool) : option T :=
    let? na := ncols oa in
    let? nb := ncols ob in
    let n := na + nb in
    let? Ia := ao2mo K m oa oa oa oa in
    let? Ib := ao2mo K m ob ob ob ob in
    let? Iab := ao2mo K m oa oa ob ob in
    let Id := tzeros K [n; n; n; n] in
    let? Id := put [Upto na; Upto na; Upto na; Upto na] Ia Id in
    let? Id := put [From na; From na; From na; From na] Ib Id in
    let? Id := put [Upto na; Upto na; From na; From na] Iab Id in
    let? u := ttrans [2; 3; 0; 1] Iab in
    let? Id := put [From na; From na; Upto na; Upto na] u Id in
    if anti then let? x := ttrans [0; 3; 2; 1] Id in tsub Id x else Some Id.

  (** get_physu_all, integrals.py:112-117; get_physu_all_sol, integrals.py:302-303 *)
  Definition get_physu_all_w (m : mol K) (oa ob : T) (anti : bool) : option T :=
    let? x := get_chemu_all_w m oa ob anti in ttrans [0; 2; 1; 3] x.

  (** get_phys_antiu, integrals.py:127-132; get_phys_antiu_sol, integrals.py:270-275 *)
  Definition get_phys_antiu_w (m : mol K) (o1 o2 o3 o4 p1 p2 p3 p4 : T) : option T :=
    let? x := get_chem_antiu_w m o1 o3 o2 o4 p1 p3 p2 p4 in ttrans [0; 2; 1; 3] x.
End Arrays.

Section Vectors.
  Variable K : cring.
  Notation T := (tensor K).
  Variable store1 : K -> K.
  Local Open Scope K_scope.

  (** [out[idx] += x]: the sum is computed, then stored *)
  Definition add_at_w (out : list K) (idx : nat) (x : K) : option (list K) :=
    let? y := nth_error out idx in Some (upd idx (store1 (y + x)) out).

  (** [try: idx = basis.index(new); out[idx] += s*x; except ValueError: pass] *)
  Definition try_add_w {A} (eqb : A -> A -> bool) (basis : list A) (new : A) (s : Z) (x : K)
      (out : list K) : option (list K) :=
    match index eqb new basis with
    | Some idx => add_at_w out idx (zK s * x)
    | None => Some out
    end.

  (** s_on_vec, ci_utils.py:1428-1440 *)
  Definition s_on_vec_w (basis : list dstring) (vec : list K) (i a : nat) : option (list K) :=
    loop_vec K 0 vec (fun ix x out =>
      let? dd := nth_error basis ix in
      let? r := excite dd i a in
      match r with
      | None => Some out
      | Some (s, new) => try_add_w dstring_eq basis new s x out
      end) (zeros K (List.length vec)).

  (** sa_on_vec, ci_utils.py:1443-1455 *)
  Definition sa_on_vec_w (basis : list upair) (vec : list K) (i a : nat) : option (list K) :=
    loop_vec K 0 vec (fun ix x out =>
      let? (ab, bb) := nth_error basis ix in
      let? r := excite ab i a in
      match r with
      | None => Some out
      | Some (sa, anew) => try_add_w upair_eq basis (anew, bb) sa x out
      end) (zeros K (List.length vec)).

  (** sb_on_vec, ci_utils.py:1458-1470 *)
  Definition sb_on_vec_w (basis : list upair) (vec : list K) (i a : nat) : option (list K) :=
    loop_vec K 0 vec (fun ix x out =>
      let? (ab, bb) := nth_error basis ix in
      let? r := excite bb i a in
      match r with
      | None => Some out
      | Some (sb, bnew) => try_add_w upair_eq basis (ab, bnew) sb x out
      end) (zeros K (List.length vec)).

  (** d_on_vec, ci_utils.py:1473-1488 *)
  Definition d_on_vec_w (basis : list dstring) (vec : list K) (i j a b : nat) : option (list K) :=
    loop_vec K 0 vec (fun ix x out =>
      let? dd := nth_error basis ix in
      let? r := excite dd i a in
      match r with
      | None => Some out
      | Some (s1, temp) =>
          let? r := excite temp j b in
          match r with
          | None => Some out
          | Some (s2, new) => try_add_w dstring_eq basis new (s1 * s2)%Z x out
          end
      end) (zeros K (List.length vec)).

  (** da_on_vec, ci_utils.py:1491-1506 *)
  Definition da_on_vec_w (basis : list upair) (vec : list K) (i j a b : nat) : option (list K) :=
    loop_vec K 0 vec (fun ix x out =>
      let? (ab, bb) := nth_error basis ix in
      let? r := excite ab i a in
      match r with
      | None => Some out
      | Some (s1, atemp) =>
          let? r := excite atemp j b in
          match r with
          | None => Some out
          | Some (s2, anew) => try_add_w upair_eq basis (anew, bb) (s1 * s2)%Z x out
          end
      end) (zeros K (List.length vec)).

  (** db_on_vec, ci_utils.py:1509-1524 *)
  Definition db_on_vec_w (basis : list upair) (vec : list K) (i j a b : nat) : option (list K) :=
    loop_vec K 0 vec (fun ix x out =>
      let? (ab, bb) := nth_error basis ix in
      let? r := excite bb i a in
      match r with
      | None => Some out
      | Some (s1, btemp) =>
          let? r := excite btemp j b in
          match r with
          | None => Some out
          | Some (s2, bnew) => try_add_w upair_eq basis (ab, bnew) (s1 * s2)%Z x out
          end
      end) (zeros K (List.length vec)).

  (** sasb_on_vec, ci_utils.py:1527-1542 *)
  Definition sasb_on_vec_w (basis : list upair) (vec : list K) (i j a b : nat) : option (list K) :=
    loop_vec K 0 vec (fun ix x out =>
      let? (ab, bb) := nth_error basis ix in
      let? r := excite ab i a in
      match r with
      | None => Some out
      | Some (sa, anew) =>
          let? r := excite bb j b in
          match r with
          | None => Some out
          | Some (sb, bnew) => try_add_w upair_eq basis (anew, bnew) (sa * sb)%Z x out
          end
      end) (zeros K (List.length vec)).

  (** H_on_vec, ci_utils.py:1545-1551 *)
  Definition H_on_vec_w (basis : list upair) (vec : list K) (ha hb Ia Ib Iabab : T)
    : option (list K) :=
    loop_basis K 0 basis (fun i b out =>
      loop_basis K 0 basis (fun j k out =>
        let? x := nth_error vec j in
        let? m := ci_matrixel K (fst b) (snd b) (fst k) (snd k) ha hb Ia Ib Iabab 0 in
        add_at_w out i (x * m)) out) (zeros K (List.length vec)).

  (** gH_on_vec, ci_utils.py:1554-1559 *)
  Definition gH_on_vec_w (basis : list dstring) (vec : list K) (h I : T) : option (list K) :=
    loop_basis K 0 basis (fun i b out =>
      loop_basis K 0 basis (fun j k out =>
        let? x := nth_error vec j in
        let? m := gci_matrixel K b k h I 0 in
        add_at_w out i (x * m)) out) (zeros K (List.length vec)).

  (** examples/cis.py:41-50, cisd.py:31-37: [H = numpy.zeros((nd, nd))] and
      [H[i, j] = ci_matrixel(...)] *)
  Definition ci_matrix_w (basis : list upair) (ha hb Ia Ib Iab : T) (const : K) : option (list (list K)) :=
    omap (fun b : upair => omap (fun k : upair =>
      let? x := ci_matrixel K (fst b) (snd b) (fst k) (snd k) ha hb Ia Ib Iab const in Some (store1 x)) basis) basis.
End Vectors.

(** the real part, kept by an assignment into a float64 array; [dtype_store
    true] is an assignment into a complex array *)
Definition re_store {R : cring} (z : CplxK R) : CplxK R := (fst z, c0).
Definition real_store {R : cring} (t : tensor (CplxK R)) : tensor (CplxK R) := mkT (shp t) (fun ix => re_store (dat t ix)).
Definition dtype_store {R : cring} (complex : bool) (t : tensor (CplxK R)) : tensor (CplxK R) :=
  if complex then t else real_store t.
