(** Model of cqcpy/spin_utils.py, one definition per Python function.
    Exceptions (shape errors) are [None].  [.copy()] of a value that is then
    assigned into a slice has no observable effect and is left out; NumPy
    float64 zeros are zeros of the scalar ring. *)
From Coq Require Import List Bool Arith.
From Verif Require Import Scalar Tensor PySyntax PySem CCProg CCSpec NpModel.
Import ListNotations.

Section SpinModel.
  Variable K : cring.
  Notation T := (tensor K).

  (** F_to_spin, spin_utils.py:7-26 *)
  Definition F_to_spin (Faa Fbb : one_e K) (noa nva nob nvb : nat) : option (one_e K) :=
    let no := noa + nob in
    let nv := nva + nvb in
    let? Foo := tset [Upto noa; Upto noa] (oo Faa) (tzeros K [no; no]) in
    let? Foo := tset [From noa; From noa] (oo Fbb) Foo in
    let? Fov := tset [Upto noa; Upto nva] (ov Faa) (tzeros K [no; nv]) in
    let? Fov := tset [From noa; From nva] (ov Fbb) Fov in
    let? Fvo := tset [Upto nva; Upto noa] (vo Faa) (tzeros K [nv; no]) in
    let? Fvo := tset [From nva; From noa] (vo Fbb) Fvo in
    let? Fvv := tset [Upto nva; Upto nva] (vv Faa) (tzeros K [nv; nv]) in
    let? Fvv := tset [From nva; From nva] (vv Fbb) Fvv in
    Some (OneE K Foo Fov Fvo Fvv).

  (** F_to_spatial, spin_utils.py:29-45 *)
  Definition F_to_spatial (F : one_e K) (noa nva nob nvb : nat) : option (one_e K * one_e K) :=
    let? aoo := tslice [Upto noa; Upto noa] (oo F) in
    let? aov := tslice [Upto noa; Upto nva] (ov F) in
    let? avo := tslice [Upto nva; Upto noa] (vo F) in
    let? avv := tslice [Upto nva; Upto nva] (vv F) in
    let? boo := tslice [From noa; From noa] (oo F) in
    let? bov := tslice [From noa; From nva] (ov F) in
    let? bvo := tslice [From nva; From noa] (vo F) in
    let? bvv := tslice [From nva; From nva] (vv F) in
    Some (OneE K aoo aov avo avv, OneE K boo bov bvo bvv).

  (** T1_to_spin, spin_utils.py:48-54 *)
  Definition T1_to_spin (Ta Tb : T) (noa nva nob nvb : nat) : option T :=
    let no := noa + nob in
    let nv := nva + nvb in
    let? t := tset [Upto nva; Upto noa] Ta (tzeros K [nv; no]) in
    let? t := tset [From nva; From noa] Tb t in
    Some t.

  (** T1_to_spatial, spin_utils.py:57-60 *)
  Definition T1_to_spatial (t : T) (noa nva nob nvb : nat) : option (T * T) :=
    let? Ta := tslice [Upto nva; Upto noa] t in
    let? Tb := tslice [From nva; From noa] t in
    Some (Ta, Tb).

  (** T2_to_spin, spin_utils.py:87-97 *)
  Definition T2_to_spin (Taa Tab Tbb : T) (noa nva nob nvb : nat) : option T :=
    let no := noa + nob in
    let nv := nva + nvb in
    let t := tzeros K [nv; nv; no; no] in
    let? t := tset [Upto nva; Upto nva; Upto noa; Upto noa] Taa t in
    let? t := tset [From nva; From nva; From noa; From noa] Tbb t in
    let? t := tset [Upto nva; From nva; Upto noa; From noa] Tab t in
    let? u := ttrans [1; 0; 3; 2] Tab in
    let? t := tset [From nva; Upto nva; From noa; Upto noa] u t in
    let? u := ttrans [0; 1; 3; 2] Tab in
    let? t := tset [Upto nva; From nva; From noa; Upto noa] (tneg u) t in
    let? u := ttrans [1; 0; 2; 3] Tab in
    let? t := tset [From nva; Upto nva; Upto noa; From noa] (tneg u) t in
    Some t.

  (** D2_to_spin, spin_utils.py:100-110 *)
  Definition D2_to_spin (Daa Dab Dbb : T) (noa nva nob nvb : nat) : option T :=
    let no := noa + nob in
    let nv := nva + nvb in
    let t := tzeros K [nv; nv; no; no] in
    let? t := tset [Upto nva; Upto nva; Upto noa; Upto noa] Daa t in
    let? t := tset [From nva; From nva; From noa; From noa] Dbb t in
    let? t := tset [Upto nva; From nva; Upto noa; From noa] Dab t in
    let? u := ttrans [1; 0; 3; 2] Dab in
    let? t := tset [From nva; Upto nva; From noa; Upto noa] u t in
    let? u := ttrans [0; 1; 3; 2] Dab in
    let? t := tset [Upto nva; From nva; From noa; Upto noa] u t in
    let? u := ttrans [1; 0; 2; 3] Dab in
    let? t := tset [From nva; Upto nva; Upto noa; From noa] u t in
    Some t.

  (** T2_to_spatial, spin_utils.py:113-117; returns (Taa, Tab, Tbb) *)
  Definition T2_to_spatial (t : T) (noa nva nob nvb : nat) : option (T * T * T) :=
    let? Taa := tslice [Upto nva; Upto nva; Upto noa; Upto noa] t in
    let? Tbb := tslice [From nva; From nva; From noa; From noa] t in
    let? Tab := tslice [Upto nva; From nva; Upto noa; From noa] t in
    Some (Taa, Tab, Tbb).

  (** int_to_spin_block, spin_utils.py:120-133 *)
  Definition int_to_spin_block (aaaa bbbb abab baba abba baab : T)
      (na1 na2 na3 na4 nb1 nb2 nb3 nb4 : nat) : option T :=
    let n1 := na1 + nb1 in
    let n2 := na2 + nb2 in
    let n3 := na3 + nb3 in
    let n4 := na4 + nb4 in
    let t := tzeros K [n1; n2; n3; n4] in
    let? t := tset [Upto na1; Upto na2; Upto na3; Upto na4] aaaa t in
    let? t := tset [From na1; From na2; From na3; From na4] bbbb t in
    let? t := tset [Upto na1; From na2; Upto na3; From na4] abab t in
    let? t := tset [Upto na1; From na2; From na3; Upto na4] abba t in
    let? t := tset [From na1; Upto na2; Upto na3; From na4] baab t in
    let? t := tset [From na1; Upto na2; From na3; Upto na4] baba t in
    Some t.

  (** the call of int_to_spin_block for one block in int_to_spin,
      spin_utils.py:136-239: like-spin direct and exchange arrays, then the
      arrays that appear in abab, baba, abba, baab *)
  Definition raw_block (da xa db xb ab ba x y : T) (na1 na2 na3 na4 nb1 nb2 nb3 nb4 : nat) :=
    let? u := ttrans [0; 1; 3; 2] xa in
    let? aaaa := tsub da u in
    let? u := ttrans [0; 1; 3; 2] xb in
    let? bbbb := tsub db u in
    let? baba := ttrans [1; 0; 3; 2] ba in
    let? u := ttrans [0; 1; 3; 2] x in
    let? w := ttrans [1; 0; 2; 3] y in
    int_to_spin_block aaaa bbbb ab baba (tneg u) (tneg w)
      na1 na2 na3 na4 nb1 nb2 nb3 nb4.

  (** int_to_spin, spin_utils.py:136-239 *)
  Definition int_to_spin (Iaaaa Ibbbb Iabab : two_e_full K) (noa nva nob nvb : nat)
    : option (two_e K) :=
    let? Ivvvv := raw_block (fvvvv Iaaaa) (fvvvv Iaaaa) (fvvvv Ibbbb) (fvvvv Ibbbb)
      (fvvvv Iabab) (fvvvv Iabab) (fvvvv Iabab) (fvvvv Iabab) nva nva nva nva nvb nvb nvb nvb in
    let? Ivvvo := raw_block (fvvvo Iaaaa) (fvvov Iaaaa) (fvvvo Ibbbb) (fvvov Ibbbb)
      (fvvvo Iabab) (fvvov Iabab) (fvvov Iabab) (fvvvo Iabab) nva nva nva noa nvb nvb nvb nob in
    let? Ivovv := raw_block (fvovv Iaaaa) (fvovv Iaaaa) (fvovv Ibbbb) (fvovv Ibbbb)
      (fvovv Iabab) (fovvv Iabab) (fvovv Iabab) (fovvv Iabab) nva noa nva nva nvb nob nvb nvb in
    let? Ivvoo := raw_block (fvvoo Iaaaa) (fvvoo Iaaaa) (fvvoo Ibbbb) (fvvoo Ibbbb)
      (fvvoo Iabab) (fvvoo Iabab) (fvvoo Iabab) (fvvoo Iabab) nva nva noa noa nvb nvb nob nob in
    let? Ivovo := raw_block (fvovo Iaaaa) (fvoov Iaaaa) (fvovo Ibbbb) (fvoov Ibbbb)
      (fvovo Iabab) (fovov Iabab) (fvoov Iabab) (fovvo Iabab) nva noa nva noa nvb nob nvb nob in
    let? Ioovv := raw_block (foovv Iaaaa) (foovv Iaaaa) (foovv Ibbbb) (foovv Ibbbb)
      (foovv Iabab) (foovv Iabab) (foovv Iabab) (foovv Iabab) noa noa nva nva nob nob nvb nvb in
    let? Ivooo := raw_block (fvooo Iaaaa) (fvooo Iaaaa) (fvooo Ibbbb) (fvooo Ibbbb)
      (fvooo Iabab) (fovoo Iabab) (fvooo Iabab) (fovoo Iabab) nva noa noa noa nvb nob nob nob in
    let? Iooov := raw_block (fooov Iaaaa) (foovo Iaaaa) (fooov Ibbbb) (foovo Ibbbb)
      (fooov Iabab) (foovo Iabab) (foovo Iabab) (fooov Iabab) noa noa noa nva nob nob nob nvb in
    let? Ioooo := raw_block (foooo Iaaaa) (foooo Iaaaa) (foooo Ibbbb) (foooo Ibbbb)
      (foooo Iabab) (foooo Iabab) (foooo Iabab) (foooo Iabab) noa noa noa noa nob nob nob nob in
    Some (TwoE K Ivvvv Ivvvo Ivovv Ivvoo Ivovo Ioovv Ivooo Iooov Ioooo).

  (** the call of int_to_spin_block for one block in int_to_spin2,
      spin_utils.py:242-345 *)
  Definition anti_block (aaaa bbbb ab ba x y : T) (na1 na2 na3 na4 nb1 nb2 nb3 nb4 : nat) :=
    let? baba := ttrans [1; 0; 3; 2] ba in
    let? u := ttrans [0; 1; 3; 2] x in
    let? w := ttrans [1; 0; 2; 3] y in
    int_to_spin_block aaaa bbbb ab baba (tneg u) (tneg w)
      na1 na2 na3 na4 nb1 nb2 nb3 nb4.

  (** int_to_spin2, spin_utils.py:242-345 *)
  Definition int_to_spin2 (Iaaaa Ibbbb : two_e K) (Iabab : two_e_full K) (noa nva nob nvb : nat)
    : option (two_e K) :=
    let? Ivvvv := anti_block (vvvv Iaaaa) (vvvv Ibbbb)
      (fvvvv Iabab) (fvvvv Iabab) (fvvvv Iabab) (fvvvv Iabab) nva nva nva nva nvb nvb nvb nvb in
    let? Ivvvo := anti_block (vvvo Iaaaa) (vvvo Ibbbb)
      (fvvvo Iabab) (fvvov Iabab) (fvvov Iabab) (fvvvo Iabab) nva nva nva noa nvb nvb nvb nob in
    let? Ivovv := anti_block (vovv Iaaaa) (vovv Ibbbb)
      (fvovv Iabab) (fovvv Iabab) (fvovv Iabab) (fovvv Iabab) nva noa nva nva nvb nob nvb nvb in
    let? Ivvoo := anti_block (vvoo Iaaaa) (vvoo Ibbbb)
      (fvvoo Iabab) (fvvoo Iabab) (fvvoo Iabab) (fvvoo Iabab) nva nva noa noa nvb nvb nob nob in
    let? Ivovo := anti_block (vovo Iaaaa) (vovo Ibbbb)
      (fvovo Iabab) (fovov Iabab) (fvoov Iabab) (fovvo Iabab) nva noa nva noa nvb nob nvb nob in
    let? Ioovv := anti_block (oovv Iaaaa) (oovv Ibbbb)
      (foovv Iabab) (foovv Iabab) (foovv Iabab) (foovv Iabab) noa noa nva nva nob nob nvb nvb in
    let? Ivooo := anti_block (vooo Iaaaa) (vooo Ibbbb)
      (fvooo Iabab) (fovoo Iabab) (fvooo Iabab) (fovoo Iabab) nva noa noa noa nvb nob nob nob in
    let? Iooov := anti_block (ooov Iaaaa) (ooov Ibbbb)
      (fooov Iabab) (foovo Iabab) (foovo Iabab) (fooov Iabab) noa noa noa nva nob nob nob nvb in
    let? Ioooo := anti_block (oooo Iaaaa) (oooo Ibbbb)
      (foooo Iabab) (foooo Iabab) (foooo Iabab) (foooo Iabab) noa noa noa noa nob nob nob nob in
    Some (TwoE K Ivvvv Ivvvo Ivovv Ivvoo Ivovo Ioovv Ivooo Iooov Ioooo).

  (** int_to_spatial, spin_utils.py:348-397; note the argument order
      (noa, nob, nva, nvb) *)
  Definition int_to_spatial (I : two_e K) (noa nob nva nvb : nat)
    : option (two_e K * two_e K * two_e_full K) :=
    let part (v o : nat -> sl) :=
      let? Ivvvv := tslice [v nva; v nva; v nva; v nva] (vvvv I) in
      let? Ivvvo := tslice [v nva; v nva; v nva; o noa] (vvvo I) in
      let? Ivovv := tslice [v nva; o noa; v nva; v nva] (vovv I) in
      let? Ivvoo := tslice [v nva; v nva; o noa; o noa] (vvoo I) in
      let? Ivovo := tslice [v nva; o noa; v nva; o noa] (vovo I) in
      let? Ioovv := tslice [o noa; o noa; v nva; v nva] (oovv I) in
      let? Ivooo := tslice [v nva; o noa; o noa; o noa] (vooo I) in
      let? Iooov := tslice [o noa; o noa; o noa; v nva] (ooov I) in
      let? Ioooo := tslice [o noa; o noa; o noa; o noa] (oooo I) in
      Some (TwoE K Ivvvv Ivvvo Ivovv Ivvoo Ivovo Ioovv Ivooo Iooov Ioooo) in
    let? Ia := part Upto Upto in
    let? Ib := part From From in
    let? Ivvvv := tslice [Upto nva; From nva; Upto nva; From nva] (vvvv I) in
    let? Ivvvo := tslice [Upto nva; From nva; Upto nva; From noa] (vvvo I) in
    let? u := tslice [Upto nva; From nva; From nva; Upto noa] (vvvo I) in
    let? u := ttrans [0; 1; 3; 2] u in
    let Ivvov := tneg u in
    let? Ivovv := tslice [Upto nva; From noa; Upto nva; From nva] (vovv I) in
    let? u := tslice [From nva; Upto noa; Upto nva; From nva] (vovv I) in
    let? u := ttrans [1; 0; 2; 3] u in
    let Iovvv := tneg u in
    let? Ivvoo := tslice [Upto nva; From nva; Upto noa; From noa] (vvoo I) in
    let? Ivovo := tslice [Upto nva; From noa; Upto nva; From noa] (vovo I) in
    let? u := tslice [Upto nva; From noa; From nva; Upto noa] (vovo I) in
    let? u := ttrans [0; 1; 3; 2] u in
    let Ivoov := tneg u in
    let? u := tslice [From nva; Upto noa; From nva; Upto noa] (vovo I) in
    let? Iovov := ttrans [1; 0; 3; 2] u in
    let? u := tslice [From nva; Upto noa; Upto nva; From noa] (vovo I) in
    let? u := ttrans [1; 0; 2; 3] u in
    let Iovvo := tneg u in
    let? Ioovv := tslice [Upto noa; From noa; Upto nva; From nva] (oovv I) in
    let? Ivooo := tslice [Upto nva; From noa; Upto noa; From noa] (vooo I) in
    let? u := tslice [From nva; Upto noa; Upto noa; From noa] (vooo I) in
    let? u := ttrans [1; 0; 2; 3] u in
    let Iovoo := tneg u in
    let? Iooov := tslice [Upto noa; From noa; Upto noa; From nva] (ooov I) in
    let? u := tslice [Upto noa; From noa; From noa; Upto nva] (ooov I) in
    let? u := ttrans [0; 1; 3; 2] u in
    let Ioovo := tneg u in
    let? Ioooo := tslice [Upto noa; From noa; Upto noa; From noa] (oooo I) in
    Some (Ia, Ib, TwoEF K Ivvvv Ivvvo Ivvov Ivovv Iovvv Ivvoo Ivovo Ivoov Iovvo Iovov
                    Ioovv Iooov Ioovo Iovoo Ivooo Ioooo).
End SpinModel.
Arguments F_to_spin {K}. Arguments F_to_spatial {K}. Arguments T1_to_spin {K}.
Arguments T1_to_spatial {K}. Arguments T2_to_spin {K}. Arguments D2_to_spin {K}.
Arguments T2_to_spatial {K}. Arguments int_to_spin_block {K}.
Arguments raw_block {K}. Arguments anti_block {K}. Arguments int_to_spin {K}.
Arguments int_to_spin2 {K}. Arguments int_to_spatial {K}.
