(** Model of cqcpy/ci_utils.py, lines 1-416 (occupation strings, string lists
    and CI bases), 1272-1425 (matrix elements) and 1428-1559 (operators on CI
    vectors), one definition per Python function or method.

    An exception (failed assertion, IndexError, ValueError, AttributeError) is
    [None].  Simplifications: orbital indices are natural numbers (Python would
    also accept negative indices); strings are immutable values (CIHeap.v
    models the copying of the occupation array); where the Python would put
    the object None in a list of strings (reference occupations with entries
    other than 0 and 1) the model raises. *)
From Coq Require Import List Bool Arith ZArith String.
From Verif Require Import Scalar Tensor NpModel.
Import ListNotations.
Local Open Scope Z_scope.

(** *** Python and NumPy on one-dimensional integer arrays *)
(** [l[i]] *)
Definition getz (l : list Z) (i : nat) : option Z := nth_error l i.
(** the array after [l[i] = x]; an index out of range raises *)
Fixpoint upd {A} (i : nat) (x : A) (l : list A) {struct l} : list A :=
  match l, i with
  | [], _ => []
  | _ :: l', O => x :: l'
  | y :: l', S i' => y :: upd i' x l'
  end.
Definition setz (l : list Z) (i : nat) (x : Z) : option (list Z) :=
  if Nat.ltb i (List.length l) then Some (upd i x l) else None.
(** [l[i:j]] *)
Definition slicez (l : list Z) (i j : nat) : list Z := firstn (j - i) (skipn i l).
(** [l.sum()] *)
Definition sumz (l : list Z) : Z := fold_right Z.add 0 l.
(** [1 if l.sum() % 2 == 0 else -1] *)
Definition parity_sign (l : list Z) : Z := if Z.eqb (sumz l mod 2) 0 then 1 else -1.
(** numpy.array_equal *)
Fixpoint array_equal (a b : list Z) : bool :=
  match a, b with
  | [], [] => true
  | x :: a', y :: b' => Z.eqb x y && array_equal a' b'
  | _, _ => false
  end.
(** [[i for i, x in enumerate(l) if x > 0]] *)
Definition indices_pos (l : list Z) : list nat :=
  map fst (filter (fun ix => Z.ltb 0 (snd ix)) (combine (seq 0 (List.length l)) l)).
(** [numpy.nonzero(l)[0]] *)
Definition nonzero (l : list Z) : list nat :=
  map fst (filter (fun ix => negb (Z.eqb (snd ix) 0)) (combine (seq 0 (List.length l)) l)).
(** [for x in l: ... out.append(...)]: the body returns what it appends *)
Fixpoint collect {A B} (l : list A) (body : A -> option (list B)) : option (list B) :=
  match l with
  | [] => Some []
  | x :: l' => let? r := body x in let? r' := collect l' body in Some (r ++ r')%list
  end.
(** [l.index(x)]; a missing element raises ValueError *)
Fixpoint index {A} (eqb : A -> A -> bool) (x : A) (l : list A) : option nat :=
  match l with
  | [] => None
  | y :: l' => if eqb y x then Some O else let? k := index eqb x l' in Some (S k)
  end.

(** *** Dstring, ci_utils.py:4-34 *)
Record dstring : Type := mkD { d_n : nat; d_occ : list Z }.

(** Dstring.__init__, ci_utils.py:5-8 *)
Definition Dstring (n : nat) (occ : list Z) : option dstring :=
  if Nat.eqb n (List.length occ) then Some (mkD n occ) else None.

(** Dstring.excite, ci_utils.py:10-31; [Some None] is the result (None, None) *)
Definition excite (d : dstring) (i a : nat) : option (option (Z * dstring)) :=
  let? x := getz (d_occ d) i in
  if negb (Z.eqb x 1) then Some None else
  let? y := getz (d_occ d) a in
  if negb (Z.eqb y 0) then Some None else
  if Nat.eqb i a then
    let? e := Dstring (d_n d) (d_occ d) in Some (Some (1, e))
  else if Nat.ltb i a then
    let? occnew := setz (d_occ d) i 0 in
    let? occnew := setz occnew a 1 in
    let otemp := slicez (d_occ d) (i + 1) a in
    let? e := Dstring (d_n d) occnew in Some (Some (parity_sign otemp, e))
  else
    let? occnew := setz (d_occ d) i 0 in
    let? occnew := setz occnew a 1 in
    let otemp := slicez (d_occ d) (a + 1) i in
    let? e := Dstring (d_n d) occnew in Some (Some (parity_sign otemp, e)).

(** Dstring.__eq__, ci_utils.py:33-34 *)
Definition dstring_eq (a b : dstring) : bool :=
  array_equal (d_occ a) (d_occ b) && Nat.eqb (d_n a) (d_n b).

(** *** Pstring, ci_utils.py:37-57 *)
Record pstring : Type := mkP { p_n : nat; p_occ : list Z }.
(** Pstring.__init__, ci_utils.py:38-41 *)
Definition Pstring (n : nat) (occ : list Z) : option pstring :=
  if Nat.eqb n (List.length occ) then Some (mkP n occ) else None.
(** Pstring.raize, ci_utils.py:43-46 *)
Definition raize (s : pstring) (p : nat) : option pstring :=
  let? x := getz (p_occ s) p in
  let? occnew := setz (p_occ s) p (x + 1) in
  Pstring (p_n s) occnew.
(** Pstring.lower, ci_utils.py:48-54; [Some None] is the result None *)
Definition lower (s : pstring) (p : nat) : option (option pstring) :=
  let? x := getz (p_occ s) p in
  if Z.eqb x 0 then Some None else
  let? occnew := setz (p_occ s) p (x - 1) in
  let? e := Pstring (p_n s) occnew in Some (Some e).
(** Pstring.__eq__, ci_utils.py:56-57 *)
Definition pstring_eq (a b : pstring) : bool :=
  array_equal (p_occ a) (p_occ b) && Nat.eqb (p_n a) (p_n b).

(** level, ci_utils.py:60-62 *)
Definition level (ref string : dstring) : Z :=
  sumz (map (fun o => Z.abs (fst o - snd o)) (combine (d_occ ref) (d_occ string))).
(** diff, ci_utils.py:65-66 *)
Definition diff (bra ket : dstring) : Z := level bra ket.

(** *** Lists of strings *)
(** [[1 if i < nocc else 0 for i in range(n)]] *)
Definition default_occ (n nocc : nat) : list Z :=
  map (fun i => if Nat.ltb i nocc then 1 else 0) (seq 0 n).
(** [if occ is None: occ = ...] *)
Definition get_occ (n nocc : nat) (occ : option (list Z)) : list Z :=
  match occ with Some o => o | None => default_occ n nocc end.
(** [[1 if x == 0 else 0 for x in occ]] *)
Definition virt (occ : list Z) : list Z := map (fun x => if Z.eqb x 0 then 1 else 0) occ.
(** [s, d = ref.excite(i, a)] where the result (None, None) leads to an
    exception or to None in a list *)
Definition excite_ (d : dstring) (i a : nat) : option dstring :=
  match excite d i a with Some (Some (_, e)) => Some e | _ => None end.

(** s_strings, ci_utils.py:69-81 *)
Definition s_strings (n nocc : nat) (occ : option (list Z)) : option (list dstring) :=
  let occ := get_occ n nocc occ in
  let vir := virt occ in
  let iocc := indices_pos occ in
  let ivir := indices_pos vir in
  let? ref := Dstring n occ in
  collect iocc (fun i =>
    collect ivir (fun a =>
      let? d := excite_ ref i a in Some [d])).

(** d_strings, ci_utils.py:84-103 *)
Definition d_strings (n nocc : nat) (occ : option (list Z)) : option (list dstring) :=
  let occ := get_occ n nocc occ in
  let vir := virt occ in
  let iocc := indices_pos occ in
  let ivir := indices_pos vir in
  let? ref := Dstring n occ in
  collect iocc (fun i =>
    collect ivir (fun a =>
      collect iocc (fun j => if Nat.leb j i then Some [] else
        collect ivir (fun b => if Nat.leb b a then Some [] else
          let? d1 := excite_ ref i a in
          let? d2 := excite_ d1 j b in
          Some [d2])))).

(** t_strings, ci_utils.py:106-132 *)
Definition t_strings (n nocc : nat) (occ : option (list Z)) : option (list dstring) :=
  let occ := get_occ n nocc occ in
  let vir := virt occ in
  let iocc := indices_pos occ in
  let ivir := indices_pos vir in
  let? ref := Dstring n occ in
  collect iocc (fun i =>
    collect ivir (fun a =>
      collect iocc (fun j => if Nat.leb j i then Some [] else
        collect ivir (fun b => if Nat.leb b a then Some [] else
          collect iocc (fun k => if Nat.leb k j then Some [] else
            collect ivir (fun c => if Nat.leb c b then Some [] else
              let? d1 := excite_ ref i a in
              let? d2 := excite_ d1 j b in
              let? d3 := excite_ d2 k c in
              Some [d3])))))).

(** q_strings, ci_utils.py:135-168; the loops over i and j run over the
    entries of occ (lines 143 and 145), which are then used as indices *)
Definition q_strings (n nocc : nat) (occ : option (list Z)) : option (list dstring) :=
  let occ := get_occ n nocc occ in
  let vir := virt occ in
  let iocc := indices_pos occ in
  let ivir := indices_pos vir in
  let? ref := Dstring n occ in
  collect occ (fun i =>
    collect ivir (fun a =>
      collect occ (fun j => if Z.leb j i then Some [] else
        collect ivir (fun b => if Nat.leb b a then Some [] else
          collect iocc (fun k => if Z.leb (Z.of_nat k) j then Some [] else
            collect ivir (fun c => if Nat.leb c b then Some [] else
              collect iocc (fun l => if Nat.leb l k then Some [] else
                collect ivir (fun d => if Nat.leb d c then Some [] else
                  let? d1 := excite_ ref (Z.to_nat i) a in
                  let? d2 := excite_ d1 (Z.to_nat j) b in
                  let? d3 := excite_ d2 k c in
                  let? d4 := excite_ d3 l d in
                  Some [d4])))))))).

(** s_pstrings, ci_utils.py:171-178 *)
Definition s_pstrings (nmode : nat) : option (list pstring) :=
  let occ := map (fun _ => 0) (seq 0 nmode) in
  let? ref := Pstring nmode occ in
  collect (seq 0 nmode) (fun i => let? temp := raize ref i in Some [temp]).

(** d_pstrings, ci_utils.py:181-189; [range(i, nmode)] *)
Definition d_pstrings (nmode : nat) : option (list pstring) :=
  let occ := map (fun _ => 0) (seq 0 nmode) in
  let? ref := Pstring nmode occ in
  collect (seq 0 nmode) (fun i =>
    collect (seq i (nmode - i)) (fun j =>
      let? temp := raize ref i in
      let? temp := raize temp j in
      Some [temp])).

(** *** CI bases *)
Definition upair := (dstring * dstring)%type.
(** [for a in la: for b in lb: basis.append((a, b))] *)
Definition pairs (la lb : list dstring) : list upair :=
  flat_map (fun a => map (fun b => (a, b)) lb) la.

(** ucis_basis, ci_utils.py:192-207 *)
Definition ucis_basis (n na nb : nat) (gs : bool) : option (list upair) :=
  let? sa := s_strings n na None in
  let? sb := s_strings n nb None in
  let? refa := Dstring n (default_occ n na) in
  let? refb := Dstring n (default_occ n nb) in
  let basis := if gs then [(refa, refb)] else [] in
  let basis := (basis ++ map (fun a => (a, refb)) sa)%list in
  Some (basis ++ map (fun b => (refa, b)) sb)%list.

(** ucisd_basis, ci_utils.py:210-231 *)
Definition ucisd_basis (n na nb : nat) : option (list upair) :=
  let? sa := s_strings n na None in
  let? sb := s_strings n nb None in
  let? da := d_strings n na None in
  let? db := d_strings n nb None in
  let? refa := Dstring n (default_occ n na) in
  let? refb := Dstring n (default_occ n nb) in
  let basis := [(refa, refb)] in
  let basis := (basis ++ map (fun a => (a, refb)) sa)%list in
  let basis := (basis ++ map (fun b => (refa, b)) sb)%list in
  let basis := (basis ++ map (fun a => (a, refb)) da)%list in
  let basis := (basis ++ map (fun b => (refa, b)) db)%list in
  Some (basis ++ pairs sa sb)%list.

(** ucisdt_basis, ci_utils.py:234-267 *)
Definition ucisdt_basis (n na nb : nat) : option (list upair) :=
  let? sa := s_strings n na None in
  let? sb := s_strings n nb None in
  let? da := d_strings n na None in
  let? db := d_strings n nb None in
  let? ta := t_strings n na None in
  let? tb := t_strings n nb None in
  let? refa := Dstring n (default_occ n na) in
  let? refb := Dstring n (default_occ n nb) in
  let basis := [(refa, refb)] in
  let basis := (basis ++ map (fun a => (a, refb)) sa)%list in
  let basis := (basis ++ map (fun b => (refa, b)) sb)%list in
  let basis := (basis ++ map (fun a => (a, refb)) da)%list in
  let basis := (basis ++ map (fun b => (refa, b)) db)%list in
  let basis := (basis ++ pairs sa sb)%list in
  let basis := (basis ++ map (fun a => (a, refb)) ta)%list in
  let basis := (basis ++ map (fun b => (refa, b)) tb)%list in
  let basis := (basis ++ pairs da sb)%list in
  Some (basis ++ pairs sa db)%list.

(** ucisdtq_basis, ci_utils.py:270-318 *)
Definition ucisdtq_basis (n na nb : nat) : option (list upair) :=
  let? sa := s_strings n na None in
  let? sb := s_strings n nb None in
  let? da := d_strings n na None in
  let? db := d_strings n nb None in
  let? ta := t_strings n na None in
  let? tb := t_strings n nb None in
  let? qa := q_strings n na None in
  let? qb := q_strings n nb None in
  let? refa := Dstring n (default_occ n na) in
  let? refb := Dstring n (default_occ n nb) in
  let basis := [(refa, refb)] in
  let basis := (basis ++ map (fun a => (a, refb)) sa)%list in
  let basis := (basis ++ map (fun b => (refa, b)) sb)%list in
  let basis := (basis ++ map (fun a => (a, refb)) da)%list in
  let basis := (basis ++ map (fun b => (refa, b)) db)%list in
  let basis := (basis ++ pairs sa sb)%list in
  let basis := (basis ++ map (fun a => (a, refb)) ta)%list in
  let basis := (basis ++ map (fun b => (refa, b)) tb)%list in
  let basis := (basis ++ pairs da sb)%list in
  let basis := (basis ++ pairs sa db)%list in
  let basis := (basis ++ map (fun a => (a, refb)) qa)%list in
  let basis := (basis ++ map (fun b => (refa, b)) qb)%list in
  let basis := (basis ++ pairs ta sb)%list in
  let basis := (basis ++ pairs da db)%list in
  Some (basis ++ pairs sa tb)%list.

(** the reference occupation of the g-bases, ci_utils.py:322-326, 336-340,
    353-357, 373-377: alpha orbitals first *)
Definition g_occ (nmo n : nat) : list Z :=
  let nb := Nat.div n 2 in
  let na := (n - nb)%nat in
  let occa := default_occ (Nat.div nmo 2) na in
  let occb := default_occ (Nat.div nmo 2) nb in
  (occa ++ occb)%list.

(** gcis_basis, ci_utils.py:321-332 *)
Definition gcis_basis (nmo n : nat) (gs : bool) : option (list dstring) :=
  let occ := g_occ nmo n in
  let? ref := Dstring nmo occ in
  let? singles := s_strings nmo n (Some occ) in
  let basis := if gs then [ref] else [] in
  Some (basis ++ singles)%list.

(** gcisd_basis, ci_utils.py:335-349 *)
Definition gcisd_basis (nmo n : nat) : option (list dstring) :=
  let occ := g_occ nmo n in
  let? ref := Dstring nmo occ in
  let? singles := s_strings nmo n (Some occ) in
  let? doubles := d_strings nmo n (Some occ) in
  let basis := [ref] in
  let basis := (basis ++ singles)%list in
  Some (basis ++ doubles)%list.

(** gcisdt_basis, ci_utils.py:352-369 *)
Definition gcisdt_basis (nmo n : nat) : option (list dstring) :=
  let occ := g_occ nmo n in
  let? ref := Dstring nmo occ in
  let? singles := s_strings nmo n (Some occ) in
  let? doubles := d_strings nmo n (Some occ) in
  let? triples := t_strings nmo n (Some occ) in
  let basis := [ref] in
  let basis := (basis ++ singles)%list in
  let basis := (basis ++ doubles)%list in
  Some (basis ++ triples)%list.

(** gcisdtq_basis, ci_utils.py:372-392 *)
Definition gcisdtq_basis (nmo n : nat) : option (list dstring) :=
  let occ := g_occ nmo n in
  let? ref := Dstring nmo occ in
  let? singles := s_strings nmo n (Some occ) in
  let? doubles := d_strings nmo n (Some occ) in
  let? triples := t_strings nmo n (Some occ) in
  let? quadles := q_strings nmo n (Some occ) in
  let basis := [ref] in
  let basis := (basis ++ singles)%list in
  let basis := (basis ++ doubles)%list in
  let basis := (basis ++ triples)%list in
  Some (basis ++ quadles)%list.

(** vcis_basis, ci_utils.py:395-402 *)
Definition vcis_basis (nmode : nat) : option (list pstring) :=
  let occ := map (fun _ => 0) (seq 0 nmode) in
  let? ref := Pstring nmode occ in
  let? singles := s_pstrings nmode in
  Some ([ref] ++ singles)%list.

(** vcisd_basis, ci_utils.py:405-415 *)
Definition vcisd_basis (nmode : nat) : option (list pstring) :=
  let occ := map (fun _ => 0) (seq 0 nmode) in
  let? ref := Pstring nmode occ in
  let? singles := s_pstrings nmode in
  let? doubles := d_pstrings nmode in
  Some (([ref] ++ singles) ++ doubles)%list.

(** *** Matrix elements *)
Section Elements.
  Variable K : cring.
  Notation T := (tensor K).

  (** [t[i1, ..., ik]] with one integer per axis *)
  Fixpoint in_rangeb (sh idx : list nat) : bool :=
    match sh, idx with
    | [], [] => true
    | d :: sh', i :: idx' => Nat.ltb i d && in_rangeb sh' idx'
    | _, _ => false
    end.
  Definition tget (t : T) (idx : list nat) : option K :=
    if in_rangeb (shp t) idx then Some (dat t idx) else None.

  (** [t[p1, ..., pk]] where each p is an integer ([Some i]) or [:] *)
  Fixpoint pick_shape (pat : list (option nat)) (sh : list nat) : option (list nat) :=
    match pat, sh with
    | [], [] => Some []
    | Some i :: pat', d :: sh' => if Nat.ltb i d then pick_shape pat' sh' else None
    | None :: pat', d :: sh' => let? r := pick_shape pat' sh' in Some (d :: r)
    | _, _ => None
    end.
  Fixpoint pick_index (pat : list (option nat)) (idx : list nat) : list nat :=
    match pat, idx with
    | Some i :: pat', _ => i :: pick_index pat' idx
    | None :: pat', i :: idx' => i :: pick_index pat' idx'
    | _, _ => []
    end.
  Definition tpick (pat : list (option nat)) (t : T) : option T :=
    let? sh := pick_shape pat (shp t) in
    Some (mkT sh (fun idx => dat t (pick_index pat idx))).

  (** an integer array as an operand of einsum *)
  Definition tvec (l : list Z) : T :=
    mkT [List.length l] (fun idx => match idx with [i] => zK (nth i l 0) | _ => c0 end).

  (** [numpy.einsum(spec, ...)] with a scalar result *)
  Definition einsum0 (spec : string) (ts : list T) : option K :=
    let (ins, out) := parse_spec [] spec in
    let? t := einsum ins out ts in
    Some (dat t []).

  (** [1.0 if b[i1+1:i2].sum() % 2 == 0 else -1.0] *)
  Definition fsign (b : list Z) (i1 i2 : nat) : Z := parity_sign (slicez b (i1 + 1) i2).

  Local Open Scope K_scope.

  (** [ao] and [av], ci_utils.py:1274-1276: negative and positive entries of
      the occupation difference *)
  Definition occ_diff (bra ket : dstring) : list Z :=
    map (fun o => (fst o - snd o)%Z) (combine (d_occ bra) (d_occ ket)).
  Definition neg_part (l : list Z) : list Z := map (fun a => if Z.ltb a 0 then (-1)%Z else 0%Z) l.
  Definition pos_part (l : list Z) : list Z := map (fun a => if Z.ltb 0 a then 1%Z else 0%Z) l.

  (** gci_matrixel, ci_utils.py:1272-1310 *)
  Definition gci_matrixel (bra ket : dstring) (h I : T) (const : K) : option K :=
    let ddd := Z.div (diff bra ket) 2 in
    let aa := occ_diff bra ket in
    let ao := neg_part aa in
    let av := pos_part aa in
    if Z.eqb ddd 0 then
      let p := tvec (d_occ bra) in
      let? x := einsum0 "ii,i->" [h; p] in
      let? y := einsum0 "ijij,i,j->" [I; p; p] in
      let? z := einsum0 "ijji,i,j->" [I; p; p] in
      Some (x + chalf * y - chalf * z)
    else if Z.eqb ddd 1 then
      let? o := nth_error (nonzero ao) 0 in
      let? v := nth_error (nonzero av) 0 in
      let p := tvec (d_occ ket) in
      let b := d_occ bra in
      let i1 := Nat.min o v in
      let i2 := Nat.max o v in
      let sign := fsign b i1 i2 in
      let? x := tget h [v; o] in
      let? t := tpick [Some v; None; Some o; None] I in
      let? y := einsum0 "ii,i->" [t; p] in
      let? t := tpick [Some v; None; None; Some o] I in
      let? z := einsum0 "ii,i->" [t; p] in
      Some (zK sign * (0 + x + y - z))
    else if Z.eqb ddd 2 then
      match nonzero ao, nonzero av with
      | [o1; o2], [v1; v2] =>
          let b := d_occ bra in
          let sign1 := fsign b (Nat.min o1 v1) (Nat.max o1 v1) in
          let sign2 := fsign b (Nat.min o2 v2) (Nat.max o2 v2) in
          let? x := tget I [v1; v2; o1; o2] in
          let? y := tget I [v1; v2; o2; o1] in
          Some (zK sign1 * zK sign2 * (x - y))
      | _, _ => None
      end
    else Some 0.

  (** ci_matrixel, ci_utils.py:1313-1425 *)
  Definition ci_matrixel (braa brab keta ketb : dstring) (ha hb Ia Ib Iabab : T) (const : K)
    : option K :=
    let diffa := Z.div (diff braa keta) 2 in
    let diffb := Z.div (diff brab ketb) 2 in
    let aa := occ_diff braa keta in
    let bb := occ_diff brab ketb in
    let ao := neg_part aa in
    let av := pos_part aa in
    let bo := neg_part bb in
    let bv := pos_part bb in
    if Z.eqb diffa 0 && Z.eqb diffb 0 then
      let pa := tvec (d_occ braa) in
      let? xa := einsum0 "ii,i->" [ha; pa] in
      let? ya := einsum0 "ijij,i,j->" [Ia; pa; pa] in
      let? za := einsum0 "ijji,i,j->" [Ia; pa; pa] in
      let Ea := xa + chalf * ya - chalf * za in
      let pb := tvec (d_occ brab) in
      let? xb := einsum0 "ii,i->" [hb; pb] in
      let? yb := einsum0 "ijij,i,j->" [Ib; pb; pb] in
      let? zb := einsum0 "ijji,i,j->" [Ib; pb; pb] in
      let Eb := xb + chalf * yb - chalf * zb in
      let? Eab := einsum0 "ijij,i,j" [Iabab; pa; pb] in
      let Hel := Ea + Eb + Eab in
      Some (Hel + const)
    else if Z.eqb diffa 1 && Z.eqb diffb 0 then
      let? o := nth_error (nonzero ao) 0 in
      let? v := nth_error (nonzero av) 0 in
      let pa := tvec (d_occ keta) in
      let pb := tvec (d_occ ketb) in
      let ba := d_occ braa in
      let i1 := Nat.min o v in
      let i2 := Nat.max o v in
      let sign := fsign ba i1 i2 in
      let? x := tget ha [v; o] in
      let? t := tpick [Some v; None; Some o; None] Ia in
      let? y := einsum0 "ii,i->" [t; pa] in
      let? t := tpick [Some v; None; None; Some o] Ia in
      let? z := einsum0 "ii,i->" [t; pa] in
      let? t := tpick [Some v; None; Some o; None] Iabab in
      let? w := einsum0 "ii,i->" [t; pb] in
      Some (zK sign * (0 + x + y - z + w))
    else if Z.eqb diffa 0 && Z.eqb diffb 1 then
      let? o := nth_error (nonzero bo) 0 in
      let? v := nth_error (nonzero bv) 0 in
      let pa := tvec (d_occ keta) in
      let pb := tvec (d_occ ketb) in
      let bb := d_occ brab in
      let i1 := Nat.min o v in
      let i2 := Nat.max o v in
      let sign := fsign bb i1 i2 in
      let? x := tget hb [v; o] in
      let? t := tpick [Some v; None; Some o; None] Ib in
      let? y := einsum0 "ii,i->" [t; pb] in
      let? t := tpick [Some v; None; None; Some o] Ib in
      let? z := einsum0 "ii,i->" [t; pb] in
      let? t := tpick [None; Some v; None; Some o] Iabab in
      let? w := einsum0 "ii,i->" [t; pa] in
      Some (zK sign * (0 + x + y - z + w))
    else if Z.eqb diffa 1 && Z.eqb diffb 1 then
      let? oa := nth_error (nonzero ao) 0 in
      let? va := nth_error (nonzero av) 0 in
      let? ob := nth_error (nonzero bo) 0 in
      let? vb := nth_error (nonzero bv) 0 in
      let ba := d_occ braa in
      let bb := d_occ brab in
      let signa := fsign ba (Nat.min oa va) (Nat.max oa va) in
      let signb := fsign bb (Nat.min ob vb) (Nat.max ob vb) in
      let? Hel := tget Iabab [va; vb; oa; ob] in
      Some (zK signa * zK signb * Hel)
    else if Z.eqb diffa 2 && Z.eqb diffb 0 then
      match nonzero ao, nonzero av with
      | [o1; o2], [v1; v2] =>
          let ba := d_occ braa in
          let sign1 := fsign ba (Nat.min o1 v1) (Nat.max o1 v1) in
          let sign2 := fsign ba (Nat.min o2 v2) (Nat.max o2 v2) in
          let sign := if Nat.ltb v2 o1 || Nat.ltb o2 v1
                      then (- sign1 * sign2)%Z else (sign1 * sign2)%Z in
          let? x := tget Ia [v1; v2; o1; o2] in
          let? y := tget Ia [v1; v2; o2; o1] in
          Some (zK sign * (x - y))
      | _, _ => None
      end
    else if Z.eqb diffa 0 && Z.eqb diffb 2 then
      match nonzero bo, nonzero bv with
      | [o1; o2], [v1; v2] =>
          let bb := d_occ brab in
          let sign1 := fsign bb (Nat.min o1 v1) (Nat.max o1 v1) in
          let sign2 := fsign bb (Nat.min o2 v2) (Nat.max o2 v2) in
          let sign := if Nat.ltb v2 o1 || Nat.ltb o2 v1
                      then (- sign1 * sign2)%Z else (sign1 * sign2)%Z in
          let? x := tget Ib [v1; v2; o1; o2] in
          let? y := tget Ib [v1; v2; o2; o1] in
          Some (zK sign * (x - y))
      | _, _ => None
      end
    else Some 0.

  (** *** Operators on CI vectors *)
  (** [out[idx] += x] for an index found by [basis.index] *)
  Definition add_at (out : list K) (idx : nat) (x : K) : option (list K) :=
    let? y := nth_error out idx in Some (upd idx (y + x) out).

  (** [for ix, x in enumerate(vec): ...] *)
  Fixpoint loop_vec (ix : nat) (vec : list K)
      (body : nat -> K -> list K -> option (list K)) (out : list K) : option (list K) :=
    match vec with
    | [] => Some out
    | x :: vec' => let? out := body ix x out in loop_vec (S ix) vec' body out
    end.

  Definition zeros (n : nat) : list K := repeat 0 n.

  Definition upair_eq (x y : upair) : bool :=
    dstring_eq (fst x) (fst y) && dstring_eq (snd x) (snd y).

  (** [try: idx = basis.index(new); out[idx] += s*x; except ValueError: pass] *)
  Definition try_add {A} (eqb : A -> A -> bool) (basis : list A) (new : A) (s : Z) (x : K)
      (out : list K) : option (list K) :=
    match index eqb new basis with
    | Some idx => add_at out idx (zK s * x)
    | None => Some out
    end.

  (** s_on_vec, ci_utils.py:1428-1440 *)
  Definition s_on_vec (basis : list dstring) (vec : list K) (i a : nat) : option (list K) :=
    loop_vec 0 vec (fun ix x out =>
      let? dd := nth_error basis ix in
      let? r := excite dd i a in
      match r with
      | None => Some out
      | Some (s, new) => try_add dstring_eq basis new s x out
      end) (zeros (List.length vec)).

  (** sa_on_vec, ci_utils.py:1443-1455 *)
  Definition sa_on_vec (basis : list upair) (vec : list K) (i a : nat) : option (list K) :=
    loop_vec 0 vec (fun ix x out =>
      let? (ab, bb) := nth_error basis ix in
      let? r := excite ab i a in
      match r with
      | None => Some out
      | Some (sa, anew) => try_add upair_eq basis (anew, bb) sa x out
      end) (zeros (List.length vec)).

  (** sb_on_vec, ci_utils.py:1458-1470 *)
  Definition sb_on_vec (basis : list upair) (vec : list K) (i a : nat) : option (list K) :=
    loop_vec 0 vec (fun ix x out =>
      let? (ab, bb) := nth_error basis ix in
      let? r := excite bb i a in
      match r with
      | None => Some out
      | Some (sb, bnew) => try_add upair_eq basis (ab, bnew) sb x out
      end) (zeros (List.length vec)).

  (** d_on_vec, ci_utils.py:1473-1488 *)
  Definition d_on_vec (basis : list dstring) (vec : list K) (i j a b : nat) : option (list K) :=
    loop_vec 0 vec (fun ix x out =>
      let? dd := nth_error basis ix in
      let? r := excite dd i a in
      match r with
      | None => Some out
      | Some (s1, temp) =>
          let? r := excite temp j b in
          match r with
          | None => Some out
          | Some (s2, new) => try_add dstring_eq basis new (s1 * s2)%Z x out
          end
      end) (zeros (List.length vec)).

  (** da_on_vec, ci_utils.py:1491-1506 *)
  Definition da_on_vec (basis : list upair) (vec : list K) (i j a b : nat) : option (list K) :=
    loop_vec 0 vec (fun ix x out =>
      let? (ab, bb) := nth_error basis ix in
      let? r := excite ab i a in
      match r with
      | None => Some out
      | Some (s1, atemp) =>
          let? r := excite atemp j b in
          match r with
          | None => Some out
          | Some (s2, anew) => try_add upair_eq basis (anew, bb) (s1 * s2)%Z x out
          end
      end) (zeros (List.length vec)).

  (** db_on_vec, ci_utils.py:1509-1524 *)
  Definition db_on_vec (basis : list upair) (vec : list K) (i j a b : nat) : option (list K) :=
    loop_vec 0 vec (fun ix x out =>
      let? (ab, bb) := nth_error basis ix in
      let? r := excite bb i a in
      match r with
      | None => Some out
      | Some (s1, btemp) =>
          let? r := excite btemp j b in
          match r with
          | None => Some out
          | Some (s2, bnew) => try_add upair_eq basis (ab, bnew) (s1 * s2)%Z x out
          end
      end) (zeros (List.length vec)).

  (** sasb_on_vec, ci_utils.py:1527-1542 *)
  Definition sasb_on_vec (basis : list upair) (vec : list K) (i j a b : nat) : option (list K) :=
    loop_vec 0 vec (fun ix x out =>
      let? (ab, bb) := nth_error basis ix in
      let? r := excite ab i a in
      match r with
      | None => Some out
      | Some (sa, anew) =>
          let? r := excite bb j b in
          match r with
          | None => Some out
          | Some (sb, bnew) => try_add upair_eq basis (anew, bnew) (sa * sb)%Z x out
          end
      end) (zeros (List.length vec)).

  (** [for i, b in enumerate(basis): ... out[i] += vec[j]*el(b, k)] *)
  Fixpoint loop_basis {A} (ix : nat) (basis : list A)
      (body : nat -> A -> list K -> option (list K)) (out : list K) : option (list K) :=
    match basis with
    | [] => Some out
    | b :: basis' => let? out := body ix b out in loop_basis (S ix) basis' body out
    end.

  (** H_on_vec, ci_utils.py:1545-1551 *)
  Definition H_on_vec (basis : list upair) (vec : list K) (ha hb Ia Ib Iabab : T)
    : option (list K) :=
    loop_basis 0 basis (fun i b out =>
      loop_basis 0 basis (fun j k out =>
        let? x := nth_error vec j in
        let? m := ci_matrixel (fst b) (snd b) (fst k) (snd k) ha hb Ia Ib Iabab 0 in
        add_at out i (x * m)) out) (zeros (List.length vec)).

  (** gH_on_vec, ci_utils.py:1554-1559 *)
  Definition gH_on_vec (basis : list dstring) (vec : list K) (h I : T) : option (list K) :=
    loop_basis 0 basis (fun i b out =>
      loop_basis 0 basis (fun j k out =>
        let? x := nth_error vec j in
        let? m := gci_matrixel b k h I 0 in
        add_at out i (x * m)) out) (zeros (List.length vec)).
End Elements.
