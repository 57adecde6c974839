(** NumPy model: arrays, einsum, transpose, elementwise arithmetic.

    An array is its shape and a function from index lists to scalars; only the
    values at in-range indices matter ([teq]).  Operations return [None] where
    NumPy raises because of inconsistent shapes. *)
From Coq Require Import List Bool Arith Ascii String ZArith Lia.
From Verif Require Import Scalar.
Import ListNotations.

(** *** Letters of an einsum specification *)

Definition letters := list ascii.

Fixpoint mem_ascii (a : ascii) (l : letters) : bool :=
  match l with
  | [] => false
  | b :: l' => if Ascii.eqb a b then true else mem_ascii a l'
  end.

Fixpoint nodup_ascii (l : letters) : bool :=
  match l with
  | [] => true
  | a :: l' => negb (mem_ascii a l') && nodup_ascii l'
  end.

Fixpoint index_of (a : ascii) (l : letters) : nat :=
  match l with
  | [] => 0
  | b :: l' => if Ascii.eqb a b then 0 else S (index_of a l')
  end.

(** 'ab,bc->ac' is parsed to ([ab; bc], ac).  Characters other than letters,
    ',' and "->" do not occur in the source. *)
Fixpoint parse_out (s : string) : letters :=
  match s with
  | EmptyString => []
  | String c s' => c :: parse_out s'
  end.

Fixpoint parse_spec (cur : letters) (s : string) : list letters * letters :=
  match s with
  | EmptyString => ([rev cur], [])
  | String c s' =>
      if Ascii.eqb c ","%char then
        let (ins, out) := parse_spec [] s' in (rev cur :: ins, out)
      else if Ascii.eqb c "-"%char then
        match s' with
        | String _ s'' => ([rev cur], parse_out s'')
        | EmptyString => ([rev cur], [])
        end
      else parse_spec (c :: cur) s'
  end.

(** Association of letters with dimensions (any type [D] of dimensions with
    a boolean equality), in order of first occurrence.  [None] when the rank
    of an operand differs from its number of letters or when a letter is used
    with two different dimensions. *)
Section Bind.
  Context {D : Type} (eqD : D -> D -> bool).

  Fixpoint lookup_letter (a : ascii) (env : list (ascii * D)) : option D :=
    match env with
    | [] => None
    | (b, d) :: env' => if Ascii.eqb a b then Some d else lookup_letter a env'
    end.

  Fixpoint bind_one (ls : letters) (sh : list D) (env : list (ascii * D))
    : option (list (ascii * D)) :=
    match ls, sh with
    | [], [] => Some env
    | a :: ls', d :: sh' =>
        match lookup_letter a env with
        | None => bind_one ls' sh' (env ++ [(a, d)])
        | Some d' => if eqD d' d then bind_one ls' sh' env else None
        end
    | _, _ => None
    end.

  Fixpoint bind_all (ins : list letters) (shs : list (list D))
      (env : list (ascii * D)) : option (list (ascii * D)) :=
    match ins, shs with
    | [], [] => Some env
    | ls :: ins', sh :: shs' =>
        match bind_one ls sh env with
        | Some env' => bind_all ins' shs' env'
        | None => None
        end
    | _, _ => None
    end.

  (** Dimensions of a list of letters; [None] if one is unbound. *)
  Fixpoint dims_of (ls : letters) (env : list (ascii * D)) : option (list D) :=
    match ls with
    | [] => Some []
    | a :: ls' =>
        match lookup_letter a env, dims_of ls' env with
        | Some d, Some ds => Some (d :: ds)
        | _, _ => None
        end
    end.

  Definition summed_letters (out : letters) (env : list (ascii * D)) : letters :=
    filter (fun a => negb (mem_ascii a out)) (map fst env).
End Bind.

(** *** Arrays *)

Record tensor (K : cring) : Type := mkT {
  shp : list nat;
  dat : list nat -> K
}.
Arguments mkT {K} shp dat.
Arguments shp {K} t.
Arguments dat {K} t _.

Section Tensors.
  Variable K : cring.
  Local Open Scope K_scope.

  (** Index list [idx] is valid for shape [sh]. *)
  Definition inrange (sh idx : list nat) : Prop := Forall2 lt idx sh.

  (** Equality of arrays: same shape, same entries. *)
  Definition teq (A B : tensor K) : Prop :=
    shp A = shp B /\ forall idx, inrange (shp A) idx -> dat A idx = dat B idx.

  Fixpoint shape_eqb (a b : list nat) : bool :=
    match a, b with
    | [], [] => true
    | x :: a', y :: b' => Nat.eqb x y && shape_eqb a' b'
    | _, _ => false
    end.

  (** [numpy.zeros(sh)] *)
  Definition tzeros (sh : list nat) : tensor K := mkT sh (fun _ => 0).

  (** [A + B] for arrays of equal shape (broadcasting is not modelled). *)
  Definition tadd (A B : tensor K) : option (tensor K) :=
    if shape_eqb (shp A) (shp B)
    then Some (mkT (shp A) (fun i => dat A i + dat B i)) else None.

  (** [-A] *)
  Definition tneg (A : tensor K) : tensor K := mkT (shp A) (fun i => - dat A i).

  (** [k * A] *)
  Definition tscale (k : K) (A : tensor K) : tensor K :=
    mkT (shp A) (fun i => k * dat A i).

  (** [A.transpose(p)]: axis [k] of the result is axis [p[k]] of [A]. *)
  Fixpoint find_nat (n : nat) (l : list nat) : nat :=
    match l with
    | [] => 0
    | m :: l' => if Nat.eqb n m then 0 else S (find_nat n l')
    end.

  Definition is_perm (p : list nat) (r : nat) : bool :=
    Nat.eqb (List.length p) r &&
    forallb (fun k => existsb (Nat.eqb k) p) (seq 0 r).

  (** the index into [A] belonging to index [idx] of the transposed array *)
  Definition untrans (p : list nat) (r : nat) (idx : list nat) : list nat :=
    map (fun k => nth (find_nat k p) idx 0%nat) (seq 0 r).

  Definition ttrans (p : list nat) (A : tensor K) : option (tensor K) :=
    let r := List.length (shp A) in
    if is_perm p r
    then Some (mkT (map (fun k => nth k (shp A) 0%nat) p)
                   (fun idx => dat A (untrans p r idx)))
    else None.

  (** [einsum(ins -> out, ts)]: for each output index, the sum over all values
      of the letters that do not occur in the output of the product of the
      operands' entries. *)
  Definition einsum (ins : list letters) (out : letters) (ts : list (tensor K))
    : option (tensor K) :=
    match bind_all Nat.eqb ins (map shp ts) [] with
    | None => None
    | Some env =>
        let sm := summed_letters out env in
        match dims_of out env, dims_of sm env with
        | Some od, Some sd =>
            if nodup_ascii out then
              let ord := out ++ sm in
              let val idx a := nth (index_of a ord) idx 0%nat in
              Some (mkT od (fun idx =>
                sumL sd (fun s =>
                  prodK (map (fun lt => dat (snd lt) (map (val (idx ++ s)) (fst lt)))
                             (combine ins ts)))))
            else None
        | _, _ => None
        end
    end.
End Tensors.

Arguments teq {K} A B.
Arguments tadd {K} A B.
Arguments tneg {K} A.
Arguments tscale {K} k A.
Arguments ttrans {K} p A.
Arguments einsum {K} ins out ts.
