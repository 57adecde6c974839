(** Specification vocabulary for rounding errors in the coupled cluster functions.

    The functions are run by the same interpreter (PySem.v) on four kinds of
    arrays: exact arrays ([conc_alg]), arrays of rounded numbers ([fl_alg]),
    arrays of magnitudes ([mag_alg]: every number replaced by its absolute value,
    every minus sign dropped) and operation counts ([depth_alg]). *)
From Coq Require Import List Bool Arith String ZArith Reals Permutation.
From Flocq Require Import Core.
From Verif Require Import Scalar Tensor PySyntax PySem.
Import ListNotations.

(** The real numbers as scalars *)
Definition RK : cring.
Proof.
  refine (CRing R 0%R 1%R Rplus Rmult Rminus Ropp (/ 2)%R RTheory _). field.
Defined.

(** *** Evaluation of a sum of products in any order *)

(** An evaluation scheme over leaves in [L]: additions, multiplications and fused
    multiply-adds (x * y + z) in any arrangement. *)
Inductive scheme (L : Type) : Type :=
| Leaf (l : L)
| Add (s t : scheme L)
| Mul (s t : scheme L)
| Fma (s t w : scheme L).
Arguments Leaf {L}. Arguments Add {L}. Arguments Mul {L}. Arguments Fma {L}.

(** the products that it sums when it is multiplied out *)
Fixpoint expand {L} (s : scheme L) : list (list L) :=
  match s with
  | Leaf l => [[l]]
  | Add s t => expand s ++ expand t
  | Mul s t => flat_map (fun p => map (fun q => p ++ q) (expand t)) (expand s)
  | Fma s t w => flat_map (fun p => map (fun q => p ++ q) (expand t)) (expand s) ++ expand w
  end.

(** the same products, up to the order of the products and of their factors *)
Definition same_products {L} (a b : list (list L)) : Prop :=
  exists c, Permutation a c /\ Forall2 (@Permutation L) c b.

(** a map over the numbers and arrays of a Python value *)
Fixpoint xmap {A B : alg} (fn : num A -> num B) (fa : arr A -> arr B) (x : xval A) : xval B :=
  match x with
  | XNum n => XNum (fn n)
  | XArr t => XArr (fa t)
  | XTup l => XTup (map (xmap fn fa) l)
  | XObj l => XObj (map (fun p => (fst p, xmap fn fa (snd p))) l)
  end.

Section Round.
  Variable K : cring.
  Local Open Scope R_scope.
  Variable nrm : K -> R.   (* absolute value *)
  Variable u : R.          (* unit roundoff *)

  Definition is_norm : Prop :=
    nrm c0 = 0 /\ nrm c1 = 1 /\ (forall x, 0 <= nrm x) /\ (forall x, nrm (copp x) = nrm x) /\
    (forall x y, nrm (cadd x y) <= nrm x + nrm y) /\ (forall x y, nrm (cmul x y) <= nrm x * nrm y).

  Definition dist (x y : K) : R := nrm (csub x y).

  (** w is x + y, x * y, x * y + z, up to a relative error u of the terms *)
  Definition is_sum (w x y : K) : Prop := dist w (cadd x y) <= u * (nrm x + nrm y).
  Definition is_product (w x y : K) : Prop := dist w (cmul x y) <= u * (nrm x * nrm y).
  Definition is_fma (w x y z : K) : Prop := dist w (cadd (cmul x y) z) <= u * (nrm x * nrm y + nrm z).

  (** w is a possible result of the scheme s in rounded arithmetic *)
  Inductive computes {L} (x : L -> K) : scheme L -> K -> Prop :=
  | c_leaf l : computes x (Leaf l) (x l)
  | c_add s t a b w : computes x s a -> computes x t b -> is_sum w a b -> computes x (Add s t) w
  | c_mul s t a b w : computes x s a -> computes x t b -> is_product w a b -> computes x (Mul s t) w
  | c_fma s t v a b c w : computes x s a -> computes x t b -> computes x v c -> is_fma w a b c ->
      computes x (Fma s t v) w.

  (** w is a possible result for the sum of the products ps, in any order *)
  Definition computes_sum {L} (x : L -> K) (ps : list (list L)) (w : K) : Prop :=
    match ps with
    | [] => w = c0
    | _ => exists s, same_products (expand s) ps /\ computes x s w
    end.

  (** *** einsum *)
  (** shape of the result of einsum(ins -> out, operands of the given shapes) and,
      for each of its indices, the products that are summed; a factor is given
      by the number of the operand and the index into it ([allidx sd]: all values of
      the summed letters, Scalar.v) *)
  Definition ein_terms (ins : list letters) (out : letters) (shs : list (list nat))
    : option (list nat * (list nat -> list (list (nat * list nat)))) :=
    match bind_all Nat.eqb ins shs [] with
    | None => None
    | Some env =>
        let sm := summed_letters out env in
        match dims_of out env, dims_of sm env with
        | Some od, Some sd =>
            if nodup_ascii out then
              let val idx a := nth (index_of a (out ++ sm)) idx 0%nat in
              Some (od, fun idx => map (fun s =>
                map (fun jl => (fst jl, map (val (idx ++ s)) (snd jl)))
                  (combine (seq 0 (List.length ins)) ins)) (allidx sd))
            else None
        | _, _ => None
        end
    end.
  Definition entry (ts : list (tensor K)) (l : nat * list nat) : K :=
    dat (nth (fst l) ts (tzeros K [])) (snd l).

  Definition einsum_fun := list letters -> letters -> list (tensor K) -> option (K + tensor K).
  (** every entry of the result is computed in some order *)
  Definition is_einsum (ein : einsum_fun) : Prop :=
    forall ins out ts sh f, ins <> [] -> ein_terms ins out (map shp ts) = Some (sh, f) ->
      match out with
      | [] => exists w, ein ins out ts = Some (inl w) /\ computes_sum (entry ts) (f []) w
      | _ => exists t, ein ins out ts = Some (inr t) /\ shp t = sh /\
          forall idx, inrange sh idx -> computes_sum (entry ts) (f idx) (dat t idx)
      end.

  (** *** The algebras *)
  Variables (add mul : K -> K -> K) (ein : einsum_fun).
  Definition is_arithmetic : Prop :=
    0 <= u /\ (forall x y, is_sum (add x y) x y) /\ (forall x y, is_product (mul x y) x y) /\ is_einsum ein.

  (** rounded arrays; negation and the numeric literals (0.25, 0.5, 2.0, ...) are exact *)
  Definition fl_add (a b : tensor K) : option (tensor K) :=
    if shape_eqb (shp a) (shp b) then Some (mkT (shp a) (fun i => add (dat a i) (dat b i))) else None.
  Definition fl_scale (k : K) (a : tensor K) : tensor K := mkT (shp a) (fun i => mul k (dat a i)).
  (** (the program has no einsum without operands) *)
  Definition fl_einsum : einsum_fun := fun ins out ts =>
    match ins with [] => conc_einsum K ins out ts | _ => ein ins out ts end.
  Definition fl_alg : alg :=
    Alg (tensor K) K (@dyad K) add mul (@copp K) fl_add (@tneg K) fl_scale (@ttrans K) fl_einsum.

  Definition mag_alg : alg :=
    Alg (tensor RK) R (fun z k => nrm (dyad z k)) Rplus Rmult (fun x => x)
      (@tadd RK) (fun t => t) (@tscale RK) (@ttrans RK) (conc_einsum RK).

  (** a shape and the number of roundings that the entries have gone through *)
  Definition d_trans (p : list nat) (a : list nat * nat) : option (list nat * nat) :=
    if is_perm p (List.length (fst a)) then Some (map (fun k => nth k (fst a) 0%nat) p, snd a) else None.
  Definition d_einsum (ins : list letters) (out : letters) (ts : list (list nat * nat))
    : option (nat + list nat * nat) :=
    match bind_all Nat.eqb ins (map fst ts) [] with
    | None => None
    | Some env =>
        match dims_of out env, dims_of (summed_letters out env) env with
        | Some od, Some sd =>
            if nodup_ascii out then
              let d := (list_sum (map snd ts) + (fold_right Nat.mul 1 sd + List.length ins - 2))%nat in
              Some (match out with [] => inl d | _ => inr (od, d) end)
            else None
        | _, _ => None
        end
    end.
  Definition depth_alg : alg :=
    Alg (list nat * nat) nat (fun _ _ => 0%nat)
      (fun a b => S (Nat.max a b)) (fun a b => S (a + b)) (fun a => a)
      (fun a b => if shape_eqb (fst a) (fst b) then Some (fst a, S (Nat.max (snd a) (snd b))) else None)
      (fun a => a) (fun k a => (fst a, S (k + snd a))) d_trans d_einsum.

  (** *** The error bound *)
  (** x approximates v: |x - v| <= ((1 + u)^d - 1) m, where |v| <= m *)
  Definition within (x v : K) (m : R) (d : nat) : Prop :=
    nrm v <= m /\ dist x v <= ((1 + u) ^ d - 1) * m.

  Definition t_within (x v : tensor K) (m : tensor RK) (d : list nat * nat) : Prop :=
    shp x = shp v /\ shp m = shp v /\ fst d = shp v /\
    forall idx, inrange (shp v) idx -> within (dat x idx) (dat v idx) (dat m idx) (snd d).

  (** the same for Python values *)
  Inductive v_within : xval fl_alg -> xval (conc_alg K) -> xval mag_alg -> xval depth_alg -> Prop :=
  | vw_num x v m d : within x v m d -> v_within (@XNum fl_alg x) (@XNum (conc_alg K) v) (@XNum mag_alg m) (@XNum depth_alg d)
  | vw_arr x v m d : t_within x v m d -> v_within (@XArr fl_alg x) (@XArr (conc_alg K) v) (@XArr mag_alg m) (@XArr depth_alg d)
  | vw_tup x v m d : l_within x v m d -> v_within (XTup x) (XTup v) (XTup m) (XTup d)
  | vw_obj ns x v m d : l_within x v m d -> List.length ns = List.length x ->
      v_within (XObj (combine ns x)) (XObj (combine ns v)) (XObj (combine ns m)) (XObj (combine ns d))
  with l_within : list (xval fl_alg) -> list (xval (conc_alg K)) -> list (xval mag_alg) -> list (xval depth_alg) -> Prop :=
  | lw_nil : l_within [] [] [] []
  | lw_cons x v m d xs vs ms ds : v_within x v m d -> l_within xs vs ms ds ->
      l_within (x :: xs) (v :: vs) (m :: ms) (d :: ds).

  (** The error of a computed result x (numbers, arrays, tuples or objects of these)
      is at most ((1 + u)^d - 1) times the magnitude m, entry by entry. *)
  Inductive error_le (d : nat) : xval fl_alg -> xval (conc_alg K) -> xval mag_alg -> Prop :=
  | el_num x v m : dist x v <= ((1 + u) ^ d - 1) * m ->
      error_le d (@XNum fl_alg x) (@XNum (conc_alg K) v) (@XNum mag_alg m)
  | el_arr x v (m : tensor RK) : shp x = shp v -> shp m = shp v ->
      (forall idx, inrange (shp v) idx -> dist (dat x idx) (dat v idx) <= ((1 + u) ^ d - 1) * dat m idx) ->
      error_le d (@XArr fl_alg x) (@XArr (conc_alg K) v) (@XArr mag_alg m)
  | el_tup x v m : errors_le d x v m -> error_le d (XTup x) (XTup v) (XTup m)
  | el_obj ns x v m : errors_le d x v m -> List.length ns = List.length x ->
      error_le d (XObj (combine ns x)) (XObj (combine ns v)) (XObj (combine ns m))
  with errors_le (d : nat) : list (xval fl_alg) -> list (xval (conc_alg K)) -> list (xval mag_alg) -> Prop :=
  | els_nil : errors_le d [] [] []
  | els_cons x v m xs vs ms : error_le d x v m -> errors_le d xs vs ms -> errors_le d (x :: xs) (v :: vs) (m :: ms).

  (** *** Arguments that are exact: the same values given to the four runs *)
  Definition as_given : xval (conc_alg K) -> xval fl_alg := xmap (A := conc_alg K) (B := fl_alg) (fun x => x) (fun t => t).
  Definition magnitudes : xval (conc_alg K) -> xval mag_alg :=
    xmap (A := conc_alg K) (B := mag_alg) nrm (fun t => mkT (K := RK) (shp t) (fun i => nrm (dat t i))).
  Definition unrounded : xval (conc_alg K) -> xval depth_alg :=
    xmap (A := conc_alg K) (B := depth_alg) (fun _ => 0%nat) (fun t => (shp t, 0%nat)).
End Round.

(** *** Examples of arithmetics *)
(** einsum by nested loops: the products are formed and summed from left to right *)
Section SeqEinsum.
  Variable K : cring.
  Variables add mul : K -> K -> K.
  Definition seq_product {L} (x : L -> K) (p : list L) : K :=
    match p with [] => c1 | l :: p' => fold_left (fun acc l => mul acc (x l)) p' (x l) end.
  Definition seq_sum {L} (x : L -> K) (ps : list (list L)) : K :=
    match ps with
    | [] => c0
    | p :: ps' => fold_left (fun acc q => add acc (seq_product x q)) ps' (seq_product x p)
    end.
  Definition seq_einsum : einsum_fun K := fun ins out ts =>
    match ein_terms ins out (map shp ts) with
    | None => None
    | Some (sh, f) =>
        match out with
        | [] => Some (inl (seq_sum (entry K ts) (f [])))
        | _ => Some (inr (mkT sh (fun idx => seq_sum (entry K ts) (f idx))))
        end
    end.
End SeqEinsum.

(** the nearest number with 53 significant bits (binary64 without overflow and underflow) *)
Definition round53 (x : R) : R := round radix2 (FLX_exp 53) ZnearestE x.

(** complex numbers over rounded real operations; |re| + |im| *)
Local Open Scope R_scope.
Definition l1_norm (x : CplxK RK) : R := Rabs (fst x) + Rabs (snd x).
Definition cplx_add (add : R -> R -> R) (x y : CplxK RK) : CplxK RK := (add (fst x) (fst y), add (snd x) (snd y)).
Definition cplx_product (add mul : R -> R -> R) (x y : CplxK RK) : CplxK RK :=
  (add (mul (fst x) (fst y)) (- mul (snd x) (snd y)), add (mul (fst x) (snd y)) (mul (snd x) (fst y))).

(** *** The energies, over the reals *)
Definition Sum (n : nat) (f : nat -> R) : R := sumN (K := RK) n f.
Definition mp2_formula (no nv : nat) (T1 T2 f g : list nat -> R) : R :=
  / 4 * Sum nv (fun a => Sum nv (fun b => Sum no (fun i => Sum no (fun j => T2 [a; b; i; j] * g [i; j; a; b])))) +
  Sum nv (fun a => Sum no (fun i => T1 [a; i] * f [i; a])).
Definition cc_formula (no nv : nat) (T1 T2 f g : list nat -> R) : R :=
  mp2_formula no nv T1 T2 f g +
  / 2 * Sum nv (fun a => Sum no (fun i => Sum nv (fun b => Sum no (fun j => T1 [a; i] * T1 [b; j] * g [i; j; a; b])))).
Definition absolute (f : list nat -> R) : list nat -> R := fun idx => Rabs (f idx).
