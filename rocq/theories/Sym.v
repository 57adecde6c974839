(** Symbolic arrays: polynomials in the input tensors with summed indices.
    Running the interpreter of PySem.v on these computes, for all dimensions
    at once, what the program computes (soundness: SymSound.v). *)
From Coq Require Import List Bool Arith Ascii String ZArith.
From Verif Require Import Scalar Tensor PySyntax PySem.
Import ListNotations.

(** Class of an index (which dimension it ranges over). *)
Definition cls := positive.

(** An index of a factor: external (position in the array's own index) or
    dummy (summed). *)
Inductive ix : Type := X (n : nat) | D (n : nat).

(** coefficient * sum over dummies of the product of the factors;
    coefficient z / 2^k; a factor is an input tensor with its indices. *)
Record mono : Type := Mono {
  m_z : Z;
  m_k : nat;
  m_dm : list cls;
  m_fs : list (positive * list ix)
}.

Record stens : Type := STens { s_sh : list cls; s_ms : list mono }.

(** An input tensor as a symbolic array. *)
Definition s_input (t : positive) (sh : list cls) : stens :=
  STens sh [Mono 1 0 [] [(t, map X (seq 0 (List.length sh)))]].

Definition s_zero (sh : list cls) : stens := STens sh [].

Definition map_ix (f : ix -> ix) (fs : list (positive * list ix)) :=
  map (fun p => (fst p, map f (snd p))) fs.

(** rename externals *)
Definition ren_x (p : list nat) (i : ix) : ix :=
  match i with X n => X (nth n p 0) | D n => D n end.

Definition m_ren (p : list nat) (m : mono) : mono :=
  Mono (m_z m) (m_k m) (m_dm m) (map_ix (ren_x p) (m_fs m)).

Definition shift_d (s : nat) (i : ix) : ix :=
  match i with X n => X n | D n => D (s + n) end.

Definition m_mul (a b : mono) : mono :=
  Mono (m_z a * m_z b) (m_k a + m_k b) (m_dm a ++ m_dm b)
       (m_fs a ++ map_ix (shift_d (List.length (m_dm a))) (m_fs b)).

Definition m_neg (a : mono) : mono := Mono (- m_z a) (m_k a) (m_dm a) (m_fs a).

(** sum over the externals at positions >= r, whose classes are [sc] *)
Definition close_x (r s : nat) (i : ix) : ix :=
  match i with
  | X n => if Nat.ltb n r then X n else D (n - r)
  | D n => D (s + n)
  end.

Definition m_close (r : nat) (sc : list cls) (m : mono) : mono :=
  Mono (m_z m) (m_k m) (sc ++ m_dm m)
       (map_ix (close_x r (List.length sc)) (m_fs m)).

Definition ms_mul (a b : list mono) : list mono :=
  flat_map (fun x => map (m_mul x) b) a.

Definition m_one : mono := Mono 1 0 [] [].

Fixpoint cls_list_eqb (a b : list cls) : bool :=
  match a, b with
  | [], [] => true
  | x :: a', y :: b' => if Pos.eqb x y then cls_list_eqb a' b' else false
  | _, _ => false
  end.

Definition s_add (a b : stens) : option stens :=
  if cls_list_eqb (s_sh a) (s_sh b)
  then Some (STens (s_sh a) (s_ms a ++ s_ms b)) else None.

Definition s_neg (a : stens) : stens := STens (s_sh a) (map m_neg (s_ms a)).

Definition s_scale (k : list mono) (a : stens) : stens :=
  STens (s_sh a) (ms_mul k (s_ms a)).

Definition s_trans (p : list nat) (a : stens) : option stens :=
  let r := List.length (s_sh a) in
  if is_perm p r
  then let q := map (fun k => find_nat k p) (seq 0 r) in
       Some (STens (map (fun k => nth k (s_sh a) 1%positive) p)
                   (map (m_ren q) (s_ms a)))
  else None.

Definition s_einsum (ins : list letters) (out : letters) (ts : list stens)
  : option (list mono + stens) :=
  match bind_all Pos.eqb ins (map s_sh ts) [] with
  | None => None
  | Some env =>
      let sm := summed_letters out env in
      match dims_of out env, dims_of sm env with
      | Some od, Some sd =>
          if nodup_ascii out then
            let ord := out ++ sm in
            let ops := map (fun lt : letters * stens =>
                              let q := map (fun a => index_of a ord) (fst lt) in
                              map (m_ren q) (s_ms (snd lt))) (combine ins ts) in
            let prod := fold_right ms_mul [m_one] ops in
            let ms := map (m_close (List.length out) sd) prod in
            match out with
            | [] => Some (inl ms)
            | _ => Some (inr (STens od ms))
            end
          else None
      | _, _ => None
      end
  end.

Definition sym_alg : alg :=
  Alg stens (list mono)
      (fun z k => [Mono z k [] []])
      (@app mono) ms_mul (map m_neg)
      s_add s_neg s_scale s_trans s_einsum.
