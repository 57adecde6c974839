(** Semantics of the Python fragment over an abstract algebra of arrays.

    Arrays live in a heap and variables hold references: [x = y] makes an
    alias, [x += e] and [x -= e] update the array [x] refers to in place
    (NumPy's __iadd__/__isub__), every computed expression is a new array.
    The same interpreter is run on concrete arrays ([conc_alg]: the semantics
    of the code) and on symbolic ones (Sym.v: used only in proofs). *)
From Coq Require Import List Bool String ZArith FMapPositive Ascii.
From Verif Require Import Scalar Tensor PySyntax.
Import ListNotations.

Record alg : Type := Alg {
  arr : Type;
  num : Type;
  n_const : Z -> nat -> num;
  n_add : num -> num -> num;
  n_mul : num -> num -> num;
  n_neg : num -> num;
  a_add : arr -> arr -> option arr;
  a_neg : arr -> arr;
  a_scale : num -> arr -> arr;
  a_trans : list nat -> arr -> option arr;
  a_einsum : list letters -> letters -> list arr -> option (num + arr)
}.

(** Result of running code: a value, or an exception. *)
Inductive res (A : Type) : Type :=
| Ok (a : A)
| Exn (msg : string).
Arguments Ok {A} a.
Arguments Exn {A} msg.

Definition rbind {A B} (r : res A) (f : A -> res B) : res B :=
  match r with Ok a => f a | Exn m => Exn m end.
Notation "'do' x <- e ; f" := (rbind e (fun x => f))
  (at level 200, x pattern, e at level 100, f at level 200).

Definition of_opt {A} (m : string) (o : option A) : res A :=
  match o with Some a => Ok a | None => Exn m end.

Section Interp.
  Variable A : alg.

  (** Python values; arrays by reference. *)
  Inductive val : Type :=
  | VNum (n : num A)
  | VArr (l : positive)
  | VTup (vs : list val)
  | VObj (fs : list (string * val)).

  (** Result of an expression: a value or a new, not yet stored array. *)
  Inductive rval : Type :=
  | RTmp (t : arr A)
  | RVal (v : val).

  Record heap : Type := Heap { hnext : positive; hmap : PositiveMap.t (arr A) }.

  Definition env := list (string * val).

  Definition halloc (t : arr A) (h : heap) : val * heap :=
    (VArr (hnext h),
     Heap (Pos.succ (hnext h)) (PositiveMap.add (hnext h) t (hmap h))).

  Definition hget (l : positive) (h : heap) : option (arr A) :=
    PositiveMap.find l (hmap h).

  Definition hset (l : positive) (t : arr A) (h : heap) : heap :=
    Heap (hnext h) (PositiveMap.add l t (hmap h)).

  Definition store (r : rval) (h : heap) : val * heap :=
    match r with
    | RTmp t => halloc t h
    | RVal v => (v, h)
    end.

  Definition deref (r : rval) (h : heap) : res (arr A) :=
    match r with
    | RTmp t => Ok t
    | RVal (VArr l) => of_opt "dangling reference" (hget l h)
    | RVal _ => Exn "TypeError: array expected"
    end.

  Fixpoint assoc {B} (x : string) (l : list (string * B)) : option B :=
    match l with
    | [] => None
    | (y, b) :: l' => if String.eqb x y then Some b else assoc x l'
    end.

  Fixpoint remove_var (x : string) (l : env) : env :=
    match l with
    | [] => []
    | (y, b) :: l' => if String.eqb x y then remove_var x l' else (y, b) :: remove_var x l'
    end.

  Definition add_rv (r1 r2 : rval) (h : heap) : res rval :=
    match r1, r2 with
    | RVal (VNum a), RVal (VNum b) => Ok (RVal (VNum (n_add A a b)))
    | _, _ =>
        do t1 <- deref r1 h; do t2 <- deref r2 h;
        do t <- of_opt "ValueError: shapes" (a_add A t1 t2); Ok (RTmp t)
    end.

  Definition neg_rv (r : rval) (h : heap) : res rval :=
    match r with
    | RVal (VNum a) => Ok (RVal (VNum (n_neg A a)))
    | _ => do t <- deref r h; Ok (RTmp (a_neg A t))
    end.

  Definition mul_rv (r1 r2 : rval) (h : heap) : res rval :=
    match r1, r2 with
    | RVal (VNum a), RVal (VNum b) => Ok (RVal (VNum (n_mul A a b)))
    | RVal (VNum a), _ => do t <- deref r2 h; Ok (RTmp (a_scale A a t))
    | _, RVal (VNum b) => do t <- deref r1 h; Ok (RTmp (a_scale A b t))
    | _, _ => Exn "unsupported: array * array"
    end.

  Definition einsum_rv (spec : string) (ts : list (arr A)) : res rval :=
    let (ins, out) := parse_spec [] spec in
    do r <- of_opt "ValueError: einsum" (a_einsum A ins out ts);
    match r with
    | inl n => Ok (RVal (VNum n))
    | inr t => Ok (RTmp t)
    end.

  Definition subval (v : val) (a : string) : res val :=
    match v with
    | VObj fs => of_opt "AttributeError" (assoc a fs)
    | _ => Exn "AttributeError"
    end.

  Fixpoint eval (e : expr) (en : env) (h : heap) {struct e} : res (rval * heap) :=
    match e with
    | EVar x => do v <- of_opt "NameError" (assoc x en); Ok (RVal v, h)
    | EAttr e1 a =>
        do (r, h1) <- eval e1 en h;
        match r with
        | RVal v => do w <- subval v a; Ok (RVal w, h1)
        | RTmp _ => Exn "AttributeError"
        end
    | ENum z k => Ok (RVal (VNum (n_const A z k)), h)
    | ENeg e1 =>
        do (r, h1) <- eval e1 en h;
        do s <- neg_rv r h1; Ok (s, h1)
    | EAdd e1 e2 =>
        do (r1, h1) <- eval e1 en h;
        do (r2, h2) <- eval e2 en h1;
        do s <- add_rv r1 r2 h2; Ok (s, h2)
    | ESub e1 e2 =>
        do (r1, h1) <- eval e1 en h;
        do (r2, h2) <- eval e2 en h1;
        do m <- neg_rv r2 h2;
        do s <- add_rv r1 m h2; Ok (s, h2)
    | EMul e1 e2 =>
        do (r1, h1) <- eval e1 en h;
        do (r2, h2) <- eval e2 en h1;
        do s <- mul_rv r1 r2 h2; Ok (s, h2)
    | EEinsum spec args =>
        do (ts, h1) <-
          (fix go (l : list expr) (h0 : heap) : res (list (arr A) * heap) :=
             match l with
             | [] => Ok ([], h0)
             | e1 :: l' =>
                 do (r, h1) <- eval e1 en h0;
                 do t <- deref r h1;
                 do (ts, h2) <- go l' h1;
                 Ok (t :: ts, h2)
             end) args h;
        do r <- einsum_rv spec ts; Ok (r, h1)
    | ETrans e1 p =>
        do (r, h1) <- eval e1 en h;
        do t <- deref r h1;
        do s <- of_opt "ValueError: transpose" (a_trans A p t); Ok (RTmp s, h1)
    | ECopy e1 =>
        do (r, h1) <- eval e1 en h;
        do t <- deref r h1; Ok (RTmp t, h1)
    | ETuple es =>
        do (vs, h1) <-
          (fix go (l : list expr) (h0 : heap) : res (list val * heap) :=
             match l with
             | [] => Ok ([], h0)
             | e1 :: l' =>
                 do (r, h1) <- eval e1 en h0;
                 let (v, h2) := store r h1 in
                 do (vs, h3) <- go l' h2;
                 Ok (v :: vs, h3)
             end) es h;
        Ok (RVal (VTup vs), h1)
    | EObj fs =>
        do (vs, h1) <-
          (fix go (l : list (string * expr)) (h0 : heap) : res (list (string * val) * heap) :=
             match l with
             | [] => Ok ([], h0)
             | (x, e1) :: l' =>
                 do (r, h1) <- eval e1 en h0;
                 let (v, h2) := store r h1 in
                 do (vs, h3) <- go l' h2;
                 Ok ((x, v) :: vs, h3)
             end) fs h;
        Ok (RVal (VObj vs), h1)
    end.

  (** Evaluate call arguments from left to right. *)
  Fixpoint eval_args (l : list expr) (en : env) (h : heap) : res (list val * heap) :=
    match l with
    | [] => Ok ([], h)
    | e :: l' =>
        do (r, h1) <- eval e en h;
        let (v, h2) := store r h1 in
        do (vs, h3) <- eval_args l' en h2;
        Ok (v :: vs, h3)
    end.

  Fixpoint bind_pat (p : pat) (v : val) (en : env) {struct p} : res env :=
    match p with
    | PVar x => Ok ((x, v) :: en)
    | PTup ps =>
        match v with
        | VTup vs =>
            (fix go (ps : list pat) (vs : list val) (en : env) : res env :=
               match ps, vs with
               | [], [] => Ok en
               | p1 :: ps', v1 :: vs' => do en1 <- bind_pat p1 v1 en; go ps' vs' en1
               | _, _ => Exn "ValueError: unpack"
               end) ps vs en
        | _ => Exn "TypeError: unpack"
        end
    end.

  (** x += e (with [sub = true]: x -= e) *)
  Definition aug (sub : bool) (x : string) (r : rval) (en : env) (h : heap) : res (env * heap) :=
    do v <- of_opt "NameError" (assoc x en);
    do m <- (if sub then neg_rv r h else Ok r);
    match v with
    | VArr l =>
        do t0 <- of_opt "dangling reference" (hget l h);
        do t1 <- deref m h;
        do t <- of_opt "ValueError: shapes" (a_add A t0 t1);
        Ok (en, hset l t h)
    | VNum n =>
        match m with
        | RVal (VNum k) => Ok ((x, VNum (n_add A n k)) :: en, h)
        | _ => Exn "TypeError: augmented assignment"
        end
    | _ => Exn "TypeError: augmented assignment"
    end.

  Fixpoint bind_params (ps : list string) (args : list val)
      (defs : list (string * (Z * nat))) : res env :=
    match ps, args with
    | [], [] => Ok []
    | p :: ps', v :: args' =>
        do en <- bind_params ps' args' defs; Ok ((p, v) :: en)
    | p :: ps', [] =>
        do d <- of_opt "TypeError: missing argument" (assoc p defs);
        do en <- bind_params ps' [] defs;
        Ok ((p, VNum (n_const A (fst d) (snd d))) :: en)
    | [], _ :: _ => Exn "TypeError: too many arguments"
    end.

  Variable prog : program.

  (** Execute a statement list; [call] runs another function. Falling off the
      end returns None, modelled as the empty tuple. *)
  Fixpoint exec (call : string -> list val -> heap -> res (val * heap))
      (ss : list stmt) (en : env) (h : heap) : res (val * heap) :=
    match ss with
    | [] => Ok (VTup [], h)
    | s :: ss' =>
        match s with
        | SAssign p e =>
            do (r, h1) <- eval e en h;
            let (v, h2) := store r h1 in
            do en1 <- bind_pat p v en;
            exec call ss' en1 h2
        | SAugAdd x e =>
            do (r, h1) <- eval e en h;
            do (en1, h2) <- aug false x r en h1;
            exec call ss' en1 h2
        | SAugSub x e =>
            do (r, h1) <- eval e en h;
            do (en1, h2) <- aug true x r en h1;
            exec call ss' en1 h2
        | SDel x => exec call ss' (remove_var x en) h
        | SCall p f args =>
            do (vs, h1) <- eval_args args en h;
            do (v, h2) <- call f vs h1;
            match p with
            | None => exec call ss' en h2
            | Some p => do en1 <- bind_pat p v en; exec call ss' en1 h2
            end
        | SReturn e =>
            do (r, h1) <- eval e en h;
            Ok (store r h1)
        | SRaise m => Exn m
        end
    end.

  (** Call function [f]; [fuel] bounds the call depth (the call graph of the
      two modules has depth 2). *)
  Fixpoint run (fuel : nat) (f : string) (args : list val) (h : heap) : res (val * heap) :=
    match fuel with
    | O => Exn "RecursionError"
    | S n =>
        do fd <- of_opt "NameError: function" (assoc f prog);
        do en <- bind_params (fparams fd) args (fdefaults fd);
        exec (run n) (fbody fd) en h
    end.

  (** *** Interface for theorem statements: arguments and results as values
      containing arrays, and the arguments as they are after the call. *)
  Inductive xval : Type :=
  | XNum (n : num A)
  | XArr (t : arr A)
  | XTup (vs : list xval)
  | XObj (fs : list (string * xval)).

  Fixpoint load (x : xval) (h : heap) {struct x} : val * heap :=
    match x with
    | XNum n => (VNum n, h)
    | XArr t => halloc t h
    | XTup xs =>
        let (vs, h1) :=
          (fix go (l : list xval) (h0 : heap) : list val * heap :=
             match l with
             | [] => ([], h0)
             | x1 :: l' =>
                 let (v, h1) := load x1 h0 in
                 let (vs, h2) := go l' h1 in (v :: vs, h2)
             end) xs h in
        (VTup vs, h1)
    | XObj fs =>
        let (vs, h1) :=
          (fix go (l : list (string * xval)) (h0 : heap) : list (string * val) * heap :=
             match l with
             | [] => ([], h0)
             | (s, x1) :: l' =>
                 let (v, h1) := load x1 h0 in
                 let (vs, h2) := go l' h1 in ((s, v) :: vs, h2)
             end) fs h in
        (VObj vs, h1)
    end.

  Fixpoint load_args (xs : list xval) (h : heap) : list val * heap :=
    match xs with
    | [] => ([], h)
    | x :: xs' =>
        let (v, h1) := load x h in
        let (vs, h2) := load_args xs' h1 in (v :: vs, h2)
    end.

  Fixpoint read (v : val) (h : heap) {struct v} : res xval :=
    match v with
    | VNum n => Ok (XNum n)
    | VArr l => do t <- of_opt "dangling reference" (hget l h); Ok (XArr t)
    | VTup vs =>
        do xs <-
          (fix go (l : list val) : res (list xval) :=
             match l with
             | [] => Ok []
             | v1 :: l' => do x <- read v1 h; do xs <- go l'; Ok (x :: xs)
             end) vs;
        Ok (XTup xs)
    | VObj fs =>
        do xs <-
          (fix go (l : list (string * val)) : res (list (string * xval)) :=
             match l with
             | [] => Ok []
             | (s, v1) :: l' => do x <- read v1 h; do xs <- go l'; Ok ((s, x) :: xs)
             end) fs;
        Ok (XObj xs)
    end.

  Fixpoint read_args (vs : list val) (h : heap) : res (list xval) :=
    match vs with
    | [] => Ok []
    | v :: vs' => do x <- read v h; do xs <- read_args vs' h; Ok (x :: xs)
    end.

  Definition empty_heap : heap := Heap 1 (PositiveMap.empty (arr A)).

  (** [pycall f args] = (returned value, arguments as found after the call). *)
  Definition pycall (f : string) (args : list xval) : res (xval * list xval) :=
    let (vs, h) := load_args args empty_heap in
    do (v, h1) <- run 8 f vs h;
    do r <- read v h1;
    do args' <- read_args vs h1;
    Ok (r, args').
End Interp.

Arguments VNum {A}. Arguments VArr {A}. Arguments VTup {A}. Arguments VObj {A}.
Arguments RTmp {A}. Arguments RVal {A}.
Arguments XNum {A}. Arguments XArr {A}. Arguments XTup {A}. Arguments XObj {A}.
Arguments hnext {A}. Arguments hmap {A}. Arguments Heap {A}.

(** The concrete algebra: NumPy arrays over the scalar ring [K].  An einsum
    with empty output is a number. *)
Definition conc_einsum (K : cring) (ins : list letters) (out : letters)
    (ts : list (tensor K)) : option (K + tensor K) :=
  match einsum ins out ts with
  | None => None
  | Some t => match out with [] => Some (inl (dat t [])) | _ => Some (inr t) end
  end.

Definition conc_alg (K : cring) : alg :=
  Alg (tensor K) K (@dyad K) (@cadd K) (@cmul K) (@copp K)
      (@tadd K) (@tneg K) (@tscale K) (@ttrans K) (conc_einsum K).
