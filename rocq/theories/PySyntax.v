(** Syntax of the fragment of Python used by cqcpy/cc_energy.py and
    cqcpy/cc_equations.py.  The programs in [CCProg.v] are generated from the
    source by tools/py2coq.py. *)
From Coq Require Import List String ZArith.
Import ListNotations.

Inductive expr : Type :=
| EVar (x : string)                        (* x        (or self.x, one name) *)
| EAttr (e : expr) (a : string)            (* e.a *)
| ENum (z : Z) (k : nat)                   (* numeric literal z / 2^k *)
| ENeg (e : expr)                          (* -e *)
| EAdd (e1 e2 : expr)                      (* e1 + e2 *)
| ESub (e1 e2 : expr)                      (* e1 - e2 *)
| EMul (e1 e2 : expr)                      (* e1*e2, one factor a number *)
| EEinsum (spec : string) (args : list expr) (* einsum('spec', args...) *)
| ETrans (e : expr) (p : list nat)         (* e.transpose(p) *)
| ECopy (e : expr)                         (* e.copy(), e.astype(t) *)
| ETuple (es : list expr)                  (* (e1, e2, ...) *)
| EObj (fs : list (string * expr)).        (* new object with attributes *)

Inductive pat : Type :=
| PVar (x : string)
| PTup (ps : list pat).

Inductive stmt : Type :=
| SAssign (p : pat) (e : expr)             (* p = e *)
| SAugAdd (x : string) (e : expr)          (* x += e *)
| SAugSub (x : string) (e : expr)          (* x -= e *)
| SDel (x : string)                        (* del x *)
| SCall (p : option pat) (f : string) (args : list expr) (* [p =] f(args) *)
| SReturn (e : expr)                       (* return e *)
| SRaise (msg : string).                   (* raise Exception(msg) *)

(** A function: positional parameters, default values of the last ones
    (numeric literals), body. *)
Record fundef : Type := FunDef {
  fparams : list string;
  fdefaults : list (string * (Z * nat));
  fbody : list stmt
}.

Definition program := list (string * fundef).
