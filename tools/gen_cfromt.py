"""Translate the loops of gmakeCfromT and makeCfromT (cqcpy/ci_utils.py) to Gallina.

usage: gen_cfromt.py /repo/cqcpy/ci_utils.py > theories/CICfromT.v
Every loop nest becomes one definition, statement by statement; the frame of
the two functions (basis, reference, order of the nests) is written below by hand.
"""
import ast, sys
src = open(sys.argv[1]).read()
tree = ast.parse(src)
fns = {f.name: f for f in tree.body if isinstance(f, ast.FunctionDef)}

def expr(e):                       # integer expressions
    if isinstance(e, ast.Name): return e.id
    if isinstance(e, ast.Constant): return str(e.value)
    if isinstance(e, ast.BinOp) and isinstance(e.op, ast.Add):
        return f'({expr(e.left)} + {expr(e.right)})%nat'
    raise SystemExit('int ' + ast.dump(e))

def tensors(e, acc):               # tensor reads, in order of evaluation
    if isinstance(e, ast.BinOp):
        tensors(e.left, acc); tensors(e.right, acc)
    elif isinstance(e, ast.Subscript):
        idx = [expr(x) for x in e.slice.elts]
        acc.append((e.value.id, idx))

def scal(e, env):                  # the added value; env: reads in order
    if isinstance(e, ast.BinOp) and isinstance(e.op, ast.Mult):
        return f'{scal(e.left, env)} * {scal(e.right, env)}'
    if isinstance(e, ast.BinOp) and isinstance(e.op, ast.Div):
        return f'({scal(e.left, env)}) * inv {int(e.right.value)}'
    if isinstance(e, ast.Name): return f'zK {e.id}'
    if isinstance(e, ast.Constant):
        assert e.value == 0.5
        return 'inv 2'
    if isinstance(e, ast.Subscript): return env.pop(0)
    raise SystemExit('scal ' + ast.dump(e))

def isnone(t):
    return (isinstance(t, ast.Compare) and isinstance(t.ops[0], (ast.Is, ast.IsNot))
            and isinstance(t.comparators[0], ast.Constant) and t.comparators[0].value is None)

class Nest:
    def __init__(self): self.reads = []
    def body(self, stmts, ind, null):
        """null: variable -> name of the pending result of excite"""
        pad = '  ' * ind
        if not stmts: return pad + 'Some C'
        s, rest = stmts[0], stmts[1:]
        if isinstance(s, ast.For):
            assert not rest
            it = s.iter
            if it.func.id == 'range':
                a = [expr(x) for x in it.args]
                rng = f'(range 0 {a[0]})' if len(a) == 1 else f'(range {a[0]} {a[1]})'
                pat = s.target.id
            else:
                rng = f'(enumerate {it.args[0].id})'
                pat = "'(" + ', '.join(x.id for x in s.target.elts) + ')'
            return f'{pad}each {rng} (fun {pat} C =>\n' + self.body(s.body, ind + 1, null) + ') C'
        if isinstance(s, ast.If):
            t = s.test
            if isinstance(t, ast.Compare) and isinstance(t.ops[0], ast.LtE):
                assert isinstance(s.body[0], ast.Continue)
                return (f'{pad}if Nat.leb {t.left.id} {t.comparators[0].id} then Some C else\n'
                        + self.body(rest, ind, null))
            tests = t.values if isinstance(t, ast.BoolOp) else [t]
            assert all(isnone(x) for x in tests)
            vs = [x.left.id for x in tests if x.left.id in null]
            if isinstance(tests[0].ops[0], ast.Is):
                assert len(vs) == 1 and isinstance(s.body[0], ast.Continue)
                sv, r = null[vs[0]]
                n2 = {k: v for k, v in null.items() if k != vs[0]}
                return (f'{pad}match {r} with None => Some C | Some ({sv}, {vs[0]}) =>\n'
                        + self.body(rest, ind, n2) + ' end')
            assert not rest
            out, n2, ends = '', dict(null), ''
            for v in vs:
                sv, r = n2.pop(v)
                out += f'{pad}match {r} with None => Some C | Some ({sv}, {v}) =>\n'
                ends += ' end'
            return out + self.body(s.body, ind, n2) + ends
        if isinstance(s, ast.Assign) and isinstance(s.targets[0], ast.Tuple):
            sv, dv = [x.id for x in s.targets[0].elts]
            c = s.value
            assert c.func.attr == 'excite'
            obj = c.func.value.id
            assert obj not in null
            r = 'r_' + dv
            n2 = dict(null); n2[dv] = (sv, r)
            return (f'{pad}let? {r} := excite {obj} {expr(c.args[0])} {expr(c.args[1])} in\n'
                    + self.body(rest, ind, n2))
        if isinstance(s, ast.Assign):
            assert s.targets[0].id == 'idx' and s.value.func.attr == 'index'
            a = s.value.args[0]
            if isinstance(a, ast.Tuple):
                key, eq = '(' + ', '.join(x.id for x in a.elts) + ')', 'upair_eq'
                assert not any(x.id in null for x in a.elts)
            else:
                key, eq = a.id, 'dstring_eq'
                assert a.id not in null
            return f'{pad}let? idx := index {eq} {key} basis in\n' + self.body(rest, ind, null)
        if isinstance(s, ast.AugAssign):
            assert isinstance(s.op, ast.Add) and not rest
            acc = []
            tensors(s.value, acc)
            self.reads = [t for t, _ in acc]
            out = ''
            for k, (t, idx) in enumerate(acc):
                out += f'{pad}let? x{k} := tget K {t} [{"; ".join(idx)}] in\n'
            self.val = scal(s.value, [f'x{k}' for k in range(len(acc))])
            return out + f'{pad}add_at K C idx ({self.val})'
        raise SystemExit('stmt ' + ast.dump(s))

def nests(fn, prefix):
    res = []
    def go(stmts, order):
        for s in stmts:
            if isinstance(s, ast.For):
                n = Nest(); text = n.body([s], 2, {})
                name = prefix + '_'.join(n.reads)
                res.append((order, name, s.lineno, s.end_lineno, text, n))
            elif isinstance(s, ast.If) and isinstance(s.test, ast.Compare) and isinstance(s.test.ops[0], ast.GtE):
                if s.body and isinstance(s.body[0], ast.For):
                    go(s.body, s.test.comparators[0].value)
    go(fn.body, 1)
    return res

U = nests(fns['makeCfromT'], 'u_')
G = nests(fns['gmakeCfromT'], 'g_')
if len(sys.argv) > 2:
    for o, n, *_ , x in U + G: print(o, n, x.val)
    sys.exit()

def defs(L):
    out = ''
    for o, name, l0, l1, text, n in L:
        out += f'  (** ci_utils.py:{l0}-{l1} *)\n  Definition {name} (C : list K) : option (list K) :=\n{text}.\n\n'
    return out
def calls(L, o, pad):
    return ''.join(f'{pad}let? C := {n} C in\n' for oo, n, *_ in L if oo == o)
def frame(L, args, pad='      '):
    out = ''
    for o in (1, 2, 3, 4):
        cs = [n for oo, n, *_ in L if oo == o]
        if o == 1:
            out += ''.join(f'{pad}let? C := {n}_ C in\n' for n in cs)
        else:
            out += f'{pad}let? C := if Z.leb {o} order then\n' + ''.join(f'{pad}  let? C := {n}_ C in\n' for n in cs) + f'{pad}  Some C else Some C in\n'
    return out.replace('_ C', ' ' + args + ' C')

print(f'''(** gmakeCfromT and makeCfromT, ci_utils.py:418-597 and 600-1269.  Generated by
    tools/gen_cfromt.py from the Python text: every loop nest is one definition,
    statement by statement.

    - [None] is an exception (failed assertion, [raise], missing element of a
      list in [index], bad index of an array).
    - [s, x = d.excite(i, a)] gives a result [r_x]; testing [x is None] is a
      match on it.  A test of a variable already known not to be None is left
      out.
    - [x/d] is [x * inv d], 0.5 is [inv 2]: [inv d] stands for the inverse of the
      number d.
    - C is the list of the entries of the array C; the float zeros of numpy mean
      that only real amplitudes are modelled. *)
From Coq Require Import List Bool Arith ZArith.
From Verif Require Import Scalar Tensor NpModel CIModel.
Import ListNotations.

(** [range(lo, hi)] and [enumerate(l)] *)
Definition range (lo hi : nat) : list nat := seq lo (hi - lo).
Definition enumerate {{A}} (l : list A) : list (nat * A) := combine (seq 0 (length l)) l.
(** [for x in l: ...] updating C *)
Fixpoint each {{S A}} (l : list A) (body : A -> S -> option S) (C : S) : option S :=
  match l with
  | [] => Some C
  | x :: l' => let? C := body x C in each l' body C
  end.

Section U.
  Variable K : cring.
  Local Open Scope K_scope.
  Variable inv : nat -> K.
  Variables (noa nva nob nvb : nat) (basis : list upair) (refa refb : dstring).
  Variables T1a T1b T2aa T2ab T2bb : tensor K.

{defs(U)}End U.

Section G.
  Variable K : cring.
  Local Open Scope K_scope.
  Variable inv : nat -> K.
  Variables (iocc ivir : list nat) (basis : list dstring) (ref : dstring).
  Variables T1 T2 : tensor K.

{defs(G)}End G.
''')
import re
args = {}
def used(text, vs): return [v for v in vs if re.search(r'\b' + v + r'\b', text)]
UV = 'noa nva nob nvb basis refa refb T1a T1b T2aa T2ab T2bb'.split()
GV = 'iocc ivir basis ref T1 T2'.split()
def fr(L, V):
    out = ''
    for o in (1, 2, 3, 4):
        body = ''.join(f'        let? C := {n} K inv {" ".join(used(t, V))} C in\n' for oo, n, _, _, t, _ in L if oo == o)
        if o > 1: out += f'      let? C := if Z.leb {o} order then\n' + body + '        Some C else Some C in\n'
        else: out += body
    return out
def inv_used(L): return [n for _, n, _, _, t, _ in L if 'inv' not in t]
text = f'''Section Make.
  Variable K : cring.
  Local Open Scope K_scope.
  Variable inv : nat -> K.

  (** [C = numpy.zeros(nd); C[0] = 1.0] *)
  Definition start (nd : nat) : option (list K) :=
    match nd with O => None | S _ => Some (upd 0 1 (zeros K nd)) end.

  (** gmakeCfromT, ci_utils.py:418-597 *)
  Definition gmakeCfromT (no nv : nat) (T1 T2 : tensor K) (order : Z) (occ : option (list Z))
    : option (list K) :=
    let nmo := (no + nv)%nat in
    if Z.ltb order 1 then None else
    let? basis :=
      if Z.eqb order 1 then gcis_basis nmo no true
      else if Z.eqb order 2 then gcisd_basis nmo no
      else if Z.eqb order 3 then gcisdt_basis nmo no
      else if Z.eqb order 4 then gcisdtq_basis nmo no
      else None in
    let occ := match occ with Some o => o | None => default_occ (Nat.div nmo 2) no end in
    let vir := virt occ in
    let iocc := indices_pos occ in
    let ivir := indices_pos vir in
    let? ref := Dstring nmo occ in
    let? C := start (length basis) in
{fr(G, GV)}    Some C.

  (** makeCfromT, ci_utils.py:600-1269 *)
  Definition makeCfromT (noa nva nob nvb : nat) (T1a T1b T2aa T2ab T2bb : tensor K) (order : Z)
    : option (list K) :=
    let na := (noa + nva)%nat in
    let nb := (nob + nvb)%nat in
    if negb (Nat.eqb na nb) then None else
    if Z.ltb order 1 then None else
    let? basis :=
      if Z.eqb order 1 then ucis_basis na noa nob true
      else if Z.eqb order 2 then ucisd_basis na noa nob
      else if Z.eqb order 3 then ucisdt_basis na noa nob
      else if Z.eqb order 4 then ucisdtq_basis na noa nob
      else None in
    let? refa := Dstring na (default_occ na noa) in
    let? refb := Dstring nb (default_occ nb nob) in
    let? C := start (length basis) in
{fr(U, UV)}    if Z.leb 5 order then None else
    Some C.
End Make.
'''
for n in inv_used(U) + inv_used(G):
    text = text.replace(f'{n} K inv ', f'{n} K ')
print(text)
