#!/usr/bin/env python3
"""Translate cqcpy/cc_energy.py and cqcpy/cc_equations.py into the Python
syntax of rocq/theories/PySyntax.v.

Usage: py2coq.py <repo> <out.v>

Purely syntactic: one Coq definition per Python function, same statement
order, same variable names, einsum strings verbatim.  Anything outside the
supported fragment aborts the translation.  Two checks support modelling
decisions: a variable bound to a bare transpose (a NumPy view) is never the
target of an augmented assignment, and numeric literals are dyadic.
"""
import ast
import sys
from fractions import Fraction

FILES = ["cqcpy/cc_energy.py", "cqcpy/cc_equations.py"]


class Unsupported(Exception):
    pass


def q(s):
    return '"%s"' % s


def num(v):
    f = Fraction(v)  # exact value of the literal
    k = 0
    while f.denominator != 1:
        f *= 2
        k += 1
        if k > 60:
            raise Unsupported("non dyadic literal %r" % v)
    return "(ENum (%d) %d)" % (f.numerator, k)


def name_of(e):
    """x or self.x as a single variable name"""
    if isinstance(e, ast.Name):
        return e.id
    if isinstance(e, ast.Attribute) and isinstance(e.value, ast.Name) and e.value.id == "self":
        return "self." + e.attr
    return None


def is_einsum(f):
    return (isinstance(f, ast.Name) and f.id == "einsum") or (
        isinstance(f, ast.Attribute) and f.attr == "einsum")


def perm_of(args):
    if len(args) == 1 and isinstance(args[0], ast.Tuple):
        args = args[0].elts
    return "[" + "; ".join(str(int(a.value)) for a in args) + "]"


def expr(e):
    n = name_of(e)
    if n is not None:
        return "(EVar %s)" % q(n)
    if isinstance(e, ast.Attribute):
        return "(EAttr %s %s)" % (expr(e.value), q(e.attr))
    if isinstance(e, ast.Constant) and isinstance(e.value, (int, float)) and not isinstance(e.value, bool):
        return num(e.value)
    if isinstance(e, ast.UnaryOp) and isinstance(e.op, ast.USub):
        return "(ENeg %s)" % expr(e.operand)
    if isinstance(e, ast.BinOp):
        op = {ast.Add: "EAdd", ast.Sub: "ESub", ast.Mult: "EMul"}.get(type(e.op))
        if op is None:
            raise Unsupported(ast.dump(e))
        return "(%s %s %s)" % (op, expr(e.left), expr(e.right))
    if isinstance(e, ast.Tuple):
        return "(ETuple [%s])" % "; ".join(expr(x) for x in e.elts)
    if isinstance(e, ast.Call):
        f = e.func
        if is_einsum(f):
            if e.keywords or not isinstance(e.args[0], ast.Constant):
                raise Unsupported(ast.dump(e))
            spec = e.args[0].value
            if "->" not in spec or not all(c.isalpha() or c in ",->" for c in spec):
                raise Unsupported("einsum spec " + spec)
            return "(EEinsum %s [%s])" % (q(spec), "; ".join(expr(a) for a in e.args[1:]))
        if isinstance(f, ast.Attribute) and f.attr == "transpose":
            return "(ETrans %s %s)" % (expr(f.value), perm_of(e.args))
        if isinstance(f, ast.Attribute) and f.attr == "copy" and not e.args:
            return "(ECopy %s)" % expr(f.value)
        if isinstance(f, ast.Attribute) and f.attr == "astype" and len(e.args) == 1:
            return "(ECopy %s)" % expr(f.value)
    raise Unsupported(ast.dump(e))


def pattern(t):
    n = name_of(t)
    if n is not None:
        return "(PVar %s)" % q(n)
    if isinstance(t, ast.Tuple):
        return "(PTup [%s])" % "; ".join(pattern(x) for x in t.elts)
    raise Unsupported(ast.dump(t))


def is_plain_call(e):
    return (isinstance(e, ast.Call) and isinstance(e.func, ast.Name)
            and not is_einsum(e.func) and not e.keywords)


def is_view(e):
    return (isinstance(e, ast.Call) and isinstance(e.func, ast.Attribute)
            and e.func.attr == "transpose")


def is_dtype(s):
    """dtype = X.dtype: no effect on exact values, dropped together with its
    only use, .astype(dtype)"""
    return (isinstance(s, ast.Assign) and isinstance(s.value, ast.Attribute)
            and s.value.attr == "dtype" and name_of(s.targets[0]) is not None)


def stmts(body):
    out = []
    views = set()
    for s in body:
        if isinstance(s, ast.Expr) and isinstance(s.value, ast.Constant):
            continue  # docstring
        if is_dtype(s):
            continue
        if isinstance(s, ast.Assign):
            if len(s.targets) != 1:
                raise Unsupported(ast.dump(s))
            t = s.targets[0]
            n = name_of(t)
            if n is not None:
                src = name_of(s.value)
                if is_view(s.value) or src in views:
                    views.add(n)
                else:
                    views.discard(n)
            if is_plain_call(s.value):
                out.append("SCall (Some %s) %s [%s]" % (
                    pattern(t), q(s.value.func.id), "; ".join(expr(a) for a in s.value.args)))
            else:
                out.append("SAssign %s %s" % (pattern(t), expr(s.value)))
        elif isinstance(s, ast.AugAssign):
            n = name_of(s.target)
            if n is None or n in views:
                raise Unsupported("augmented assignment to a view: " + ast.dump(s))
            c = {ast.Add: "SAugAdd", ast.Sub: "SAugSub"}[type(s.op)]
            out.append("%s %s %s" % (c, q(n), expr(s.value)))
        elif isinstance(s, ast.Delete):
            for t in s.targets:
                out.append("SDel %s" % q(name_of(t)))
        elif isinstance(s, ast.Expr) and is_plain_call(s.value):
            out.append("SCall None %s [%s]" % (
                q(s.value.func.id), "; ".join(expr(a) for a in s.value.args)))
        elif isinstance(s, ast.Return):
            out.append("SReturn %s" % expr(s.value))
        elif isinstance(s, ast.Raise):
            out.append("SRaise %s" % q(s.exc.args[0].value))
        else:
            raise Unsupported(ast.dump(s))
    return out


def function(fd, path, cname, pyname, init=False):
    params = [a.arg for a in fd.args.args]
    if init:
        assert params[0] == "self"
        params = params[1:]
    nd = len(fd.args.defaults)
    defs = []
    for p, d in zip(params[len(params) - nd:], fd.args.defaults):
        defs.append("(%s, (%s, %d%%nat))" % (q(p), *lit(d.value)))
    body = stmts(fd.body)
    if init:
        attrs = []
        for s in ast.walk(fd):
            if isinstance(s, ast.Assign):
                n = name_of(s.targets[0])
                if n and n.startswith("self.") and n not in attrs:
                    attrs.append(n)
        body.append("SReturn (EObj [%s])" % "; ".join(
            "(%s, EVar %s)" % (q(a[5:]), q(a)) for a in attrs))
    lines = ["(** %s, lines %d-%d *)" % (path, fd.lineno, fd.end_lineno),
             "Definition %s : fundef :=" % cname,
             "  FunDef [%s] [%s]" % ("; ".join(q(p) for p in params), "; ".join(defs)),
             "  [ " + ";\n    ".join(body) + " ]."]
    return "\n".join(lines)


def lit(v):
    f = Fraction(v)
    k = 0
    while f.denominator != 1:
        f *= 2
        k += 1
    return "(%d)%%Z" % f.numerator, k


def cident(n):
    return "py_" + n


def main():
    repo, out = sys.argv[1], sys.argv[2]
    chunks = []
    table = []
    for path in FILES:
        tree = ast.parse(open(repo + "/" + path).read())
        for node in tree.body:
            if isinstance(node, ast.FunctionDef):
                chunks.append(function(node, path, cident(node.name), node.name))
                table.append((node.name, cident(node.name)))
            elif isinstance(node, ast.ClassDef):
                (init,) = [m for m in node.body]
                chunks.append(function(init, path, cident(node.name), node.name, init=True))
                table.append((node.name, cident(node.name)))
            elif isinstance(node, ast.Assign) and isinstance(node.value, ast.Name):
                # alias at module level: f_opt = f
                t = node.targets[0].id
                chunks.append("(** %s, line %d: alias *)\nDefinition %s : fundef := %s." % (
                    path, node.lineno, cident(t), cident(node.value.id)))
                table.append((t, cident(t)))
            elif isinstance(node, (ast.Import, ast.Try)):
                continue  # einsum = pyscf lib.einsum or numpy.einsum
            else:
                raise Unsupported(ast.dump(node))
    with open(out, "w") as f:
        f.write("(** Generated by tools/py2coq.py from cqcpy/cc_energy.py and\n"
                "    cqcpy/cc_equations.py; do not edit.  One definition per Python function,\n"
                "    statement by statement.  [self.x] in the constructor of lambda_int is a\n"
                "    variable of that name and the constructor returns the object.  dtype\n"
                "    conversions are copies. *)\n"
                "From Coq Require Import List String ZArith.\n"
                "From Verif Require Import PySyntax.\n"
                "Import ListNotations.\nLocal Open Scope string_scope.\n\n")
        f.write("\n\n".join(chunks))
        f.write("\n\n(** All functions by their Python names. *)\nDefinition cc_prog : program :=\n  [ ")
        f.write(";\n    ".join("(%s, %s)" % (q(a), b) for a, b in table))
        f.write(" ].\n")
    print(len(table), "functions")


main()
