#!/usr/bin/env python3
"""Translate /repo/test.py (read as text, never executed) into theories/Tests.v.

Every test method is interpreted symbolically over its AST: each ndarray API call becomes a [call]
of the model (arrays are numbered by the order of the calls), each assertion becomes a check."""
import ast, math, sys

SRC = "/repo/test.py"
tree = ast.parse(open(SRC).read())
cls = [n for n in tree.body if isinstance(n, ast.ClassDef) and n.name == "Test"][0]

class Arr:
    def __init__(s, i): s.i = i
class Raises(Exception): pass

def num(x):
    if isinstance(x, bool): raise Exception("bool")
    if isinstance(x, int): return f"NInt ({x})"
    m, d = x.as_integer_ratio()
    e = d.bit_length() - 1
    while m and m % 2 == 0 and e > 0: m //= 2; e -= 1
    return f"NFlt ({m}) ({-e})"
def nest(x):
    if isinstance(x, (list, tuple)): return "Nest [" + "; ".join(nest(y) for y in x) + "]"
    return f"Leaf ({num(x)})"
def zl(x): return "[" + "; ".join(f"({y})" if y < 0 else str(y) for y in x) + "]"
def z(x): return f"({x})"
def oz(x): return "None" if x is None else f"(Some ({x}))"
BOP = {ast.Add: "BAdd", ast.Sub: "BSub", ast.Mult: "BMul", ast.Div: "BTruediv", ast.Pow: "BPow"}
PY = {ast.Add: lambda a, b: a + b, ast.Sub: lambda a, b: a - b, ast.Mult: lambda a, b: a * b,
      ast.Div: lambda a, b: a / b, ast.FloorDiv: lambda a, b: a // b, ast.Pow: lambda a, b: a ** b}

class T:
    def __init__(s): s.steps = []; s.n = 0; s.env = {}; s.err = False
    def call(s, c):
        if s.err:
            s.steps.append(f"TErr ({c})"); raise Raises()
        s.steps.append(f"TCall ({c})"); s.n += 1
        return Arr(s.n - 1)
    # -- expressions
    def ev(s, e):
        if isinstance(e, ast.Constant): return e.value
        if isinstance(e, ast.Name): return s.env[e.id]
        if isinstance(e, ast.List): return [s.ev(x) for x in e.elts]
        if isinstance(e, ast.Tuple): return tuple(s.ev(x) for x in e.elts)
        if isinstance(e, ast.UnaryOp) and isinstance(e.op, ast.USub):
            v = s.ev(e.operand)
            return s.call(f"CUnary UNeg {v.i}") if isinstance(v, Arr) else -v
        if isinstance(e, ast.BinOp):
            l = s.ev(e.left); r = s.ev(e.right)
            if isinstance(l, Arr): return s.call(f"CBinary {BOP[type(e.op)]} {l.i} {r.i}")
            return PY[type(e.op)](l, r)
        if isinstance(e, ast.ListComp):
            g = e.generators[0]; out = []
            old = dict(s.env)
            for v in s.ev(g.iter):
                s.env[g.target.id] = v; out.append(s.ev(e.elt))
            s.env = old
            return out
        if isinstance(e, ast.Attribute): return s.attr(e)
        if isinstance(e, ast.Subscript): return s.sub(e)
        if isinstance(e, ast.Call): return s.fcall(e)
        raise Exception(ast.dump(e))
    def attr(s, e):
        if isinstance(e.value, ast.Name) and e.value.id == "math": return getattr(math, e.attr)
        v = s.ev(e.value)
        if e.attr == "T": return s.call(f"CT {v.i}")
        if e.attr == "grad":
            s.steps.append(f"TGrad {v.i}"); s.n += 1
            return Arr(s.n - 1)
        if e.attr in ("shape", "strides", "offset", "ndim", "dtype"): return (e.attr, v)
        raise Exception(e.attr)
    def one(s, e):
        if isinstance(e, ast.Slice):
            f = lambda x: None if x is None else s.ev(x)
            return f"SSlice {oz(f(e.lower))} {oz(f(e.upper))} {oz(f(e.step))}"
        v = s.ev(e)
        return f"SInt ({v})" if isinstance(v, int) else "SOther"
    def sub(s, e):
        v = s.ev(e.value)
        sl = e.slice.value if isinstance(e.slice, ast.Index) else e.slice
        if isinstance(v, Arr):
            items = sl.elts if isinstance(sl, ast.Tuple) else sl.dims if type(sl).__name__ == "ExtSlice" else [sl]
            return s.call(f"CGetitem {v.i} [" + "; ".join(s.one(x) for x in items) + "]")
        if isinstance(v, tuple) and v[0] == "tolist": return ("tolist", v[1], v[2] + [s.ev(sl)])
        raise Exception("sub")
    def fcall(s, e):
        f = e.func
        a = lambda: [s.ev(x) for x in e.args]
        kw = {k.arg: k.value for k in e.keywords}
        if isinstance(f, ast.Name):
            if f.id == "range": return range(*a())
            if f.id == "float": return float(*a())
            if f.id == "len" and "kern_invoke_hist" in ast.dump(e): return ("invokes",)
            if f.id == "list": return ("hits",)
        if isinstance(f, ast.Attribute) and isinstance(f.value, ast.Name):
            if f.value.id == "math": return getattr(math, f.attr)(*a())
            if f.value.id == "ndarray":
                v = a()
                if f.attr == "array": return s.call(f"CArray ({nest(v[0])})")
                if f.attr == "arange": return s.call(f"CArange ({v[0]})")
                if f.attr == "full": return s.call(f"CFull {zl(v[0])} ({num(v[1])})")
                if f.attr == "full_like": return s.call(f"CFullLike {v[0].i} ({num(v[1])})")
                if f.attr == "ones_like": return s.call(f"COnesLike {v[0].i}")
                if f.attr == "zeros_like": return s.call(f"CZerosLike {v[0].i}")
        if isinstance(f, ast.Attribute):
            x = s.ev(f.value); m = f.attr
            v = a()
            if m == "sum":
                ax = s.ev(kw["axis"]) if "axis" in kw else None
                if isinstance(ax, int): ax = (ax,)
                kd = "true" if "keepdims" in kw and s.ev(kw["keepdims"]) else "false"
                return s.call(f"CSum {x.i} " + ("None" if ax is None else f"(Some {zl(ax)})") + f" {kd}")
            if m in ("sin", "cos", "exp", "log", "sqrt"): return s.call(f"CUnary U{m.capitalize()} {x.i}")
            if m == "transpose": return s.call(f"CTranspose {x.i} {zl(v)}")
            if m == "reshape": return s.call(f"CReshape {x.i} {zl(v)}")
            if m == "contiguous": return s.call(f"CContiguous {x.i}")
            if m == "pad": return s.call(f"CPad {x.i} {z(v[0])} {z(v[1])} {z(v[2])}")
            if m == "dilate": return s.call(f"CDilate {x.i} {z(v[0])} {z(v[1])}")
            if m == "materialize": s.steps.append(f"TMat {x.i}"); return None
            if m == "backward": s.steps.append(f"TBackward {x.i}"); return None
            if m == "tolist": return ("tolist", x, [])
            if m == "is_contiguous": return ("contig", x)
        raise Exception(ast.dump(e))
    # -- statements
    def expect(s, got, want, close):
        k = got[0]
        if k == "tolist": s.steps.append(f"{'TClose' if close else 'TList'} {got[1].i} [{'; '.join(str(i)+'%nat' for i in got[2])}] ({nest(want)})")
        elif k == "shape": s.steps.append(f"TShape {got[1].i} {zl(want)}")
        elif k == "strides": s.steps.append(f"TStrides {got[1].i} {zl(want)}")
        elif k == "offset": s.steps.append(f"TOffset {got[1].i} {z(want)}")
        elif k == "ndim": s.steps.append(f"TNdim {got[1].i} {want}")
        elif k == "dtype": s.steps.append(f"TDtype {got[1].i} {want}")
        elif k == "invokes": s.steps.append(f"TInvokes {want}")
        elif k == "hits": s.steps.append(f"THits {want}")
        else: raise Exception(k)
    def st(s, n):
        if isinstance(n, ast.Assign):
            s.env[n.targets[0].id] = s.ev(n.value); return
        if isinstance(n, ast.With):
            s.steps.append("(* assertRaises(RuntimeError) *)") if False else None
            for k in n.body:
                s.err = True
                try: s.st(k)
                except Raises: pass
                s.err = False
            return
        if isinstance(n, ast.Expr) and isinstance(n.value, ast.Call):
            c = n.value; f = c.func
            if isinstance(f, ast.Attribute) and isinstance(f.value, ast.Name) and f.value.id == "self":
                if f.attr == "assertEqual":
                    if isinstance(c.args[0], ast.Subscript) and "hitcnt" in ast.dump(c.args[0]):
                        s.steps.append(f"THits {s.ev(c.args[1])}"); return
                    if isinstance(c.args[1], ast.Name) and c.args[1].id in ("int64", "float64"):
                        s.expect(s.ev(c.args[0]), c.args[1].id.capitalize(), False); return
                    g = s.ev(c.args[0]); s.expect(g, s.ev(c.args[1]), False); return
                if f.attr == "_assert_list_close":
                    g = s.ev(c.args[0]); s.expect(g, s.ev(c.args[1]), True); return
                if f.attr == "assertIs":
                    x = s.ev(c.args[0]); y = s.ev(c.args[1]); s.steps.append(f"TSame {x.i} {y.i}"); return
                if f.attr in ("assertTrue", "assertFalse"):
                    if "context" in ast.dump(c): return          # exception message
                    g = s.ev(c.args[0]); s.steps.append(f"TContig {g[1].i} {'true' if f.attr=='assertTrue' else 'false'}"); return
            s.ev(c); return
        if isinstance(n, ast.Expr): s.ev(n.value); return
        raise Exception(ast.dump(n))

out = []
names = []
for fn in cls.body:
    if isinstance(fn, ast.FunctionDef) and fn.name.startswith("test_"):
        t = T()
        for n in fn.body: t.st(n)
        names.append((fn.name, fn.lineno, fn.end_lineno, t.steps))

# the platform's math library at the points the tests use
pts = set()
for x in (0.0, math.pi / 6, math.pi / 2): pts |= {("USin", x, math.sin(x)), ("UCos", x, math.cos(x))}
for x in (0.0, 1.0, 2.0): pts.add(("UExp", x, math.exp(x)))
for x in (1.0, 2.0, math.e, 3.0): pts.add(("ULog", x, math.log(x)))
def f64(x):
    m, d = x.as_integer_ratio(); return f"(f64_of ({m}) ({-(d.bit_length()-1)}))"
table = ";\n   ".join(f"(({u}, {f64(x)}), {f64(y)})" for u, x, y in sorted(pts))

print(f"""(* GENERATED by tools/gen_tests.py from /repo/test.py: every test method of the project, run on the
   model with both CPU backends.  Tests, not proofs: they check the model against the outputs the
   project's authors recorded. *)
From Verif Require Import Base Util Lang LangInst Spec Graph Api Tolist Runtime RtInst Backward TestsBase.
From Coq Require Import Floats.SpecFloat.

(* math.h / Python's math at the arguments that occur in the tests *)
Definition math_table : list ((uop * sf) * sf) :=
  [{table}].
Definition lm : libm := table_libm math_table.
""")
for name, a, b, steps in names:
    body = ";\n   ".join(steps)
    skipc = ""
    print(f"(* test.py:{a}-{b} *)\nDefinition {name} : list tstep :=\n  [{body}].")
    print(f"Example {name}_py : run_test (py_backend lm) py_eq py_close {name} = true. Proof. vm_compute. reflexivity. Qed.")
    print(f"Example {name}_c : run_test (c_backend lm) c_eq c_close {name} = true. Proof. vm_compute. reflexivity. Qed.\n")

print(r"""(* the runner does reject: a wrong element, a wrong shape, a call that should have failed *)
Example runner_rejects : run_test (py_backend lm) py_eq py_close
    [TCall (CArange 3); TCall (CUnary UNeg 0); TMat 1; TList 1 [] (Nest [Leaf (NInt 0); Leaf (NInt (-1)); Leaf (NInt 2)])] = false /\
  run_test (py_backend lm) py_eq py_close [TCall (CArange 3); TShape 0 [4]] = false /\
  run_test (py_backend lm) py_eq py_close [TErr (CArange 3)] = false /\
  run_test (py_backend lm) py_eq py_close [TCall (CArange 3); TCall (CUnary UNeg 0); TList 1 [] (Nest [Leaf (NInt 0); Leaf (NInt (-1)); Leaf (NInt (-2))])] = false.
Proof. vm_compute. auto. Qed.
""", end="")
