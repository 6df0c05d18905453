#!/usr/bin/env python3
"""Writes rocq/theories/Gen_ceos.v: the properties of CEOSGas and CEOSLiquid (thermo/phases/ceos.py) which read one root of the
equation of state and fall back to the other. Each is taken from the syntax tree: the expression tried first, the one tried in the
handler and whether the handler is bare. A method of another form stops the generator unless it is listed in SKIP."""
import ast, os, sys
SKIP = {'phase', 'phi_pures'}
REPO = '/repo/thermo/phases/ceos.py'
def expr(e):
    s = ast.unparse(e).replace('self.eos_mix', 'eos_mix')
    if isinstance(e, ast.Attribute) and s == 'eos_mix.' + e.attr:
        return f'(Attr "{e.attr}")'
    if isinstance(e, ast.Call) and len(e.args) == 1 and not e.keywords and isinstance(e.func, ast.Attribute):
        a = e.args[0]
        if isinstance(a, ast.Attribute) and ast.unparse(a).replace('self.eos_mix', 'eos_mix') == 'eos_mix.' + a.attr:
            return f'(CallZ "{e.func.attr}" "{a.attr}")'
        if isinstance(a, ast.Constant) and isinstance(a.value, str):
            return f'(CallPhase "{e.func.attr}" "{a.value}")'
    sys.exit('cannot translate ' + s)
def method(f):
    b = f.body
    if isinstance(b[0], ast.Expr) and isinstance(b[0].value, ast.Constant): b = b[1:]
    if ast.unparse(b[0]) == 'eos_mix = self.eos_mix': b = b[1:]
    t = b[0]
    if not isinstance(t, ast.Try) or len(t.handlers) != 1 or t.orelse or t.finalbody: sys.exit('cannot translate ' + f.name)
    x, y = t.body[0], t.handlers[0].body[0]
    assert len(t.body) == 1 and len(t.handlers[0].body) == 1
    if isinstance(x, ast.Return): assert isinstance(y, ast.Return) and len(b) == 1
    else:
        assert isinstance(x, ast.Assign) and isinstance(y, ast.Assign) and len(b) == 2 and isinstance(b[1], ast.Return)
        assert ast.unparse(x.targets[0]) == ast.unparse(y.targets[0]) == ast.unparse(b[1].value)
    h = t.handlers[0].type
    assert h is None or ast.unparse(h) == 'AttributeError'
    return f'  (* {f.lineno}-{f.end_lineno} *) ("{f.name}", Try {expr(x.value)} {expr(y.value)} {"true" if h is None else "false"})'
def table(c, skip=SKIP):
    ms, al = [], []
    for f in c.body:
        if isinstance(f, ast.FunctionDef) and f.name not in skip: ms.append(method(f))
        elif isinstance(f, ast.Assign) and isinstance(f.value, ast.Name) and f.value.id not in ('True', 'False'):
            al.append(f'  (* {f.lineno} *) ("{f.targets[0].id}", "{f.value.id}")')
    return ms, al
t = {c.name: c for c in ast.parse(open(REPO).read()).body if isinstance(c, ast.ClassDef)}
out = ['(* Generated by tools/gen_ceos.py from thermo/phases/ceos.py: the methods of CEOSGas and CEOSLiquid which read a root of the',
       '   equation of state. Line numbers of each method are given. phase and phi_pures are not in the tables. *)',
       'From Coq Require Import String List.', 'Import ListNotations.', 'Open Scope string_scope.', '',
       '(* what is read from eos_mix: an attribute, a method called with a compressibility factor, a method called with a phase *)',
       'Inductive source := Attr (name : string) | CallZ (method z : string) | CallPhase (method phase : string).',
       '(* try: return first; except: return second. The last argument is true when the handler is bare, false when it is AttributeError *)',
       'Inductive body := Try (first second : source) (bare : bool).', '']
for nm in ('CEOSGas', 'CEOSLiquid'):
    c = t[nm]; ms, al = table(c)
    out += [f'(* thermo/phases/ceos.py, lines {c.lineno}-{c.end_lineno}: class {nm} *)', f'Definition {nm}_methods : list (string * body) := [',
            ';\n'.join(ms), '].', f'(* thermo/phases/ceos.py, lines {c.lineno}-{c.end_lineno}: other names for the same methods *)',
            f'Definition {nm}_aliases : list (string * string) := [', ';\n'.join(al), '].', '']
open(os.path.join(os.path.dirname(__file__), '..', 'rocq', 'theories', 'Gen_ceos.v'), 'w').write('\n'.join(out))
