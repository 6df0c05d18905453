# Generates rocq/theories/Gen_package.v from thermo/chemical_package.py: the property and correlation names, and the tables of what
# the two constructors assign, default and build, read off the source text.
import ast
SRC = '/repo/thermo/chemical_package.py'
tree = ast.parse(open(SRC).read())
cls = {n.name: n for n in tree.body if isinstance(n, ast.ClassDef)}
CC, PC = cls['ChemicalConstantsPackage'], cls['PropertyCorrelationsPackage']

def class_tuple(c, name):
    for n in c.body:
        if isinstance(n, ast.Assign) and n.targets[0].id == name:
            return [e.value for e in n.value.elts], n
def method(c, name):
    return next(n for n in c.body if isinstance(n, ast.FunctionDef) and n.name == name)
def lines(n): return 'lines %d-%d' % (n.lineno, n.end_lineno)
out = []
def w(s=''): out.append(s)
def inductive(name, ctors):
    w('Inductive %s : Set :=' % name)
    row = ''
    for c in ctors:
        if len(row) > 150: w(' ' + row); row = ''
        row += ' | ' + c
    w(' ' + row + '.')
def wrap(items, sep='; '):
    rows, row = [], ''
    for i, x in enumerate(items):
        row += x + (sep if i < len(items) - 1 else '')
        if len(row) > 150: rows.append(row); row = ''
    if row: rows.append(row)
    return '\n   '.join(rows)

w('(* Generated by tools/spec_package.py from thermo/chemical_package.py: names and constructor tables of the two packages. *)')
w('From Coq Require Import List String.')
w('Import ListNotations.')
w('Local Open Scope string_scope.')
w()
nv, nvn = class_tuple(CC, 'non_vector_properties')
init = method(CC, '__init__')
params = [a.arg for a in init.args.args if a.arg != 'self']
assign, default = {}, []
for n in ast.walk(init):
    if isinstance(n, ast.Assign) and isinstance(n.targets[0], ast.Attribute) and isinstance(n.value, ast.Name) and n.value.id in params:
        assign[n.targets[0].attr] = n.value.id
    if isinstance(n, ast.If) and isinstance(n.test, ast.Compare) and isinstance(n.test.ops[0], ast.Is) and isinstance(n.test.left, ast.Name):
        b = n.body[0]
        assert isinstance(b, ast.Assign) and b.value.id == 'empty_list'
        default.append((n.test.left.id, b.targets[0].id))
props = ['atom_fractions'] + nv
assert set(params) == set(props) and set(assign) == set(props), (set(params) ^ set(props), set(assign) ^ set(props))
assert all(a == b for a, b in default)
w('(* thermo/chemical_package.py, %s: the keyword parameters of ChemicalConstantsPackage.__init__, which are also its attributes *)' % lines(init).replace(str(init.end_lineno), str(init.body[0].lineno - 1)))
inductive('prop', params)
w('(* %s: non_vector_properties *)' % lines(nvn))
w('Definition non_vector_properties : list prop :=\n  [%s].' % wrap(nv))
pn = next(n for n in CC.body if isinstance(n, ast.Assign) and n.targets[0].id == 'properties')
w('(* line %d: properties *)' % pn.lineno)
w('Definition properties : list prop := atom_fractions :: non_vector_properties.')
w("(* lines 1082-1176: the parameters that 'if X is None: X = empty_list' fills in *)")
w('Definition defaulted : list prop :=\n  [%s].' % wrap([a for a, _ in default]))
w('(* lines 1177-1266: self.X = Y, as a table from attribute X to parameter Y *)')
w('Definition assigned (x : prop) : prop :=\n  match x with')
row = ' '
for x in params:
    if len(row) > 150: w(row); row = ' '
    row += ' | %s => %s' % (x, assign[x])
w(row + '\n  end.')
w()
pure, pn = class_tuple(PC, 'pure_correlations')
mix, mn = class_tuple(PC, 'mixture_correlations')
inductive('corr', pure)
inductive('mixture', mix)
w('(* %s, %s: pure_correlations and mixture_correlations *)' % (lines(pn), lines(mn)))
w('Definition pure_correlations : list corr :=\n  [%s].' % wrap(pure))
w('Definition mixture_correlations : list mixture :=\n  [%s].' % wrap(mix))
pinit = method(PC, '__init__')
pparams = [a.arg for a in pinit.args.args]
w()
w('(* what a keyword argument of a property object is taken from: constants.X[i] (or the whole constants.X), correlation X[i] (or X), None,')
w('   or the user database looked up with the CAS number of the component *)')
w('Inductive source : Set := From_constants (p : prop) | From_correlation (c : corr) | From_nothing | From_user_database (cls : string).')
def src(v):
    if isinstance(v, ast.Constant) and v.value is None: return 'From_nothing'
    t = ast.unparse(v)
    if t.endswith('[i]'): t = t[:-3]
    if t.startswith('constants.'): assert t[10:] in props, t; return 'From_constants %s' % t[10:]
    if t in pure: return 'From_correlation %s' % t
    raise Exception(t)
steps, msteps, passign, massign = [], [], {}, {}
for n in pinit.body:
    if isinstance(n, ast.If):
        t = ast.unparse(n.test); name = t.split(' ')[0]
        assert t == '%s is None and (not skip_missing)' % name, t
        b = n.body[0]; assert b.targets[0].id == name
        if name in pure:
            assert ast.unparse(b.value.generators[0]) .strip() == 'for i in cmps'
            call = b.value.elt
            for a in ast.walk(call):
                if isinstance(a, ast.Subscript): assert ast.unparse(a.slice) == 'i'
        else: call = b.value
        args = []
        for k in call.keywords:
            if k.arg is None:
                assert ast.unparse(k.value).startswith('user_chemical_property_lookup(constants.CASs[i], ')
                args.append('("**", From_user_database "%s")' % k.value.args[1].value)
            else: args.append('("%s", %s)' % (k.arg, src(k.value)))
        (steps if name in pure else msteps).append((name, args, n, call.func.id))
    elif isinstance(n, ast.Assign) and isinstance(n.targets[0], ast.Attribute) and n.targets[0].attr not in ('constants', 'skip_missing'):
        (passign if n.targets[0].attr in pure else massign)[n.targets[0].attr] = n.value.id
w('(* %s: the objects PropertyCorrelationsPackage.__init__ builds for each component, in the order it builds them *)' % lines(pinit))
w('Definition build_steps : list (corr * (string * list (string * source))) :=\n  [')
for k, (name, args, n, f) in enumerate(steps):
    w('   (* %s *) (%s, ("%s", [%s]))%s' % (lines(n), name, f, wrap(args), ';' if k < len(steps) - 1 else '].'))
w('(* the mixture objects, given by the parameter XObj *)')
w('Definition mixture_steps : list (mixture * (string * list (string * source))) :=\n  [')
for k, (name, args, n, f) in enumerate(msteps):
    assert name.endswith('Obj')
    w('   (* %s *) (%s, ("%s", [%s]))%s' % (lines(n), name[:-3], f, wrap(args), ';' if k < len(msteps) - 1 else '].'))
assert set(passign) == set(pure) and set(massign) == set(mix)
w('(* self.X = Y *)')
w('Definition corr_assigned (x : corr) : corr :=\n  match x with\n  %s\n  end.' % wrap(['| %s => %s' % (x, passign[x]) for x in pure], ' '))
w('Definition mixture_assigned (x : mixture) : mixture :=\n  match x with\n  %s\n  end.' % wrap(['| %s => %s' % (x, massign[x][:-3]) for x in mix], ' '))
open('/verif/rocq/theories/Gen_package.v', 'w').write('\n'.join(out) + '\n')
