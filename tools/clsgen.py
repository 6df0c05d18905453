"""Methods of a class whose results are cached in attributes (self._x): the cache look-ups are removed, `self.m()` becomes a call of
the generated definition of m with the same attributes, and the list (not numpy) branches are kept."""
from py2v import *
import py2v, copy
def is_self(e, pre=''):
    return isinstance(e, ast.Attribute) and isinstance(e.value, ast.Name) and e.value.id == 'self' and e.attr.startswith(pre)
class Calls(ast.NodeTransformer):
    def __init__(self, cls, meths): self.cls, self.meths = cls, meths
    def visit_Call(self, n):
        self.generic_visit(n)
        if is_self(n.func) and n.func.attr in self.meths and not n.args and not n.keywords:
            return ast.copy_location(ast.Call(func=ast.Name(id='SELF_' + n.func.attr, ctx=ast.Load()), args=[], keywords=[]), n)
        return n
def flat(body):
    """list branches of the tests on self.vectorized"""
    out = []
    for s in body:
        if isinstance(s, ast.Expr) and isinstance(s.value, ast.Constant): continue
        if isinstance(s, ast.If):
            t = ast.unparse(s.test)
            if t in ('not self.vectorized', 'not vectorized'): out += flat(s.body); continue
            if t in ('self.vectorized', 'vectorized'): out += flat(s.orelse); continue
            s.body = flat(s.body); s.orelse = flat(s.orelse)
        out.append(s)
    return out
def clean(body, cached, linked=()):
    out = []
    for i, s in enumerate(body):
        if isinstance(s, ast.Try):
            b = s.body
            if len(b) == 1 and isinstance(b[0], ast.Return) and is_self(b[0].value, '_'):
                hb = s.handlers[0].body
                if len(hb) == 1 and isinstance(hb[0], ast.Pass): continue
                out += clean(flat(hb), cached, linked); continue
            if all(isinstance(q, ast.Assign) and is_self(q.value, '_') for q in b):
                out += clean(flat(s.handlers[0].body), cached, linked); continue
            if len(b) == 1 and isinstance(b[0], ast.Assign) and isinstance(b[0].value, ast.Tuple):
                out += clean(flat(s.handlers[0].body), cached, linked); continue
        if isinstance(s, ast.If):
            s.body = clean(s.body, cached, linked); s.orelse = clean(s.orelse, cached, linked)
        if isinstance(s, ast.Assign) and len(s.targets) == 1 and ast.unparse(s.targets[0]) in ('vectorized',) : continue
        if isinstance(s, ast.Assign) and any(is_self(t, '_') for t in s.targets):
            me = next(t for t in s.targets if is_self(t, '_'))
            others = [t for t in s.targets if not is_self(t, '_')]
            v = s.value
            if not others and isinstance(v, ast.Call) and isinstance(v.func, ast.Name) and v.func.id in linked and v.args and isinstance(v.args[-1], ast.Name) and not v.keywords and v.args[-1].id not in ('N', 'T', 'xs'):
                others = [ast.Name(id=v.args[-1].id, ctx=ast.Store())]     # f(..., buf) fills buf and returns it
            if isinstance(v, ast.Name) and not others: cached[me.attr] = v; continue
            if not others: others = [ast.Name(id='L' + me.attr, ctx=ast.Store())]
            cached[me.attr] = ast.Name(id=others[0].id, ctx=ast.Load())
            s = ast.copy_location(ast.Assign(targets=others, value=v), s)
        if isinstance(s, ast.Return) and is_self(s.value, '_') and s.value.attr in cached:
            out.append(ast.copy_location(ast.Return(value=cached[s.value.attr]), s)); return out
        out.append(s)
        if isinstance(s, ast.Return): return out
    return out
class Klass:
    def __init__(self, fname, cls, types, links, consts=None, pre=None, bases=(), static=None, order=None):
        self.order = order
        self.fname, self.cls, self.types, self.links, self.consts, self.static = fname, cls, types, links, consts or {}, static or {}
        self.pre = pre or cls + '_'; self.done = {}; self.bases = bases
    def selfcall(self, m):
        def go(tr, e, env, stmt=False):
            name, ps, r = self.done[m]
            if isinstance(r, set): r, = r
            args = []
            for pn, ty in ps: args.append(tr.param(pn, ty).s)
            return Val('(%s)' % ' '.join([name] + args), r)
        return go
    def gen(self, m, name=None, qual=None, fname=None, body=None, extra=None, **kw):
        name = name or self.pre + m
        calls = dict(self.links); calls.update({'SELF_' + q: self.selfcall(q) for q in self.done})
        if extra: calls.update(extra)
        def bd(node):
            b = (body or (lambda n: copy.deepcopy(n).body))(node)
            b = clean(flat(b), {}, self.links)
            b = [Calls(self.cls, self.done).visit(s) for s in b]
            for s in b: ast.fix_missing_locations(s)
            return b
        st = dict(self.static); st.update(kw.pop('static', {}))
        kw.setdefault('note', '(without the cache; list path)')
        t = fn(fname or self.fname, qual or self.cls + '.' + m, name=name, types=self.types, calls=calls, consts=self.consts, body=bd, prune=True, annot=True, static=st, order=self.order, **kw)
        self.done[m] = (name,) + py2v.DONE[name]
def appends(body, rng='cmps', n='N', mats=()):
    """lists built by append in a loop over range(n), as indexed assignments: L = [] ; L.append(v) -> L[i] = v with i the loop variable"""
    class Ap(ast.NodeTransformer):
        def __init__(self): self.v = []
        def visit_For(self, nd):
            if isinstance(nd.iter, ast.Name) and nd.iter.id == rng: nd.iter = ast.copy_location(ast.parse('range(%s)' % n, mode='eval').body, nd.iter)
            self.v.append(nd.target.id if isinstance(nd.target, ast.Name) else None); self.generic_visit(nd); self.v.pop(); return nd
        def visit_comprehension(self, nd):
            if isinstance(nd.iter, ast.Name) and nd.iter.id == rng: nd.iter = ast.copy_location(ast.parse('range(%s)' % n, mode='eval').body, nd.iter)
            self.generic_visit(nd); return nd
        def visit_Assign(self, nd):
            self.generic_visit(nd)
            if isinstance(nd.value, ast.List) and not nd.value.elts and isinstance(nd.targets[0], ast.Name):
                z = '[[0.0]*%s for _ in range(%s)]' % (n, n) if nd.targets[0].id in mats else '[0.0]*%s' % n
                nd.value = ast.copy_location(ast.parse(z, mode='eval').body, nd.value)
            return nd
        def visit_Expr(self, nd):
            self.generic_visit(nd); c = nd.value
            if isinstance(c, ast.Call) and isinstance(c.func, ast.Attribute) and c.func.attr == 'append' and self.v:
                t = ast.Subscript(value=ast.Name(id=c.func.value.id, ctx=ast.Load()), slice=ast.Name(id=self.v[-1], ctx=ast.Load()), ctx=ast.Store())
                return ast.copy_location(ast.Assign(targets=[t], value=c.args[0]), nd)
            return nd
    b = [Ap().visit(copy.deepcopy(s)) for s in body]
    b = [s for s in b if not (isinstance(s, ast.Assign) and isinstance(s.targets[0], ast.Name) and s.targets[0].id == rng)]
    b = [s for s in b if not (isinstance(s, ast.Expr) and isinstance(s.value, ast.Constant))]
    L = [s.lineno for s in b]
    for s in b:
        for q in ast.walk(s):
            if isinstance(q, (ast.stmt, ast.expr)) and not hasattr(q, 'lineno'): q.lineno = q.end_lineno = s.lineno; q.col_offset = q.end_col_offset = 0
    return b
