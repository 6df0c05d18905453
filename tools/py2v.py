import re
#!/usr/bin/env python3
"""Python -> Gallina translator used to make the Gen_*.v model files from /repo/thermo.

usage: py2v.py SPEC.py > Gen_x.v          (SPEC.py calls fn(...)/prop(...) below)

Only `ast` is used; nothing from /repo is imported or run.  Floats become reals, decimal literals become exact
rationals, lists of floats become functions nat -> R, range() loops become `loop`, item assignment becomes `upd`.
"""
import ast, sys, os, re
from fractions import Fraction

REPO = '/repo/thermo/'
_cache = {}

def load(fname):
    if fname not in _cache:
        src = open(REPO + fname).read()
        _cache[fname] = (src, ast.parse(src))
    return _cache[fname]

def find(fname, qual, nth=0):
    src, tree = load(fname)
    parts = qual.split('.')
    node = tree
    for k, p in enumerate(parts):
        last = k == len(parts) - 1
        c = [n for n in node.body if isinstance(n, (ast.FunctionDef, ast.ClassDef)) and n.name == p]
        if not c:
            raise KeyError(fname + ':' + qual)
        node = c[nth if last else 0]
    return node

RES = set("at as in if then else let fun match with end forall exists fix return Type Set Prop mod where for using S O P_".split())
def nm(s):
    if s in RES or s in ('R', 'C', 'N', 'exp', 'ln', 'sqrt', 'sum', 'PI', 'E', 'sin', 'cos', 'D', 'pow', 'loop', 'upd', 'updm', 'fst', 'snd', 'INR', 'Rpower', 'tan', 'atan', 'eq', 'id', 'nat', 'bool', 'sig', 'is_derive', 'epsilon', 'N0'):
        return s + '_'
    if s.startswith('_'):
        s = 'u' + s
    return s

class Val:
    """a translated expression: text + type"""
    __slots__ = ('s', 't', 'n')
    def __init__(self, s, t, n=None):
        self.s, self.t, self.n = s, t, n

def lit(v):
    if isinstance(v, bool): raise ValueError
    if isinstance(v, int):
        return '(%d)' % v if v < 0 else '%d' % v
    f = Fraction(repr(v))
    if f.denominator == 1:
        return lit(f.numerator)
    return '(%d / %d)' % (f.numerator, f.denominator)

class Skip(Exception): pass

class Tr:
    def __init__(self, fname, node, types=None, static=None, calls=None, drop=(), inline=None, consts=None,
                 selfmap=None, ret=None, lens=None, tryexc=None, complexreal=True, owner=None, suffix_lg=True, exprs=None, optret=False):
        self.optret = optret
        if optret: self.raise_ = 'None'
        self.fname, self.node = fname, node
        self.types = dict(types or {})
        self.static = dict(static or {})
        self.calls = dict(calls or {})
        self.drop = set(drop)
        self.consts = dict(consts or {})
        self.selfmap = dict(selfmap or {})
        self.params = []          # (name, type) in order of first use
        self.alias = {}
        self.lens = dict(lens or {})
        self.tryexc = dict(tryexc or {})
        self.suffix_lg = suffix_lg
        self.exprs = dict(exprs or {})
        self.fresh = 0
        self.src = load(fname)[0]
        self.glob = False

    # ---------- environment
    def param(self, name, t):
        if (name, t) not in self.params:
            for n, tt in self.params:
                if n == name and tt != t:
                    raise TypeError('%s used at types %s and %s' % (name, tt, t))
            self.params.append((name, t))
        return Val(nm(name), t)

    def txt(self, node):
        return ast.unparse(node)

    def self_attr(self, a):
        if a in self.selfmap:
            m = self.selfmap[a]
            if isinstance(m, Val): return m
            a = m
        elif self.suffix_lg and (a.endswith('_l') or a.endswith('_g')):
            a = a[:-2]
        return self.param(a, self.types.get(a, 'R'))

    # ---------- expressions
    def E(self, e, env):
        k = self.txt(e)
        if k in self.exprs:
            v = self.exprs[k]
            if isinstance(v, tuple) and v[0] == 'param': return self.param(v[1], v[2])
            if isinstance(v, tuple): return Val(v[0], v[1])
            return Val(v, 'R')
        m = getattr(self, 'E_' + type(e).__name__, None)
        if m is None:
            raise NotImplementedError('%s at line %d: %s' % (type(e).__name__, e.lineno, k))
        return m(e, env)

    def R(self, e, env):
        v = self.E(e, env)
        if v.t == 'R': return v.s
        if v.t == 'N':
            if v.n is not None: return lit(v.n)
            return '(INR %s)' % v.s
        raise TypeError('real expected, got %s: %s line %d' % (v.t, self.txt(e), e.lineno))

    def Nt(self, e, env):
        v = self.E(e, env)
        if v.t == 'N': return v.s
        raise TypeError('nat expected: %s line %d' % (self.txt(e), e.lineno))

    def E_Constant(self, e, env):
        if isinstance(e.value, bool):
            return Val('true' if e.value else 'false', 'B')
        if isinstance(e.value, int):
            return Val('%d%%nat' % e.value if e.value >= 0 else 'BAD', 'N', e.value)
        if isinstance(e.value, float):
            return Val(lit(e.value), 'R')
        raise NotImplementedError('const %r' % (e.value,))

    def E_Name(self, e, env):
        n = e.id
        if n in env:
            return Val(nm(n), env[n])
        if n in self.alias_env(env):
            return self.alias_env(env)[n]
        if n in self.consts:
            v = self.consts[n]
            return v if isinstance(v, Val) else Val(v, 'R')
        if n in ('R', 'R_gas'): return Val('Rgas', 'R')
        if n == 'R_inv': return Val('(1 / Rgas)', 'R')
        if n == 'third': return Val('(1 / 3)', 'R')
        if n == 'sixth': return Val('(1 / 6)', 'R')
        if n == 'pi': return Val('PI', 'R')
        src, tree = load(self.fname)
        for st in tree.body:
            if isinstance(st, ast.Assign) and len(st.targets) == 1 and isinstance(st.targets[0], ast.Name) and st.targets[0].id == n:
                return self.E(st.value, {})
        raise NameError('%s line %d' % (n, e.lineno))

    def alias_env(self, env):
        return env.get('$alias', {})

    def E_Attribute(self, e, env):
        if isinstance(e.value, ast.Name) and e.value.id == 'self':
            return self.self_attr(e.attr)
        if e.attr == 'real':
            return self.E(e.value, env)
        k = self.txt(e)
        raise NotImplementedError('attr %s line %d' % (k, e.lineno))

    def E_UnaryOp(self, e, env):
        if isinstance(e.op, ast.USub):
            if isinstance(e.operand, ast.Constant) and isinstance(e.operand.value, (int, float)):
                v = e.operand.value
                if isinstance(v, int): return Val('(-%d)' % v, 'N', -v)
                return Val('(- %s)' % lit(v), 'R')
            return Val('(- %s)' % self.R(e.operand, env), 'R')
        if isinstance(e.op, ast.UAdd): return self.E(e.operand, env)
        if isinstance(e.op, ast.Not): return Val('(negb %s)' % self.B(e.operand, env), 'B')
        raise NotImplementedError

    def E_BinOp(self, e, env):
        op = type(e.op).__name__
        # list creation [0.0]*N
        if op == 'Mult' and isinstance(e.left, ast.List):
            if len(e.left.elts) == 1:
                v = self.E(e.left.elts[0], env)
                if v.t == 'N': v = Val(lit(v.n), 'R')
                return Val('(fun _ => %s)' % v.s, 'V')
        if op == 'Pow':
            b = self.R(e.left, env)
            ex = e.right
            neg = False
            if isinstance(ex, ast.UnaryOp) and isinstance(ex.op, ast.USub):
                neg = True; ex = ex.operand
            if isinstance(ex, ast.Constant) and float(ex.value) == int(ex.value):
                r = '(%s ^ %d)' % (b, int(ex.value))
                return Val('(/ %s)' % r if neg else r, 'R')
            if isinstance(ex, ast.Constant) and ex.value == 0.5:
                r = '(sqrt %s)' % b
                return Val('(/ %s)' % r if neg else r, 'R')
            v = self.E(ex, env)
            if v.t == 'N':
                r = '(%s ^ %s)' % (b, v.s)
                return Val('(/ %s)' % r if neg else r, 'R')
            return Val('(Rpower %s %s)' % (b, ('(- %s)' % v.s) if neg else v.s), 'R')
        l, r = self.E(e.left, env), self.E(e.right, env)
        sym = {'Add': '+', 'Sub': '-', 'Mult': '*', 'Div': '/'}.get(op)
        if sym is None:
            raise NotImplementedError(op)
        if l.t == 'N' and r.t == 'N' and op != 'Div':
            if l.n is not None and r.n is not None:
                n = {'Add': l.n + r.n, 'Sub': l.n - r.n, 'Mult': l.n * r.n}[op]
                return Val('%d%%nat' % n, 'N', n)
            if (l.n is None or l.n >= 0) and (r.n is None or r.n >= 0):
                return Val('(%s %s %s)%%nat' % (l.s, sym, r.s), 'N')
        return Val('(%s %s %s)' % (self.asR(l), sym, self.asR(r)), 'R')

    def asR(self, v):
        if v.t == 'R': return v.s
        if v.t == 'N': return lit(v.n) if v.n is not None else '(INR %s)' % v.s
        raise TypeError('real expected got %s (%s)' % (v.t, v.s))

    def E_Call(self, e, env):
        f = self.txt(e.func)
        if f in self.calls:
            c = self.calls[f]
            if callable(c):
                return c(self, e, env)
            name, argt, rett = c
            args = []
            for a, t in zip(e.args, argt):
                if t is None: continue
                v = self.E(a, env)
                args.append(self.asR(v) if t == 'R' else v.s)
            kw = {k.arg: k.value for k in e.keywords}
            return Val('(%s)' % ' '.join([name] + args), rett)
        if f in ('sqrt', 'log', 'exp', 'cos', 'sin', 'atan', 'tan', 'trunc_exp', 'trunc_log', 'clog', 'csqrt', 'np.log', 'np.exp', 'np.sqrt', 'acos', 'cosh', 'sinh', 'tanh'):
            g = {'sqrt': 'sqrt', 'csqrt': 'sqrt', 'log': 'ln', 'clog': 'ln', 'exp': 'exp', 'trunc_exp': 'exp', 'trunc_log': 'ln', 'np.log': 'ln', 'np.exp': 'exp', 'np.sqrt': 'sqrt'}.get(f, f)
            return Val('(%s %s)' % (g, self.R(e.args[0], env)), 'R')
        if f == 'log1p': return Val('(ln (1 + %s))' % self.R(e.args[0], env), 'R')
        if f == 'expm1': return Val('(exp %s - 1)' % self.R(e.args[0], env), 'R')
        if f in ('abs', 'fabs'): return Val('(Rabs %s)' % self.R(e.args[0], env), 'R')
        if f == 'catanh': return Val('(re_catanh %s)' % self.R(e.args[0], env), 'R')
        if f == 'float': return Val(self.R(e.args[0], env), 'R')
        if f in ('max', 'min') and len(e.args) == 2:
            return Val('(R%s %s %s)' % (f, self.R(e.args[0], env), self.R(e.args[1], env)), 'R')
        if f == 'len':
            k = self.txt(e.args[0])
            n = self.lens.get(k, 'N')
            if n in env: return Val(nm(n), 'N')
            return self.param(n, 'N')
        if f == 'sum':
            v = e.args[0]
            if isinstance(v, (ast.ListComp, ast.GeneratorExp)):
                lo, cnt, vec = self.comp(v, env)
                return Val('(rsum %s %s)' % (cnt, vec.s), 'R')
            k = self.txt(v)
            n = self.lens.get(k, 'N')
            if n not in env: self.param(n, 'N')
            return Val('(rsum %s %s)' % (nm(n), self.E(v, env).s), 'R')
        if f == 'zeros' or f == 'np.zeros':
            return Val('(fun _ => 0)', 'V')
        raise NotImplementedError('call %s line %d' % (f, e.lineno))

    def rng(self, e, env):
        """range(...) -> (lo or None, count)"""
        a = e.args
        if len(a) == 1: return None, self.Nt(a[0], env)
        if len(a) == 2:
            lo, hi = self.E(a[0], env), self.E(a[1], env)
            return lo.s, '(%s - %s)%%nat' % (hi.s, lo.s)
        raise NotImplementedError('range step')

    def comp(self, e, env):
        """list comprehension over one generator -> (lo,count,Val vector)"""
        assert len(e.generators) == 1 and not e.generators[0].ifs
        g = e.generators[0]
        it = g.iter
        env2 = dict(env)
        if isinstance(it, ast.Call) and self.txt(it.func) == 'range':
            lo, cnt = self.rng(it, env)
            v = g.target.id
            env2[v] = 'N'
            if lo is None:
                body = self.E(e.elt, env2)
                bs = self.asR(body) if body.t in 'RN' else body.s
                return None, cnt, Val('(fun %s => %s)' % (nm(v), bs), 'V' if body.t in 'RN' else 'M' if body.t == 'V' else 'T')
            body = self.E(e.elt, env2)
            return lo, cnt, Val('(fun k_ => let %s := (%s + k_)%%nat in %s)' % (nm(v), lo, self.asR(body)), 'V')
        if isinstance(it, ast.Call) and self.txt(it.func) in ('zip', 'enumerate'):
            its = it.args
            tg = list(g.target.elts)
        else:
            its = [it]; tg = [g.target]
        k = 'k%d_' % self.fresh; self.fresh += 1
        lets = ''
        cnt = None
        if isinstance(it, ast.Call) and self.txt(it.func) == 'enumerate':
            env2[tg[0].id] = 'N'
            lets += 'let %s := %s in ' % (nm(tg[0].id), k)
            tg = tg[1:]
        for x, t in zip(its, tg):
            xv = self.E(x, env)
            el = {'V': 'R', 'M': 'V', 'T': 'M'}[xv.t]
            lets += 'let %s := %s %s in ' % (nm(t.id), xv.s, k)
            env2[t.id] = el
            if cnt is None:
                n = self.lens.get(self.txt(x), 'N')
                if n not in env: self.param(n, 'N')
                cnt = nm(n)
        body = self.E(e.elt, env2)
        bs = self.asR(body) if body.t in 'RN' else body.s
        return None, cnt, Val('(fun %s => %s%s)' % (k, lets, bs), 'V' if body.t in 'RN' else 'M' if body.t == 'V' else 'T')

    def E_ListComp(self, e, env):
        return self.comp(e, env)[2]

    def E_List(self, e, env):
        # literal list of scalars
        vs = [self.E(x, env) for x in e.elts]
        if all(v.t in 'RN' for v in vs):
            s = '(fun k_ => match k_ with '
            for i, v in enumerate(vs):
                s += '| %d%%nat => %s ' % (i, self.asR(v))
            s += '| _ => 0 end)'
            return Val(s, 'V')
        if all(v.t == 'V' for v in vs):
            s = '(fun k_ => match k_ with '
            for i, v in enumerate(vs):
                s += '| %d%%nat => %s ' % (i, v.s)
            s += '| _ => fun _ => 0 end)'
            return Val(s, 'M')
        raise NotImplementedError('list')

    def E_Tuple(self, e, env):
        vs = [self.E(x, env) for x in e.elts]
        vs = [Val(self.asR(v), 'R') if v.t == 'N' else v for v in vs]
        return Val('(%s)' % ', '.join(v.s for v in vs), '(' + ' '.join(v.t for v in vs) + ')')

    def E_Subscript(self, e, env):
        if isinstance(e.slice, ast.UnaryOp) or isinstance(e.slice, ast.Slice):
            raise NotImplementedError('slice %s line %d' % (self.txt(e), e.lineno))
        # flatten
        idx = []
        b = e
        while isinstance(b, ast.Subscript):
            if isinstance(b.slice, ast.Tuple):
                idx = list(b.slice.elts) + idx
            else:
                idx.insert(0, b.slice)
            b = b.value
        bv = self.E(b, env)
        t = bv.t
        s = bv.s
        for i in idx:
            s += ' ' + self.Nt(i, env)
            t = {'V': 'R', 'M': 'V', 'T': 'M', 'Q': 'T', 'VN': 'N'}[t]
        return Val('(%s)' % s, t)

    def E_IfExp(self, e, env):
        st = self.static_test(e.test)
        if st is not None: return self.E(e.body if st else e.orelse, env)
        a, b = self.E(e.body, env), self.E(e.orelse, env)
        if a.t in 'RN' and b.t in 'RN':
            return Val('(if %s then %s else %s)' % (self.B(e.test, env), self.asR(a), self.asR(b)), 'R')
        return Val('(if %s then %s else %s)' % (self.B(e.test, env), a.s, b.s), a.t)

    # ---------- conditions
    def static_test(self, e):
        k = self.txt(e)
        if k in self.static: return self.static[k]
        if isinstance(e, ast.Constant): return bool(e.value)
        if isinstance(e, ast.UnaryOp) and isinstance(e.op, ast.Not):
            r = self.static_test(e.operand)
            return None if r is None else not r
        if isinstance(e, ast.Compare) and len(e.ops) == 1 and isinstance(e.comparators[0], ast.Constant) and e.comparators[0].value is None:
            # buffers / optional arguments are always taken as given
            if isinstance(e.ops[0], ast.Is): return False
            if isinstance(e.ops[0], ast.IsNot): return True
        if isinstance(e, ast.BoolOp):
            rs = [self.static_test(v) for v in e.values]
            if isinstance(e.op, ast.And):
                if any(r is False for r in rs): return False
                if all(r is True for r in rs): return True
            else:
                if any(r is True for r in rs): return True
                if all(r is False for r in rs): return False
        return None

    def B(self, e, env):
        k = self.txt(e)
        if k in self.exprs: return self.exprs[k][0] if isinstance(self.exprs[k], tuple) else self.exprs[k]
        if isinstance(e, ast.BoolOp):
            op = '&&' if isinstance(e.op, ast.And) else '||'
            return '(' + (' %s ' % op).join(self.B(v, env) for v in e.values if self.static_test(v) is None) + ')'
        if isinstance(e, ast.UnaryOp) and isinstance(e.op, ast.Not):
            return '(negb %s)' % self.B(e.operand, env)
        if isinstance(e, ast.Compare):
            parts = []
            l = e.left
            for op, r in zip(e.ops, e.comparators):
                a, b = self.E(l, env), self.E(r, env)
                o = type(op).__name__
                if a.t == 'N' and b.t == 'N':
                    d = {'Eq': '(%s =? %s)%%nat', 'NotEq': '(negb (%s =? %s)%%nat)', 'Lt': '(%s <? %s)%%nat', 'LtE': '(%s <=? %s)%%nat',
                         'Gt': '(%s <? %s)%%nat', 'GtE': '(%s <=? %s)%%nat'}[o]
                    x, y = a.s, b.s
                    if o in ('Gt', 'GtE'): x, y = y, x
                else:
                    d = {'Eq': '(Reqb %s %s)', 'NotEq': '(negb (Reqb %s %s))', 'Lt': '(Rltb %s %s)', 'LtE': '(Rleb %s %s)',
                         'Gt': '(Rltb %s %s)', 'GtE': '(Rleb %s %s)'}[o]
                    x, y = self.asR(a), self.asR(b)
                    if o in ('Gt', 'GtE'): x, y = y, x
                parts.append(d % (x, y))
                l = r
            return parts[0] if len(parts) == 1 else '(' + ' && '.join(parts) + ')'
        v = self.E(e, env)
        if v.t == 'B': return v.s
        if v.t == 'R': return '(negb (Reqb %s 0))' % v.s
        raise TypeError('bool expected %s' % k)

    # ---------- statements
    def assigned(self, stmts, al=None):
        """names (or matrices through aliases) assigned in stmts"""
        al = dict(al or {})
        out = []
        def add(n):
            n = al.get(n, n)
            if n not in out: out.append(n)
        def tgt(t):
            if isinstance(t, ast.Name):
                add(t.id)
            elif isinstance(t, (ast.Tuple, ast.List)):
                for x in t.elts: tgt(x)
            elif isinstance(t, ast.Subscript):
                b = t
                while isinstance(b, ast.Subscript): b = b.value
                if isinstance(b, ast.Name): add(b.id)
                else: raise NotImplementedError(self.txt(t))
            elif isinstance(t, ast.Attribute) and isinstance(t.value, ast.Name) and t.value.id == 'self':
                pass
            else: raise NotImplementedError(self.txt(t))
        def rec(ss):
            for s in ss:
                if isinstance(s, ast.Assign):
                    if self.is_row_alias(s):
                        al[s.targets[0].id] = self.base_name(s.value)
                        continue
                    ra = self.row_alias_tuple(s)
                    if ra:
                        for n_, v_ in ra: al[n_] = self.base_name(v_)
                        continue
                    for t in s.targets: tgt(t)
                elif isinstance(s, ast.AugAssign): tgt(s.target)
                elif isinstance(s, ast.For):
                    tl = [s.target] if isinstance(s.target, ast.Name) else list(s.target.elts)
                    rec(s.body)
                elif isinstance(s, ast.If):
                    st = self.static_test(s.test)
                    if st is not False: rec(s.body)
                    if st is not True: rec(s.orelse)
                elif isinstance(s, ast.Try):
                    rec(s.body)
                elif isinstance(s, ast.Expr): 
                    if isinstance(s.value, ast.Call) and isinstance(s.value.func, ast.Attribute) and s.value.func.attr == 'append':
                        add(s.value.func.value.id)
        rec(stmts)
        return out

    def base_name(self, e):
        while isinstance(e, ast.Subscript): e = e.value
        return e.id if isinstance(e, ast.Name) else None

    def is_row_alias(self, s):
        """row = M[i] where row is written through later, or M is a matrix"""
        return (isinstance(s, ast.Assign) and len(s.targets) == 1 and isinstance(s.targets[0], ast.Name)
                and isinstance(s.value, ast.Subscript) and self.base_name(s.value) is not None
                and s.targets[0].id in self.rowwrites)

    def row_alias_tuple(self, s):
        if (isinstance(s, ast.Assign) and len(s.targets) == 1 and isinstance(s.targets[0], ast.Tuple) and isinstance(s.value, ast.Tuple)
            and all(isinstance(t, ast.Name) and t.id in self.rowwrites and isinstance(v, ast.Subscript) for t, v in zip(s.targets[0].elts, s.value.elts))):
            return [(t.id, v) for t, v in zip(s.targets[0].elts, s.value.elts)]
        return None

    def used(self, stmts):
        u = set()
        for s in stmts:
            for n in ast.walk(s):
                if isinstance(n, ast.Name): u.add(n.id)
        return u

    def find_rowwrites(self, body):
        """names bound by `x = M[..]` and written by `x[..] = `"""
        bound, written = set(), set()
        for n in ast.walk(ast.Module(body=body, type_ignores=[])):
            if isinstance(n, ast.Assign):
                for t in n.targets:
                    if isinstance(t, ast.Name) and isinstance(n.value, ast.Subscript): bound.add(t.id)
                    if isinstance(t, ast.Tuple) and isinstance(n.value, ast.Tuple):
                        for a, b in zip(t.elts, n.value.elts):
                            if isinstance(a, ast.Name) and isinstance(b, ast.Subscript): bound.add(a.id)
            tg = []
            if isinstance(n, ast.Assign): tg = n.targets
            if isinstance(n, ast.AugAssign): tg = [n.target]
            for t in tg:
                for x in (t.elts if isinstance(t, ast.Tuple) else [t]):
                    if isinstance(x, ast.Subscript):
                        b = self.base_name(x)
                        if b: written.add(b)
        return bound & written

    def block(self, stmts, env, k, ind):
        """translate stmts then continue with k(env) -> text"""
        pad = '  ' * ind
        if not stmts:
            return k(env)
        s, rest = stmts[0], stmts[1:]
        nxt = lambda env2: self.block(rest, env2, k, ind)
        line = getattr(s, 'lineno', None)
        if isinstance(s, ast.Expr):
            if isinstance(s.value, ast.Constant): return nxt(env)
            kx = self.txt(s.value)
            if kx in self.drop: return nxt(env)
            if isinstance(s.value, ast.Call):
                f = self.txt(s.value.func)
                if isinstance(s.value.func, ast.Attribute) and s.value.func.attr == 'append' and self.loopvar:
                    # one append per iteration of `for i in range(N)` on a list that starts empty
                    b_ = s.value.func.value.id
                    v_ = self.R(s.value.args[0], env)
                    return pad + 'let %s := upd %s %s %s in\n' % (nm(b_), nm(b_), self.loopvar[-1], v_) + nxt(env)
                if f in self.calls and callable(self.calls[f]) :
                    r = self.calls[f](self, s.value, env, stmt=True)
                    # r : list of (name, text, type)
                    out = ''
                    env2 = dict(env)
                    for n_, t_, ty in r:
                        out += pad + 'let %s := %s in\n' % (nm(n_), t_)
                        env2[n_] = ty
                    return out + nxt(env2)
            raise NotImplementedError('expr stmt %s line %d' % (kx, line))
        if isinstance(s, (ast.Pass, ast.Global, ast.Import, ast.ImportFrom, ast.Assert)):
            return nxt(env)
        if isinstance(s, ast.Return):
            if self.in_loop: raise NotImplementedError('return in loop line %d' % line)
            return pad + self.ret(s.value, env) + '\n'
        if isinstance(s, ast.Continue):
            return self.cont(env)
        if isinstance(s, ast.Assign):
            if len(s.targets) == 1 and self.txt(s.targets[0]) in self.drop: return nxt(env)
            if self.is_row_alias(s):
                env2 = dict(env); a = dict(env.get('$rows', {}))
                idx = []
                b = s.value
                while isinstance(b, ast.Subscript):
                    idx.insert(0, self.Nt(b.slice, env)); b = b.value
                base = b.id
                if base in a:
                    base, idx = a[base][0], a[base][1] + idx
                a[s.targets[0].id] = (base, idx)
                env2['$rows'] = a
                return nxt(env2)
            ra = self.row_alias_tuple(s)
            if ra:
                env2 = dict(env); a = dict(env.get('$rows', {}))
                for n_, v_ in ra:
                    a[n_] = (self.base_name(v_), [self.Nt(v_.slice, env)])
                env2['$rows'] = a
                return nxt(env2)
            # self.x = self.y = expr : treated as local
            tg = [t for t in s.targets]
            out = ''
            env2 = dict(env)
            if len(tg) == 1 and isinstance(tg[0], ast.Tuple) and isinstance(s.value, ast.Tuple):
                names = []
                tmp = []
                simple = all(isinstance(t, ast.Name) for t in tg[0].elts)
                vals = [self.E(v, env) for v in s.value.elts]
                vals = [Val(self.asR(v), 'R') if v.t == 'N' and v.n is not None else v for v in vals]
                if simple:
                    reads = set()
                    for v in s.value.elts:
                        for n_ in ast.walk(v):
                            if isinstance(n_, ast.Name): reads.add(n_.id)
                    if reads & {t.id for t in tg[0].elts}:
                        out += pad + "let '(%s) := (%s) in\n" % (', '.join(nm(t.id) for t in tg[0].elts), ', '.join(v.s for v in vals))
                        for t, v in zip(tg[0].elts, vals): env2[t.id] = v.t
                    else:
                        for t, v in zip(tg[0].elts, vals):
                            out += pad + 'let %s := %s in\n' % (nm(t.id), v.s); env2[t.id] = v.t
                    return out + nxt(env2)
                # general: temps
                for i, (t, v) in enumerate(zip(tg[0].elts, vals)):
                    out += pad + 'let tmp%d_ := %s in\n' % (i, v.s)
                for i, (t, v) in enumerate(zip(tg[0].elts, vals)):
                    o, env2 = self.store(t, Val('tmp%d_' % i, v.t), env2, pad)
                    out += o
                return out + nxt(env2)
            v = self.E(s.value, env)
            if len(tg) == 1 and isinstance(tg[0], ast.Tuple):
                if v.t == 'V':
                    for i_, t in enumerate(tg[0].elts):
                        out += pad + 'let %s := %s %d%%nat in\n' % (nm(t.id), v.s, i_)
                        env2[t.id] = 'R'
                    return out + nxt(env2)
                ts = v.t[1:-1].split(' ')
                names = [t.id if isinstance(t, ast.Name) else t.attr for t in tg[0].elts]
                out += pad + "let '(%s) := %s in\n" % (', '.join(nm(n) for n in names), v.s)
                for n_, ty in zip(names, ts): env2[n_] = ty
                return out + nxt(env2)
            if v.t == 'N' and v.n is not None and not (isinstance(tg[0], ast.Name) and tg[0].id in self.types and self.types[tg[0].id] == 'N'):
                v = Val(self.asR(v), 'R')
            if len(tg) > 1:
                first = next(t for t in tg if isinstance(t, ast.Name)) if any(isinstance(t, ast.Name) for t in tg) else None
                for t in tg[::-1]:
                    o, env2 = self.store(t, v, env2, pad)
                    out += o
                    if isinstance(t, ast.Name): v = Val(nm(t.id), v.t)
                return out + nxt(env2)
            o, env2 = self.store(tg[0], v, env2, pad)
            return o + nxt(env2)
        if isinstance(s, ast.AugAssign):
            if isinstance(s.target, ast.Name) and False: pass
            load_t = ast.parse(self.txt(s.target), mode='eval').body
            ast.copy_location(load_t, s.target)
            b = ast.BinOp(left=load_t, op=s.op, right=s.value)
            ast.copy_location(b, s)
            ast.fix_missing_locations(b)
            v = self.E(b, env)
            o, env2 = self.store(s.target, v, dict(env), pad)
            return o + nxt(env2)
        if isinstance(s, ast.For):
            return self.for_(s, rest, env, k, ind)
        if isinstance(s, ast.If):
            st = self.static_test(s.test)
            if st is True: return self.block(s.body + rest, env, k, ind)
            if st is False: return self.block(s.orelse + rest, env, k, ind)
            if self.has_exit(s.body) or self.has_exit(s.orelse):
                a = self.block(s.body + rest, dict(env), k, ind + 1)
                b = self.block(s.orelse + rest, dict(env), k, ind + 1)
                return pad + 'if %s then\n%s%selse\n%s' % (self.B(s.test, env), a, pad, b)
            asg = self.assigned(s.body + s.orelse, {n: v[0] for n, v in env.get('$rows', {}).items()})
            use = self.used(rest) | self.live_after(env)
            a0 = set(self.assigned(s.body, {n: v[0] for n, v in env.get('$rows', {}).items()}))
            b0 = set(self.assigned(s.orelse, {n: v[0] for n, v in env.get('$rows', {}).items()}))
            vs = [n for n in asg if (n in env) or (n in a0 and n in b0)]
            vs = [n for n in vs if n in use or n in env.get('$state', ()) or True]
            if not vs: return nxt(env)
            tys = {}
            def kk(e2):
                for n in vs: tys[n] = e2[n]
                t = ', '.join(nm(n) for n in vs)
                return '  ' * (ind + 1) + ('(%s)' % t if len(vs) > 1 else t) + '\n'
            while True:
                try:
                    a = self.block(s.body, dict(env), kk, ind + 1)
                    b = self.block(s.orelse, dict(env), kk, ind + 1)
                    break
                except KeyError as x:   # a variable that is local to inner loops or inner branches
                    if x.args[0] in vs and x.args[0] not in env and x.args[0] not in self.used(rest): vs.remove(x.args[0]); continue
                    raise
            pat = ("'(%s)" % ', '.join(nm(n) for n in vs)) if len(vs) > 1 else nm(vs[0])
            env2 = dict(env)
            for n in vs: env2[n] = tys[n]
            return pad + 'let %s :=\n%sif %s then\n%s%selse\n%s%sin\n' % (pat, pad + '  ', self.B(s.test, env), a, pad + '  ', b, pad) + nxt(env2)
        if isinstance(s, ast.Try):
            # cache probe: try: return self._x except AttributeError: ...
            if len(s.body) == 1 and isinstance(s.body[0], ast.Return) and self.txt(s.body[0].value).startswith('self._'):
                return nxt(env)
            if len(s.body) == 1 and isinstance(s.body[0], ast.Assign) and self.txt(s.body[0].value).startswith('self._') and s.lineno not in self.tryexc:
                # value = self._x / except: value = compute
                h = s.handlers[0].body
                return self.block(h + rest, env, k, ind)
            c = self.tryexc.get(s.lineno, self.tryexc.get('*'))
            if c is None: raise NotImplementedError('try line %d' % s.lineno)
            if c == 'body': return self.block(s.body + rest, env, k, ind)
            if c == 'except': return self.block(s.handlers[0].body + rest, env, k, ind)
            if c == 'skip': return nxt(env)
            # c = condition text under which the body raises
            key = 'tc%d__' % s.lineno
            self.exprs[key] = (c, 'B')
            i = ast.If(test=ast.Name(id=key, ctx=ast.Load()), body=s.handlers[0].body, orelse=s.body)
            ast.copy_location(i, s); ast.fix_missing_locations(i)
            return self.block([i] + rest, env, k, ind)
        if isinstance(s, ast.Raise):
            return pad + self.raise_ + '\n'
        raise NotImplementedError('%s line %d' % (type(s).__name__, line))

    raise_ = 'RAISE'

    def has_exit(self, stmts):
        for s in stmts:
            for n in ast.walk(s):
                if isinstance(n, (ast.Return, ast.Continue, ast.Raise, ast.Break)): return True
        return False

    def live_after(self, env): return set()

    def store(self, t, v, env, pad):
        env2 = dict(env)
        if isinstance(t, ast.Attribute):
            if isinstance(t.value, ast.Name) and t.value.id == 'self':
                return '', env2      # cached attribute
            raise NotImplementedError
        if isinstance(t, ast.Name):
            if t.id in self.types and self.types[t.id] == 'R' and v.t == 'N': v = Val(self.asR(v), 'R')
            env2[t.id] = v.t
            r = dict(env2.get('$rows', {})); r.pop(t.id, None); env2['$rows'] = r
            return pad + 'let %s := %s in\n' % (nm(t.id), v.s), env2
        if isinstance(t, ast.Subscript):
            idx = []
            b = t
            while isinstance(b, ast.Subscript):
                if isinstance(b.slice, ast.Tuple): idx = [self.Nt(x, env) for x in b.slice.elts] + idx
                else: idx.insert(0, self.Nt(b.slice, env))
                b = b.value
            base = b.id
            rows = env.get('$rows', {})
            if base in rows:
                base, idx = rows[base][0], rows[base][1] + idx
            if base not in env:
                raise NameError('store to %s' % base)
            ty = env[base]
            full = {'V': 1, 'M': 2, 'T': 3, 'Q': 4}[ty]
            vs = self.asR(v) if v.t in 'RN' else v.s
            if len(idx) == full:
                fn = {1: 'upd', 2: 'updm', 3: 'updt', 4: 'updq'}[full]
            elif full == 2 and len(idx) == 1:
                fn = 'updrow'
            else: raise NotImplementedError('partial store')
            return pad + 'let %s := %s %s %s %s in\n' % (nm(base), fn, nm(base), ' '.join(idx), vs if re.match(r'^[\w.]+$|^\(.*\)$', vs) else '(%s)' % vs), env2
        raise NotImplementedError(self.txt(t))

    def for_(self, s, rest, env, k, ind):
        pad = '  ' * ind
        it = s.iter
        pre = []
        env_in = dict(env)
        if isinstance(it, ast.Call) and self.txt(it.func) == 'range':
            lo, cnt = self.rng(it, env)
            var = s.target.id
            if lo is None: bv = nm(var)
            else:
                bv = 'k_%s' % nm(var); pre.append((nm(var), '(%s + %s)%%nat' % (lo, bv)))
            env_in[var] = 'N'
        else:
            bv = 'k%d_' % self.fresh; self.fresh += 1
            if isinstance(it, ast.Call) and self.txt(it.func) == 'zip':
                its, tg = it.args, s.target.elts
            elif isinstance(it, ast.Call) and self.txt(it.func) == 'enumerate':
                pre.append((nm(s.target.elts[0].id), bv)); env_in[s.target.elts[0].id] = 'N'
                its, tg = it.args, s.target.elts[1:]
                if isinstance(its[0], ast.Call) and self.txt(its[0].func) == 'zip':
                    tg = tg[0].elts; its = its[0].args
            elif isinstance(it, (ast.Tuple, ast.List)) or (isinstance(it, ast.Name) and self.txt(it) in self.static):
                # unroll
                raise NotImplementedError('unroll')
            else:
                its, tg = [it], [s.target]
            cnt = None
            for x, t in zip(its, tg):
                xv = self.E(x, env)
                el = {'V': 'R', 'M': 'V', 'T': 'M'}[xv.t]
                pre.append((nm(t.id), '(%s %s)' % (xv.s, bv)))
                env_in[t.id] = el
                if cnt is None:
                    n = self.lens.get(self.txt(x), 'N')
                    if n not in env: self.param(n, 'N')
                    cnt = nm(n)
        rowmap = {n: v[0] for n, v in env.get('$rows', {}).items()}
        asg = self.assigned(s.body, rowmap)
        tnames = set(n.id for n in ast.walk(s.target) if isinstance(n, ast.Name))
        vs = [n for n in asg if n in env and n not in tnames]
        # loop-local variables (assigned before use in the body, not used after) are dropped
        after = self.used(rest) | self.afterlive[-1]
        keep = []
        for n in vs:
            if n in after or self.read_first(s.body, n) or self.cond_assigned(s.body, n) and n in after: keep.append(n)
        vs = keep
        # every subscript store must reach a tracked variable: nothing is dropped silently
        localn = {t.id for q in s.body for x in ast.walk(q) if isinstance(x, ast.Assign) for t0 in x.targets for t in ast.walk(t0) if isinstance(t, ast.Name) and isinstance(t.ctx, ast.Store)}
        for q in s.body:
            for x in ast.walk(q):
                for t in (x.targets if isinstance(x, ast.Assign) else [x.target] if isinstance(x, ast.AugAssign) else []):
                    if isinstance(t, ast.Subscript):
                        r = t
                        while isinstance(r, ast.Subscript): r = r.value
                        r = r.id if isinstance(r, ast.Name) else None
                        if r is None: raise NotImplementedError('store line %d' % x.lineno)
                        if r in rowmap: r = rowmap[r]
                        if r in vs or r in keep: continue
                        if r in localn:
                            def okn(r, seen=()):
                                if r in vs or r in rowmap and rowmap[r] in vs: return True
                                if r not in localn or r in seen: return False
                                rs = [z.value for q2 in s.body for z in ast.walk(q2) if isinstance(z, ast.Assign) and any(isinstance(t0, ast.Name) and t0.id == r for t0 in z.targets)]
                                return all(not isinstance(z, ast.Subscript) or (isinstance(z.value, ast.Name) and okn(z.value.id, seen + (r,))) for z in rs)
                            ok = okn(r)
                            if ok: continue
                        raise NotImplementedError('untracked store to %s line %d' % (r, x.lineno))
        # variables first assigned in the body but used after the loop: unsupported unless initialised
        for n in asg:
            if n not in env and n in self.used(rest) and not self.assigned_before_use(rest, n) and n not in tnames:
                raise NotImplementedError('loop defines %s used later, line %d' % (n, s.lineno))
        if not vs:
            return self.block(rest, env, k, ind)
        tup = ('(%s)' % ', '.join(nm(n) for n in vs)) if len(vs) > 1 else nm(vs[0])
        def kk(e2):
            return '  ' * (ind + 2) + tup + '\n'
        saved = (getattr(self, 'cont', None), self.in_loop)
        self.cont, self.in_loop = kk, True
        self.loopvar.append(pre[0][0] if pre and bv.startswith('k') else bv)
        self.afterlive.append(self.afterlive[-1] | self.used(rest) | self.used(s.body))
        body = ''
        for a, b in pre: body += '  ' * (ind + 2) + 'let %s := %s in\n' % (a, b)
        # normalise scalars typed N by literal init
        body += self.block(s.body, env_in, kk, ind + 2)
        self.afterlive.pop()
        self.cont, self.in_loop = saved
        self.loopvar.pop()
        st = 'st_' if len(vs) > 1 else nm(vs[0])
        destr = ('  ' * (ind + 2) + "let '%s := st_ in\n" % tup) if len(vs) > 1 else ''
        pat = "'" + tup if len(vs) > 1 else tup
        out = pad + 'let %s :=\n%sloop %s (fun %s %s =>\n%s%s%s) %s in\n' % (pat, pad + '  ', cnt, bv, st, destr, body, pad + '  ', tup)
        return out + self.block(rest, dict(env), k, ind)

    def read_first(self, body, n):
        """is n possibly read before being written in body (incl. aug-assign and item store)?"""
        return not self.assigned_before_use(body, n)

    def cond_assigned(self, body, n): return False

    def assigned_before_use(self, stmts, n):
        for s in stmts:
            if isinstance(s, ast.Assign):
                rd = self.used([ast.Expr(s.value)])
                if n in rd: return False
                names = set()
                for t in s.targets:
                    for x in (t.elts if isinstance(t, ast.Tuple) else [t]):
                        if isinstance(x, ast.Name): names.add(x.id)
                        else:
                            if n in {y.id for y in ast.walk(x) if isinstance(y, ast.Name)}: return False
                            b = self.base_name(x)
                if n in names: return True
                # writes through row aliases count as uses of the matrix
                for t in s.targets:
                    for x in (t.elts if isinstance(t, ast.Tuple) else [t]):
                        if isinstance(x, ast.Subscript) and self.base_name(x) in self.rowwrites: return False
                continue
            if isinstance(s, ast.For) and n in self.used(s.body) and n not in self.used([s.iter]) and self.assigned_before_use(s.body, n): continue
            if n in self.used([s]): return False
            if isinstance(s, (ast.For, ast.If)) :
                for y in ast.walk(s):
                    if isinstance(y, ast.Subscript) and isinstance(y.ctx, ast.Store) and self.base_name(y) in self.rowwrites: return False
        return True

    def ret(self, e, env):
        if e is None: return 'tt'
        if self.retexpr: e = self.retexpr(e)
        if self.optret and isinstance(e, ast.Constant) and e.value is None: return 'None'
        v = self.E(e, env)
        if v.t == 'N': v = Val(self.asR(v), 'R')
        self.rett.add(v.t)
        if self.optret: return 'Some %s' % v.s
        return v.s

    def run(self, retexpr=None, body=None):
        self.retexpr = retexpr
        self.rett = set()
        self.in_loop = False
        self.loopvar = []
        self.afterlive = [set()]
        env = {}
        args = [a.arg for a in self.node.args.args if a.arg != 'self'] if hasattr(self.node, 'args') else []
        for a in args:
            if a in self.static or a in self.drop: continue
            t = self.types.get(a, 'R')
            env[a] = t
            self.params.append((a, t))
        self.rowwrites = self.find_rowwrites(body or self.node.body)
        def end(env):
            if getattr(self, 'endret', None):
                return '  ' + self.ret(ast.parse(self.endret, mode='eval').body, env) + '\n'
            raise NotImplementedError('fell off the end')
        return self.block(body or self.node.body, env, end, 1)

TY = {'R': 'R', 'N': 'nat', 'V': 'nat -> R', 'M': 'nat -> nat -> R', 'T': 'nat -> nat -> nat -> R', 'B': 'bool', 'VN': 'nat -> nat', 'Q': 'nat -> nat -> nat -> nat -> R'}
TY['(V V)'] = '(nat -> R) * (nat -> R)'
TY['(V R)'] = '(nat -> R) * R'
TY['(R R)'] = 'R * R'
EMIT = []
DONE = {}

def _patch_name_rows():
    old = Tr.E_Name
    def E_Name(self, e, env):
        rows = env.get('$rows', {})
        if e.id in rows:
            base, idx = rows[e.id]
            t = env.get(base) or self.types.get(base)
            if base not in env: self.param(base, t)
            for _ in idx: t = {'V': 'R', 'M': 'V', 'T': 'M', 'Q': 'T'}[t]
            return Val('(%s %s)' % (nm(base), ' '.join(idx)), t)
        return old(self, e, env)
    Tr.E_Name = E_Name
_patch_name_rows()

def fn(fname, qual, name=None, retexpr=None, note=None, nth=0, order=None, body=None, endret=None, lines=None, prune=False, annot=False, **kw):
    node = find(fname, qual, nth)
    t = Tr(fname, node, **kw)
    t.endret = endret
    stmts = body(node) if body else None
    text = t.run(retexpr, stmts)
    name = name or nm(qual.split('.')[-1])
    ps = t.params
    if order:
        ps = sorted(ps, key=lambda q: order.index(q[0]) if q[0] in order else len(order) + t.params.index(q))
    if prune: ps = [q for q in ps if re.search(r'(?<![\w.])%s(?![\w.])' % re.escape(nm(q[0])), text)]
    sig = ' '.join('(%s : %s)' % (nm(n), TY[ty]) for n, ty in ps)
    lo, hi = lines or (node.lineno, node.end_lineno)
    if stmts and not lines: lo, hi = stmts[0].lineno, stmts[-1].end_lineno
    com = '(* thermo/%s, lines %d-%d: %s.%s *)' % (fname, lo, hi, qual, ' ' + note if note else '')
    out = '%s\nDefinition %s %s%s :=\n%s.\n' % (com, name, sig, ' : ' + TY[list(t.rett)[0]] if annot else '', text.rstrip('\n'))
    EMIT.append(out)
    DONE[name] = (ps, t.rett)
    return t

def link(fname, qual, name=None):
    """call of an already generated function: arguments matched by name"""
    node = find(fname, qual); name = name or nm(qual.split('.')[-1])
    pnames = [a.arg for a in node.args.args if a.arg != 'self']
    def go(tr, e, env, stmt=False):
        got = dict(zip(pnames, e.args)); got.update({k.arg: k.value for k in e.keywords})
        ps, rett = DONE[name]; args = []
        nd = node.args.args[len(node.args.args) - len(node.args.defaults):]
        none = {a.arg for a, d in zip(nd, node.args.defaults) if isinstance(d, ast.Constant) and d.value is None}
        zero = {'V': '(fun _ => 0)', 'M': '(fun _ _ => 0)', 'T': '(fun _ _ _ => 0)', 'Q': '(fun _ _ _ _ => 0)'}
        for pn, ty in ps:
            if ty in zero and ((pn in got and isinstance(got[pn], ast.Constant) and got[pn].value is None) or (pn not in got and pn in none)):
                args.append(zero[ty]); continue
            if pn in got:
                if ty == 'B' and isinstance(got[pn], ast.Constant): args.append('true' if got[pn].value else 'false'); continue
                v = tr.E(got[pn], env); args.append(tr.asR(v) if ty == 'R' else v.s)
            else: args.append(nm(pn) if pn in env else tr.param(pn, ty).s)
        r = rett
        if isinstance(r, set): r, = r
        return Val('(%s)' % ' '.join([name] + args), r)
    return go

def raw(s): EMIT.append(s)

HEADER = '''From Coq Require Import Reals Lra Lia Arith Bool.
From Verif Require Import Base.
Open Scope R_scope.
Open Scope bool_scope.
'''

def emit(title, out, extra=''):
    with open(out, 'w') as f:
        f.write('(* %s\n   Generated by tools/py2v.py from the text of /repo; do not edit by hand. *)\n' % title)
        f.write(HEADER + extra + '\n')
        f.write('\n'.join(EMIT))
    EMIT.clear()
