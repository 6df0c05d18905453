# Lists the functions of /repo that accept optional pre-allocated lists and writes, for each one that is modelled, the statement that the
# result does not depend on what those lists contained.  Output: rocq/theories/Prop_C27.v (statements; the proof script of each is chosen here).
import ast, glob, re, subprocess, os, sys
TH = '/verif/rocq/theories'
sig = {}; mods = []
for g in sorted(glob.glob(TH + '/Gen_*.v')):
    for m in re.finditer(r'^Definition (\w+) (.*?):=', open(g).read(), re.M | re.S): sig[m.group(1)] = (' '.join(m.group(2).split()), os.path.basename(g)[:-2])
found = []
for f in ['activity', 'nrtl', 'wilson', 'uniquac', 'regular_solution', 'eos_mix_methods', 'eos_alpha_functions', 'unifac']:
    for n in ast.walk(ast.parse(open('/repo/thermo/%s.py' % f).read())):
        if isinstance(n, ast.FunctionDef):
            bs = []
            for s in ast.walk(n):
                if isinstance(s, ast.If) and isinstance(s.test, ast.Compare) and isinstance(s.test.ops[0], ast.Is) and isinstance(s.test.left, ast.Name) and s.body and isinstance(s.body[0], ast.Assign) and isinstance(s.body[0].targets[0], ast.Name) and s.body[0].targets[0].id == s.test.left.id:
                    v = ast.unparse(s.body[0].value)
                    if '0.0]' in v or 'zeros' in v or '1.0]' in v: bs.append(s.test.left.id)
            if bs and n.name in sig: found.append((n.name, bs, f, n.lineno))
FIXED = {'wilson_gammas': ['gammas']}  # accumulates into this list, see C27_wilson_gammas_refuted
SKIP = {'PR_lnphis', 'UNIQUAC_gammas_binaries', 'wilson_gammas_from_args', 'a_alpha_aijs_composition_independent', 'a_alpha_quadratic_terms', 'a_alpha_and_derivatives_quadratic_terms'}
# more list arguments that receive results but have no default
EXTRA = {'nrtl_gammas_from_args': ['gammas', 'vec0', 'vec1'], 'a_alpha_aijs_composition_independent': []}
mods = sorted({sig[n][1] for n, *_ in found})
# return types from Coq
chk = '/root/scratch/c27/chk.v'
open(chk, 'w').write('From Coq Require Import Reals.\nFrom Verif Require Import Base %s.\nSet Printing Width 100000.\n' % ' '.join(mods) + ''.join('Check %s.\n' % n for n, *_ in found))
out = subprocess.run(['coqc', '-Q', TH, 'Verif', chk], capture_output=True, text=True, cwd='/root/scratch/c27').stdout
ty = {}
for m in re.finditer(r'^(\w+)\s*:\s*(.*?)(?=^\w|\Z)', out, re.M | re.S): ty[m.group(1)] = ' '.join(m.group(2).split())
def toplevel(s):
    parts, d, cur = [], 0, ''
    i = 0
    while i < len(s):
        if s[i] == '(': d += 1
        if s[i] == ')': d -= 1
        if d == 0 and s.startswith('->', i): parts.append(cur.strip()); cur = ''; i += 2; continue
        cur += s[i]; i += 1
    return parts + [cur.strip()]
PROOF = {}
exec(open(os.path.join(os.path.dirname(os.path.abspath(__file__)), 'buffers_proofs.py')).read()) if os.path.exists(os.path.join(os.path.dirname(os.path.abspath(__file__)), 'buffers_proofs.py')) else None
def stmt(name, bs):
    s, _ = sig[name]
    ps = re.findall(r'\((\w+) : ([^()]*)\)', s)
    parts = toplevel(ty[name]); ret = ' -> '.join(parts[len(ps):])
    bs = [b for b in bs if b not in FIXED.get(name, [])] + EXTRA.get(name, [])
    bs = [p for p, t in ps if p in bs or p.rstrip('_') in bs]
    N = [p for p, t in ps if t == 'nat'][0]
    binders = ' '.join('(%s : %s)' % (p, t) for p, t in ps) + ' ' + ' '.join("(%s' : %s)" % (p, t) for p, t in ps if p in bs)
    a = '%s %s' % (name, ' '.join(p for p, t in ps)); b = '%s %s' % (name, ' '.join(p + "'" if p in bs else p for p, t in ps))
    comps = [c.strip() for c in re.split(r'\*', ret)]
    def eq(x, y, t):
        t = t.strip()
        while t.startswith('(') and t.endswith(')'): t = t[1:-1]
        k = t.count('nat')
        ix = ['i', 'j', 'k'][:k]
        if k == 0: return '%s = %s' % (x, y)
        return 'forall %s, %s -> %s %s = %s %s' % (' '.join(ix), ' -> '.join('(%s < %s)%%nat' % (v, N) for v in ix), x, ' '.join(ix), y, ' '.join(ix))
    if len(comps) == 1: body = eq('(%s)' % a, '(%s)' % b, ret)
    else:
        def proj(x, k, n):
            if n == 1: return x
            if k == n - 1: return '(snd %s)' % x
            return proj('(fst %s)' % x, k, n - 1)
        body = ' /\\ '.join('(%s)' % eq(proj('(%s)' % a, k, len(comps)), proj('(%s)' % b, k, len(comps)), c) for k, c in enumerate(comps))
    return binders, body
if __name__ == '__main__':
    o = []
    found.sort(key=lambda t: ' C27_' in PROOF.get(t[0], '') or '(C27_' in PROOF.get(t[0], ''))
    for name, bs, f, ln in found:
        if name in SKIP: continue
        binders, body = stmt(name, bs)
        o.append('(* thermo/%s.py line %d: %s *)\nTheorem C27_%s %s : %s.\nProof. %s Qed.' % (f, ln, ', '.join([b for b in bs if b not in FIXED.get(name, [])] + EXTRA.get(name, [])), name, binders, body, PROOF.get(name, 'buf.')))
    h = lambda f: open(os.path.join(os.path.dirname(os.path.abspath(__file__)), f)).read()
    open(TH + '/Prop_C27.v', 'w').write(h('buffers_head.txt') + '\n'.join(o) + '\n' + h('buffers_foot.txt'))
