#!/usr/bin/env python3
"""Runs Print Assumptions on the theorems named in MANIFEST.json (the build must be complete) and writes ASSUMPTIONS.md.
With file names as arguments, only those files are asked again; the others are taken from the cache directory."""
import collections, json, os, re, subprocess, sys
ROOT = os.path.join(os.path.dirname(os.path.abspath(__file__)), '..')
TH = os.path.join(ROOT, 'rocq', 'theories')
CACHE = os.environ.get('PA_CACHE', '/tmp/pa'); os.makedirs(CACHE, exist_ok=True)
m = json.load(open(os.path.join(ROOT, 'MANIFEST.json')))
where = {}
for f in sorted(os.listdir(TH)):
    if f.endswith('.v'):
        for t in re.findall(r'^\s*(?:Theorem|Lemma|Corollary|Example)\s+(\w+)', open(os.path.join(TH, f)).read(), re.M): where.setdefault(t, f[:-2])
byfile = collections.OrderedDict()
for c in m['claims']:
    for t in c['theorems']: byfile.setdefault(where[t], []).append(t)
res = {}
for f, ts in byfile.items():
    r = os.path.join(CACHE, f'r_{f}.json')
    if not os.path.exists(r) or f in sys.argv[1:]:
        q = os.path.join(CACHE, f'q_{f}.v')
        open(q, 'w').write(f'From Verif Require Import {f}.\n' + ''.join(f'Goal True. idtac "@@{t}". exact I. Qed.\nPrint Assumptions Verif.{f}.{t}.\n' for t in ts))
        p = subprocess.run(['coqc', '-Q', TH, 'Verif', q], capture_output=True, text=True)
        if p.returncode: sys.exit(f + p.stderr[-300:])
        out, cur = {}, None
        for l in p.stdout.split('\n'):
            k = re.match(r'@@(\w+)', l)
            if k: cur = k.group(1); out[cur] = set(); continue
            k = re.match(r"([A-Za-z_][\w.']*)\s*(:|$)", l)
            if cur and k and k.group(1) not in ('Axioms', 'Closed'): out[cur].add(k.group(1))
        json.dump({k: sorted(v) for k, v in out.items()}, open(r, 'w'))
    res.update(json.load(open(r)))
ALL = sorted({a for v in res.values() for a in v})
L = ['# Axioms of each theorem', '', 'Made by tools/assumptions.py from `Print Assumptions`, for every theorem named in MANIFEST.json. All axioms are of the Coq standard library:', '']
L += [f'* **{chr(65 + i)}** `{a}`' for i, a in enumerate(ALL)]
L += ['', '"none" means: closed under the global context.', '', '| property | theorem | axioms |', '|---|---|---|']
for c in m['claims']:
    for t in c['theorems']:
        L.append(f'| {c["property"]} | {t} | {" ".join(chr(65 + ALL.index(a)) for a in res[t]) or "none"} |')
open(os.path.join(ROOT, 'ASSUMPTIONS.md'), 'w').write('\n'.join(L) + '\n')
for k, v in collections.Counter(tuple(v) for v in res.values()).most_common(): print(v, k)
