"""Writes ../MANIFEST.json from claims.txt. A name ending in * stands for all theorems with that prefix."""
import json, re, glob
P, Q, N = 'proved', 'partial', 'not_applicable'
names = []
for f in sorted(glob.glob('../rocq/theories/*.v')):
    names += re.findall(r'^ *(?:Theorem|Corollary) (\w+)', open(f).read(), re.M)
claims = []
def c(pid, status, theorems, note):
    ts = []
    for t in theorems.split():
        if t.endswith('*'):
            m = [n for n in names if n.startswith(t[:-1])]
            assert m, t
            ts += [n for n in m if n not in ts]
        else:
            assert t in names, t
            if t not in ts: ts.append(t)
    claims.append({'property': pid, 'status': status, 'theorems': ts, 'note': note})
exec(open('claims.txt').read())
claims.sort(key=lambda d: d['property'])
used = {t for d in claims for t in d['theorems']}
for n in names:
    if n not in used: print('unclaimed:', n)
props = [json.loads(l)['id'] for l in open('../properties.jsonl')]
print('no claim:', [p for p in props if p not in {d['property'] for d in claims}])
print('unknown property:', [d['property'] for d in claims if d['property'] not in props])
json.dump({'claims': claims}, open('../MANIFEST.json', 'w'), indent=1)
