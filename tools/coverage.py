#!/usr/bin/env python3
# Writes COVERAGE.md: which functions of /repo/thermo are cited by the definitions of the model, and which are not.
import ast, os, re, collections
REPO = '/repo'
TH = os.path.join(os.path.dirname(os.path.abspath(__file__)), '..', 'rocq', 'theories')
files = {}
for d, _, fs in os.walk(REPO + '/thermo'):
    for f in fs:
        if f.endswith('.py'):
            p = os.path.join(d, f)
            files[os.path.relpath(p, REPO)] = p
base = collections.defaultdict(list)
for r in files:
    base[os.path.basename(r)].append(r)
cites = collections.defaultdict(list)
for f in sorted(os.listdir(TH)):
    if not f.endswith('.v'):
        continue
    cur = None
    for c in re.findall(r'\(\*(.*?)\*\)', open(os.path.join(TH, f)).read(), re.S):
        parts = re.split(r'((?:[\w]+/)*\w+\.py)', c)
        if len(parts) == 1 and cur:
            # a comment that gives lines only: of the file named first in the module or at the start of an earlier comment
            for a, b in re.findall(r'(?<![\w.-])(\d{2,5})-(\d{2,5})(?![\w.-])', c) + [(a, a) for a in re.findall(r'lines? (\d+)\b(?!-)', c)]:
                if int(a) <= int(b):
                    cites[cur].append((int(a), int(b), f[:-2]))
        for name, text in zip(parts[1::2], parts[2::2]):
            cand = [r for r in base.get(os.path.basename(name), []) if r.endswith(name)]
            if len(cand) != 1:
                continue
            if cur is None or c.strip().startswith(name):
                cur = cand[0]
            for a, b in re.findall(r'(?<![\w.])(\d{1,5})(?:\s*-\s*(\d{1,5}))?(?![\w.])', text):
                a, b = int(a), int(b or a)
                if a <= b:
                    cites[cand[0]].append((a, b, f[:-2]))
out = ['# Which functions of the code are modelled', '',
       'Made by `tools/coverage.py` from the citations in the comments of the model. A function counts as modelled when a citation',
       'covers it or lies inside it; a citation inside a function means that part of it is modelled, as the comment beside the',
       'definition says. Everything not listed here is not modelled.', '']
tm = tt = 0
rows = []
for r in sorted(files):
    try:
        t = ast.parse(open(files[r]).read())
    except SyntaxError:
        continue
    fs = []
    def walk(n, pre):
        for x in ast.iter_child_nodes(n):
            if isinstance(x, (ast.FunctionDef, ast.AsyncFunctionDef)):
                fs.append((pre + x.name, x.lineno, x.end_lineno))
            elif isinstance(x, ast.ClassDef):
                walk(x, pre + x.name + '.')
            elif isinstance(x, (ast.If, ast.Try)):
                walk(x, pre)
    walk(t, '')
    m = []
    for n, a, b in fs:
        if any((c <= a + 3 and d >= b - 3 and d - c < 4 * (b - a) + 40) or (a <= c and d <= b and d > c) for c, d, _ in cites[r]):
            m.append(n)
    tm += len(m); tt += len(fs)
    rows.append((r, m, len(fs)))
out += ['%d of %d functions in %d files.' % (tm, tt, len(rows)), '', '| file | modelled | functions |', '|---|---|---|']
for r, m, n in rows:
    if n:
        out.append('| `%s` | %d | %d |' % (r, len(m), n))
out.append('')
for r, m, n in rows:
    if m:
        out += ['## `%s`' % r, '', ', '.join('`%s`' % x for x in dict.fromkeys(m)), '']
open(os.path.join(TH, '..', '..', 'COVERAGE.md'), 'w').write('\n'.join(out))
