#!/usr/bin/env python3
"""Write rocq/theories/Gen_joback.v: the table JOBACK_GROUPS of
/repo/thermo/group_contribution/joback.py (lines 230-272), read as text."""
import ast, os
from fractions import Fraction
SRC = '/repo/thermo/group_contribution/joback.py'
OUT = os.path.join(os.path.dirname(os.path.abspath(__file__)), '..', 'rocq', 'theories', 'Gen_joback.v')
F = ['Tc', 'Pc', 'Vc', 'Tb', 'Tm', 'Hform', 'Gform', 'Cpa', 'Cpb', 'Cpc', 'Cpd', 'Hfus', 'Hvap', 'mua', 'mub']
src = open(SRC, encoding='utf-8').read()
tree = ast.parse(src)

def lit(node):
    txt = ast.get_source_segment(src, node).strip()
    if txt == 'None':
        return 'None'
    q = Fraction(txt)
    n = str(q.numerator) if q.numerator >= 0 else '(- %d)' % -q.numerator
    return 'Some %s' % n if q.denominator == 1 else 'Some (%s / %d)' % (n, q.denominator)

rows, lo, hi = [], 0, 0
for node in tree.body:
    if isinstance(node, ast.Assign) and node.targets[0].id == 'JOBACK_GROUPS' if isinstance(node, ast.Assign) and isinstance(node.targets[0], ast.Name) else False:
        lo, hi = node.lineno, node.end_lineno
        for k, v in zip(node.value.keys, node.value.values):
            kw = {a.arg: a.value for a in v.keywords}
            rows.append((k.value, ast.literal_eval(kw['group']), [lit(kw[f]) if f in kw else 'None' for f in F], v.lineno))
o = ['(* Generated by tools/gen_joback.py from thermo/group_contribution/joback.py:%d-%d. Do not edit. *)' % (lo, hi),
     'From Coq Require Import Reals.', 'Local Open Scope R_scope.', '',
     '(* joback.py:180-228, the numeric slots of JobackGroupContribution; a slot may be None *)',
     'Record jgroup := JG {']
o += ['  j_%s : option R%s' % (f, ';' if f != F[-1] else '') for f in F]
o += ['}.', '', '(* joback.py:%d-%d, JOBACK_GROUPS: the contributions of a group by its number; None: no such key *)' % (lo, hi),
      'Definition JOBACK_GROUPS (g : nat) : option jgroup :=', '  match g with']
for k, name, vals, ln in rows:
    o.append('  | %d%%nat => (* line %d, %s *)' % (k, ln, name.replace('≡', '#').replace('*)', '* )')))
    o.append('    Some (JG %s)' % ' '.join('(%s)' % v for v in vals))
o += ['  | _ => None', '  end.', '']
open(OUT, 'w').write('\n'.join(o))
print(len(rows))
