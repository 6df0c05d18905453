from py2v import *
from fractions import Fraction
F='eos.py'
src=open('/repo/thermo/eos.py').read().split('\n')
tree=load(F)[1]
def classnode(c): return [n for n in tree.body if isinstance(n,ast.ClassDef) and n.name==c][0]
def num(t): return Fraction(t)
def const(c,k):
    n=classnode(c)
    for st in n.body:
        if isinstance(st,ast.Assign) and st.targets[0].id==k:
            seg=ast.get_source_segment('\n'.join(src),st.value)
            v=st.value
            if isinstance(v,ast.BinOp):
                a=ast.get_source_segment('\n'.join(src),v.left).rstrip('.'); b=ast.get_source_segment('\n'.join(src),v.right).rstrip('.')
                q=num(a)/num(b)
            else: q=num(seg)
            d=1
            while (q*d).denominator!=1 and d<10**60 and not isinstance(v,ast.BinOp): d*=10
            if isinstance(v,ast.BinOp): s='%d / %d'%(q.numerator,q.denominator)
            else: s='%d / %d'%(q*d,d)
            raw('(* thermo/eos.py, line %d: %s.%s = %s (full decimal literal; CPython rounds it to a double) *)\nDefinition %s_%s : R := %s.\n'%(st.lineno,c,k,seg,c,k,s))
for c in ['VDW','RK','SRK','PR']:
    for k in ['c1','c2','Zc']: const(c,k)
KEEP={'a','b','delta','epsilon','b0','Pc_inv','Tc_Pc'}
def body(node):
    out=[]
    for s in node.body:
        if not isinstance(s,ast.Assign): continue
        def tn(t): return t.attr if isinstance(t,ast.Attribute) else t.id
        ts=s.targets[0].elts if isinstance(s.targets[0],ast.Tuple) else s.targets
        names=[tn(t) for t in ts]
        if not set(names)<=KEEP: continue
        import copy
        s=copy.deepcopy(s)
        class X(ast.NodeTransformer):
            def visit_Attribute(self,n):
                if isinstance(n.ctx,ast.Store) or n.attr in('b',): return ast.copy_location(ast.Name(id=n.attr,ctx=n.ctx),n)
                return n
        s=X().visit(s)
        if len(s.targets)>1:
            ns=[]
            for t in s.targets:
                if t.id not in ns: ns.append(t.id)
            first=ast.Assign(targets=[ast.Name(id=ns[0],ctx=ast.Store())],value=s.value,lineno=s.lineno); ast.copy_location(first,s); ast.fix_missing_locations(first); first.end_lineno=s.end_lineno
            out.append(first)
            for x in ns[1:]:
                q=ast.Assign(targets=[ast.Name(id=x,ctx=ast.Store())],value=ast.Name(id=ns[0],ctx=ast.Load()),lineno=s.lineno); ast.copy_location(q,s); ast.fix_missing_locations(q); q.end_lineno=s.end_lineno
                out.append(q)
        else: out.append(s)
    return out
def ex(c):
    return {'self.c1':c+'_c1','self.c2':c+'_c2','self.c1R2':'(%s_c1 * (Rgas * Rgas))'%c,'self.c2R':'(%s_c2 * Rgas)'%c,
      'self.c1R2_c2R':'(%s_c1 * (Rgas * Rgas) / (%s_c2 * Rgas))'%(c,c),'R2':'(Rgas * Rgas)'}
N='(assignments of a, b, delta, epsilon)'
fn(F,'PR.__init__',name='PR_init',body=body,endret='(a,b,delta,epsilon)',exprs=ex('PR'),drop=('T','P','V','omega','alpha_coeffs','M','N'),note=N)
fn(F,'PRTranslated.__init__',name='PRTranslated_init',body=body,endret='(a,b,delta,epsilon)',exprs=ex('PR'),drop=('T','P','V','omega','alpha_coeffs','M','N'),note=N)
fn(F,'VDW.__init__',name='VDW_init',body=body,endret='(a,b,0.0,0.0)',exprs=ex('VDW'),drop=('T','P','V','omega','alpha_coeffs','M','N'),note='(a, b; delta = epsilon = 0.0 are class attributes, lines 9134-9137)')
fn(F,'RK.__init__',name='RK_init',body=body,endret='(a,b,delta,0.0)',exprs=ex('RK'),drop=('T','P','V','omega','alpha_coeffs','M','N'),note='(a, b, delta; epsilon = 0.0 is a class attribute, line 9454)')
fn(F,'SRK.__init__',name='SRK_init',body=body,endret='(a,b,delta,0.0)',exprs=ex('SRK'),drop=('T','P','V','omega','alpha_coeffs','M','N'),note='(a, b, delta; epsilon = 0.0 is a class attribute, line 9784)')
fn(F,'SRKTranslated.__init__',name='SRKTranslated_init',body=body,endret='(a,b,delta,epsilon)',exprs=ex('SRK'),drop=('T','P','V','omega','alpha_coeffs','M','N'),note=N)
fn(F,'MSRKTranslated.__init__',name='MSRKTranslated_init',body=body,endret='(a,b,delta,epsilon)',exprs=ex('SRK'),drop=('T','P','V','omega','alpha_coeffs','M','N'),note=N)
fn(F,'GCEOS.discriminant',name='eos_discriminant',exprs={'self.T':('param','T_self','R'),'self.a_alpha_and_derivatives(T, full=False)':('param','a_alpha','R')},
   note='(T, P given; a_alpha is the value a_alpha(T) at the requested T; T_self is the attribute self.T)')
if __name__=='__main__':
    emit('Critical constants, constructors and discriminant (thermo/eos.py)','/verif/rocq/theories/Gen_eoscrit.v')
