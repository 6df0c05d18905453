from py2v import *
import copy, sys
from spec_mix import VV, C, w2f
import py2v
FM='eos_mix.py'
py2v.EMIT.clear()
LK={q:link('eos_mix_methods.py',q) for q in py2v.DONE}
NV={'self.vectorized':False,'vectorized':False,"phase == 'g'":True,"phase == 'l'":True}
VN=dict(VV); VN.update({k:'V' for k in '_a_alpha_j_rows _da_alpha_dT_j_rows _d2a_alpha_dT2_j_rows d_Vs d_epsilons d_deltas dnV_dns dV_dns dV_dzs db_dns ddelta_dns depsilon_dns da_alpha_dns da_alpha_dT_dns d2a_alpha_dT2_dns da_alpha_dT_dzs a_alpha_j_rows da_alpha_dT_j_rows d2a_alpha_dT2_j_rows zs bs dS_dep_dzs dH_dep_dzs'.split()})
VN.update({k:'M' for k in 'a_alpha_ijs da_alpha_dT_ijs d2a_alpha_dT2_ijs d2Vs d2bs d2_epsilons d2_deltas d2a_alphas d2b_dninjs d2delta_dninjs d2epsilon_dninjs d2a_alpha_dninjs'.split()})
VN.update({k:'T' for k in 'd3b_dninjnks d3a_alpha_dninjnks d3delta_dninjnks d3epsilon_dninjnks'.split()})
VN['n']='B'
def P(n,t): return ('param',n,t)
EX={'self.dV_dzs(Z)':P('dV_dzs','V'),'self.dV_dns(Z)':P('dV_dns','V'),'self.dH_dep_dzs(Z)':P('dH_dep_dzs','V'),'self.dG_dep_dzs(Z)':P('dG_dep_dzs','V'),
 'self.dP_dns_Vt(phase)':P('dP_dns_Vt','V'),'self.d2P_dninjs_Vt(phase)':P('d2P_dninjs_Vt','M'),'self.dlnphi_dns(Z)':P('dlnphi_dns','V'),'self.d2lnphi_dninjs(Z)':P('d2lnphi_dninjs','M'),
 'self._dnz_derivatives_and_departures(V)[3]':P('d2V_dPdns','V'),'self._dnz_derivatives_and_departures(V, n=True)[2]':P('d2V_dTdns','V')}
bad=[]
def g(q,name=None,**k):
    try:
        fn(FM,q,name=name or q.replace('.','_').replace('__','_'),types=VN,static=NV,consts=C,exprs=EX,calls=LK,annot=True,**k)
    except Exception as e:
        bad.append(q); print('FAIL',q,type(e).__name__,e)
L={'self.bs':'N_','bs':'N_','bs2':'N_','a_alpha_j_rows':'N_','da_alpha_dT_j_rows':'N_','d2a_alpha_dT2_j_rows':'N_','dV_dzs':'N_','zs':'N_'}
# mixture parameters: attributes set by the constructors and by the fast copy constructor
class SelfToName(ast.NodeTransformer):
    def visit_Attribute(self,n):
        self.generic_visit(n)
        if isinstance(n.value,ast.Name) and n.value.id in('self','other'): return ast.copy_location(ast.Name(id=n.attr,ctx=n.ctx),n)
        return n
class NameToSelf(ast.NodeTransformer):
    def visit_Name(self,n):
        if n.id in('bs','b0s','cs','zs','N') and isinstance(n.ctx,ast.Load): return ast.copy_location(ast.Attribute(value=ast.Name(id='self',ctx=ast.Load()),attr=n.id,ctx=ast.Load()),n)
        return n
def names(e): return {x.id for x in ast.walk(e) if isinstance(x,ast.Name)}
def stores(s): return {x.id for x in ast.walk(s) if isinstance(x,ast.Name) and isinstance(x.ctx,ast.Store)}
def slicer(outs,stop):
    def body(node):
        b=[SelfToName().visit(s) for s in copy.deepcopy(node).body if not(isinstance(s,ast.Expr) and isinstance(s.value,ast.Constant))]
        def flat(b):
            o=[]
            for s in b:
                if isinstance(s,ast.If) and ast.unparse(s.test) in('vectorized',): o+=flat(s.orelse)
                elif isinstance(s,ast.Expr): pass
                elif isinstance(s,ast.Assign) and len(s.targets)>1:
                    for t in reversed(s.targets): o.append(ast.copy_location(ast.Assign(targets=[t],value=s.value if t is s.targets[-1] else ast.Name(id=s.targets[-1].id,ctx=ast.Load())),s))
                elif isinstance(s,ast.For) and isinstance(s.iter,ast.Call) and getattr(s.iter.func,'id','')=='zip':
                    # for x, y in zip(xs, ys): body   ->   for i in range(N): body with xs[i], ys[i]
                    m={t.id:l for t,l in zip(s.target.elts,s.iter.args)}
                    class X(ast.NodeTransformer):
                        def visit_Name(self,n):
                            if n.id in m: return ast.copy_location(ast.Subscript(value=m[n.id],slice=ast.Name(id='i',ctx=ast.Load()),ctx=ast.Load()),n)
                            return n
                    o.append(ast.copy_location(ast.For(target=ast.Name(id='i',ctx=ast.Store()),iter=ast.parse('range(N)',mode='eval').body,body=[X().visit(q) for q in s.body],orelse=[]),s))
                elif isinstance(s,ast.For):
                    if isinstance(s.iter,ast.Name) and s.iter.id=='cmps': s.iter=ast.parse('range(N)',mode='eval').body
                    o.append(s)
                elif isinstance(s,ast.Assign) and isinstance(s.targets[0],ast.Tuple) and isinstance(s.value,ast.Tuple):
                    for t,v in zip(s.targets[0].elts,s.value.elts): o.append(ast.copy_location(ast.Assign(targets=[t],value=v),s))
                elif isinstance(s,(ast.Assign,ast.AugAssign)): o.append(s)
            return o
        b=flat(b); need=set(outs); keep=[]
        for s in reversed(b):
            st=stores(s)
            if st & need and not (st&set(stop+('N','cmps'))):
                if isinstance(s,ast.Assign) and isinstance(s.value,ast.Name) and s.value.id==s.targets[0].id: continue
                keep.append(s)
                if isinstance(s,ast.For): need|={x for x in names(s)}-{'i'}
                elif isinstance(s,ast.Assign): need=(need-st)|names(s.value)
                else: need|=names(s)
        keep.reverse()
        keep=[NameToSelf().visit(s) for s in keep]
        for s in keep: ast.fix_missing_locations(s)
        return keep
    return body
PAR=[]
def par(cls,meth,outs,name):
    try:
        fn(FM,cls+'.'+meth,name=name,types=VN,consts=C,prune=True,body=slicer(outs,('bs','b0s','cs','zs')),endret='('+', '.join(outs)+')' if len(outs)>1 else outs[0],
           note='(the statements that set %s; list paths, not numpy)'%', '.join(outs))
        PAR.append(name)
    except Exception as e: print('FAIL',name,type(e).__name__,e)
for cls,outs in [('RKMIX',('b','delta')),('PRMIX',('b','delta','epsilon')),('PRMIXTranslated',('c','b','delta','epsilon')),('PRMIXTranslatedConsistent',('c','b','delta','epsilon')),('SRKMIX',('b','delta')),('SRKMIXTranslated',('c','b','delta','epsilon')),('SRKMIXTranslatedConsistent',('c','b','delta','epsilon')),('VDWMIX',('b',)),('PRSVMIX',('b','delta','epsilon')),('PRSV2MIX',('b','delta','epsilon')),('TWUPRMIX',('b','delta','epsilon')),('TWUSRKMIX',('b','delta')),('APISRKMIX',('b','delta'))]:
    par(cls,'__init__',outs,cls+'_init_params')
    par(cls,'_fast_init_specific',outs,cls+'_fast_params')
for q in '_a_alpha_j_rows _da_alpha_dT_j_rows _d2a_alpha_dT2_j_rows'.split(): g('GCEOSMIX.'+q,tryexc={'*':'except'})
for q in 'db_dzs db_dns dnb_dns d2b_dzizjs da_alpha_dzs da_alpha_dns dna_alpha_dns d2a_alpha_dzizjs d2a_alpha_dninjs da_alpha_dT_dzs da_alpha_dT_dns dna_alpha_dT_dns d2a_alpha_dT2_dzs d2a_alpha_dT2_dns'.split():
    g('GCEOSMIX.'+q,tryexc={'*':'body'},lens=L)
g('GCEOSMIX.d3a_alpha_dninjnks',drop=('l','row'))
raw('''(* thermo/eos_mix.py, lines 2745-2776: GCEOSMIX.d2b_dninjs (list path: rows built with append, entry [i][j] = bb - bs[i] - bs[j]). *)
Definition GCEOSMIX_d2b_dninjs (b : R) (bs : nat -> R) : nat -> nat -> R :=
  let bb := 2 * b in
  fun i j => bb - bs i - bs j.
''')
raw('''(* thermo/eos_mix.py, lines 2801-2840: GCEOSMIX.d3b_dninjnks (list path: nested lists built with append). *)
Definition GCEOSMIX_d3b_dninjnks (b : R) (bs : nat -> R) : nat -> nat -> nat -> R :=
  let n6b := - 6 * b in
  let bs2 := fun i => bs i + bs i in
  fun i j k => let base := n6b + bs2 i + bs2 j in base + bs2 k.
''')
py2v.DONE['GCEOSMIX_d2b_dninjs']=([('b','R'),('bs','V')],{'M'})
for cls in ('EpsilonZeroMixingRules','RKMIX','PRMIX','PRMIXTranslated','SRKMIXTranslated','VDWMIX'):
    for q in 'ddelta_dzs ddelta_dns d2delta_dzizjs d2delta_dninjs d3delta_dninjnks depsilon_dzs depsilon_dns d2epsilon_dzizjs d2epsilon_dninjs d3epsilon_dninjnks'.split():
        try: find(FM,cls+'.'+q)
        except Exception: continue
        g(cls+'.'+q,lens=L)
if __name__=='__main__':
    py2v.emit('Mixture equations of state: parameters and composition derivatives (thermo/eos_mix.py)','/verif/rocq/theories/Gen_eosmix.v','From Verif Require Import Gen_mix.\n')
