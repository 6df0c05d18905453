"""The activity coefficient liquid phase (thermo/phases/gibbs_excess.py)."""
from clsgen import *
from spec_uniquac import gl
import re
F='phases/gibbs_excess.py'
py2v.EMIT.clear(); py2v.DONE.clear()
VEC='zs log_zs Psats dPsats_dT d2Psats_dT2 lnPsats dPsats_dT_over_Psats d2Psats_dT2_over_Psats Vms_sat dVms_sat_dT d2Vms_sat_dT2 phis_sat dphis_sat_dT d2phis_sat_dT2 gammas dgammas_dT Cpigs_pure Cpig_integrals_pure Cpig_integrals_over_T_pure Hvaps Poyntings dPoyntings_dT d2Poyntings_dT2 dPoyntings_dP d2Poyntings_dPdT phis dphis_dT Tait_Bs Tait_Cs dTait_B_dTs dTait_C_dTs'.split()
T={k:'V' for k in VEC}
T.update({k:'V' for k in 'dPoyntings_dPs dphis_dTl lnphis Vms dH_dP_integrals_Tait out Vms_sat_dT Tcs Tcs_inv dHvaps_dT'.split()})
T.update(N='N',i='N',use_Poynting='B',use_phis_sat='B',use_Hvap_caloric='B',composition_independent='B')
SC='HE SE CpE dSE_dT'.split()
EX={'self.%s()'%k:('param',k,'V') for k in VEC if k not in('zs',)}
EX.update({'self.GibbsExcessModel.%s()'%k:('param',k,'R') for k in SC})
EX['self.GibbsExcessModel.dgammas_dT()']=('param','dgammas_dT','V')
EX.update({'R':'Rgas','R_inv':'(/ Rgas)','self.zs':('param','zs','V')})
LK={'trunc_exp':('exp',['R'],'R')}
K=Klass(F,'GibbsExcessLiquid',T,LK,pre='GX_',order='N use_Poynting use_phis_sat use_Hvap_caloric composition_independent T P P_REF_IG_INV zs'.split()+VEC+SC)
FAIL=[]
def last_doc(n): return [s for s in copy.deepcopy(n).body if not (isinstance(s,ast.Expr) and isinstance(s.value,ast.Constant))]
def text(n): return '\n'.join(ast.unparse(x) for x in last_doc(n))
def prep(n,subs):
    t=text(n)
    # cached attributes: try: X = self._X except: X = self.X()  ->  X = self.X()
    t=re.sub(r'try:\n(\s+)(\w+) = self\._\w+\n(\s*)except AttributeError:\n\s+\2 = self\.(\w+)\(\)',r'\2 = self.\4()',t)
    t=re.sub(r"\n\s*'''.*?'''",'',t,flags=re.S); t=re.sub(r'\n\s*""".*?"""','',t,flags=re.S)
    for a,b in subs:
        assert a in t,(a,t); t=t.replace(a,b)
    t=t.replace('zs, cmps = (self.zs, range(self.N))','zs = self.zs').replace('T, zs, cmps = (self.T, self.zs, range(self.N))','T, zs = (self.T, self.zs)')
    t=t.replace('in cmps','in range(N)').replace('range(self.N)','range(N)')
    if 'range(N)' in t or '* self.N' in t: t='N = self.N\n'+t.replace('self.N','N')
    t=re.sub(r'\n.*cmps = range\(N\)','',t)
    class FL(ast.NodeTransformer):
        def visit_If(self,q):
            self.generic_visit(q)
            if ast.unparse(q.test) in('use_Poynting','use_phis_sat') and not q.orelse and all(isinstance(z,ast.Assign) and 'self.' in ast.unparse(z.value) for z in q.body): return q.body
            return q
    out=FL().visit(ast.parse(t)).body
    for s_ in out:
        for q in ast.walk(s_):
            if hasattr(q,'lineno'): q.lineno=n.lineno; q.end_lineno=n.end_lineno
    return appends(out)
def g(m,*subs,**k):
    e=dict(EX)
    for d in K.done: e.pop('self.%s()'%d,None)
    k.setdefault('note','(without the cache; list path; trunc_exp is exp)')
    try: K.gen(m,exprs=e,body=lambda n:prep(n,subs),**k)
    except Exception as x: print('FAIL',m,type(x).__name__,str(x)[:1500]); FAIL.append(m)
g('Poyntings',('[trunc_exp(Vml * (P - Psat) * RT_inv) for Psat, Vml in zip(Psats, Vms_sat)]','[trunc_exp(Vms_sat[i] * (P - Psats[i]) * RT_inv) for i in range(N)]'))
for m in 'dPoyntings_dT d2Poyntings_dT2 dPoyntings_dP d2Poyntings_dPdT phis'.split(): g(m)
D0=[('if self.use_Poynting:\n    dPoyntings_dT = self.dPoyntings_dT()\n    Poyntings = self.Poyntings()\nelse:\n    dPoyntings_dT = [0.0] * self.N\n    Poyntings = [1.0] * self.N','dPoyntings_dT = self.dPoyntings_dT() if self.use_Poynting else [0.0]*N\nPoyntings = self.Poyntings() if self.use_Poynting else [1.0]*N'),
 ('if self.use_phis_sat:\n    dphis_sat_dT = self.dphis_sat_dT()\n    phis_sat = self.phis_sat()\nelse:\n    dphis_sat_dT = [0.0] * self.N\n    phis_sat = [1.0] * self.N','dphis_sat_dT = self.dphis_sat_dT() if self.use_phis_sat else [0.0]*N\nphis_sat = self.phis_sat() if self.use_phis_sat else [1.0]*N')]
g('dphis_dT',*D0)
g('dlnphis_dT',('[i / j for i, j in zip(dphis_dT, phis)]','[dphis_dT[i] / phis[i] for i in range(self.N)]'))
g('dlnphis_dP')
for m in 'H S Cp dS_dT dH_dP dS_dP'.split(): g(m)
for m,a in (('V',('Vms = self.Vms()','Vms = self.Vms_sat()')),('dV_dT',None),('d2V_dT2',None),('Tait_Vs',None),('dH_dP_integrals_Tait',None)): g(m,*([a] if a else []))
py2v.emit('The activity coefficient liquid phase (thermo/phases/gibbs_excess.py)','/verif/rocq/theories/Gen_gex.v','')
