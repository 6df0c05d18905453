"""Phases given by a Helmholtz energy or a Gibbs energy (thermo/phases/helmholtz_eos.py, gibbs_eos.py)."""
from clsgen import *
py2v.EMIT.clear(); py2v.DONE.clear()
FAIL=[]
def last_doc(n): return [s for s in copy.deepcopy(n).body if not (isinstance(s,ast.Expr) and isinstance(s.value,ast.Constant))]
def g(KK,EX,m,body=last_doc,**k):
    e=dict(EX)
    for d in KK.done: e.pop('self.%s()'%d,None)
    try: KK.gen(m,exprs=e,body=body,**k)
    except Exception as x: print('FAIL',m,type(x).__name__,x); FAIL.append(m)
F='phases/helmholtz_eos.py'
FUN='Ar dAr_ddelta d2Ar_ddelta2 d3Ar_ddelta3 dAr_dtau d2Ar_dtau2 d2Ar_ddeltadtau d3Ar_ddelta2dtau d3Ar_ddeltadtau2 d4Ar_ddeltadtau3 d4Ar_ddelta2dtau2'.split()
EX={'self._%s_func(self.tau, self.delta)'%f:('param',f,'R') for f in FUN}
EX.update({'self._%s_func(self.tau, delta)'%f:('param',f,'R') for f in FUN})
EX.update({'self._%s_func(%s, 0.0)'%(f,t):('param',f+'_0','R') for f in FUN for t in ('tau','self.tau')})
EX.update({'self.R':('param','Rg','R'),'self._V':('param','V','R'),'self.rho()':'(1 / V)'})
EX['self.rho()']=('param','rho','R')
for k in 'dV_dT_P dT_dP_V dT_dV_P'.split(): EX['self.%s()'%k]=('param',k[:5],'R')
ATTR='Rg T V rho T_red rho_red rho_red_inv tau delta A0 dA0_dtau d2A0_dtau2'.split()
K=Klass(F,'HelmholtzEOS',{},{},pre='HE_',order=ATTR+FUN+[f+'_0' for f in FUN]+'dV_dT dT_dP dT_dV'.split())
one=lambda n:[copy.deepcopy(s) for s in last_doc(n)]
class L0(ast.NodeTransformer):
    def visit_Return(self,n):
        if isinstance(n.value,ast.List) and len(n.value.elts)==1: n.value=n.value.elts[0]
        self.generic_visit(n); return n
    def visit_Assign(self,n):
        if isinstance(n.value,ast.List) and len(n.value.elts)==1: n.value=n.value.elts[0]
        self.generic_visit(n); return n
    def visit_Subscript(self,n):
        self.generic_visit(n)
        return n.value if isinstance(n.value,ast.Call) and ast.unparse(n.slice)=='0' else n
def lst(n): return [L0().visit(s) for s in last_doc(n)]
# the value of a function at (tau, 0): the branches for exceptions and nan, which repeat the call at 1e-20, are left out
def zero(n):
    out=[]
    for s in last_doc(n):
        if isinstance(s,ast.Try): out+=s.body
        elif isinstance(s,ast.If) and 'isnan' in ast.unparse(s.test): pass
        elif isinstance(s,ast.Assign) and ast.unparse(s.targets[0]) in('fail','do_zero'): pass
        else: out.append(s)
    return out
for m in 'A dA_ddelta d2A_ddelta2 d3A_ddelta3 dA_dtau d2A_dtau2 d2A_ddeltadtau d3A_ddelta2dtau d3A_ddeltadtau2'.split(): g(K,EX,m)
al=lambda a,m:K.done.__setitem__(a,K.done[m])
g(K,EX,'dP_dT'); g(K,EX,'dP_dV'); al('dP_dT_V','dP_dT'); al('dP_dV_T','dP_dV')
for m in 'd2P_dT2 d2P_dV2 d2P_dTdV S S_dep dS_dT_V dS_dV_T dS_dP_T dS_dT_P dS_dP_V H H_dep dH_dT_V dH_dV_T dH_dP_V dH_dP_T Cv Cp'.split(): g(K,EX,m)
al('dH_dT_P','Cp'); g(K,EX,'dH_dV_P')
L1='(the list of one value is written as the value)'
for m in 'lnphis dlnphis_dV_T dlnphis_dT_V dlnphis_dT_P dlnphis_dP_V dlnphis_dV_P dlnphis_dP_T'.split(): g(K,EX,m,lst,note='(without the cache; the list of one value is written as the value)')
Z='(without the cache; functions that raise or give nan at zero density, and are then called at 1e-20, are not modelled)'
for m in 'B_virial dB_virial_dT d2B_virial_dT2 d3B_virial_dT3 C_virial dC_virial_dT d2C_virial_dT2'.split(): g(K,EX,m,zero,note=Z)
# GibbsEOS
GD='G dG_dT dG_dP d2G_dT2 d2G_dP2 d2G_dTdP d3G_dP3 d3G_dT3 d3G_dT2dP d3G_dTdP2'.split()
EG={'self.%s()'%k:('param',k,'R') for k in GD}
KG=Klass('phases/gibbs_eos.py','GibbsEOS',{},{},pre='GE_',order=['T','P']+GD)
for m in 'V dV_dP dP_dV d2V_dP2 dV_dT dT_dV d2V_dT2 d2V_dTdP dP_dT dT_dP H S Cp U A dS_dT d2S_dT2 dS_dP d2S_dP2 d2S_dTdP'.split(): g(KG,EG,m)
py2v.emit('Phases given by a Helmholtz energy or a Gibbs energy (thermo/phases/helmholtz_eos.py, thermo/phases/gibbs_eos.py)','/verif/rocq/theories/Gen_helmholtz.v','')
