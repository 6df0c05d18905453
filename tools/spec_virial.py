"""The virial gas phase (thermo/phases/virial_phase.py)."""
from clsgen import *
F='phases/virial_phase.py'
py2v.EMIT.clear(); py2v.DONE.clear()
T={k:'V' for k in 'zs dB_dzs dC_dzs dV_dzs dG_dep_dzs dG_dep_dns out log_phis dG_dep_dns_RT'.split()}
T.update(N='N',i='N')
py2v.raw('''(* chemicals.virial: dV_dzs_virial and dBVirial_mixture_dzs, BVirial_mixture, mixing_simple, as documented there *)
Definition ext_dV_dzs_virial (B C V : R) (dB_dzs dC_dzs : nat -> R) : nat -> R := fun i => V * (V * dB_dzs i + dC_dzs i) / (2 * V * B + V * V + 3 * C).
Definition ext_BVirial_mixture (N : nat) (zs : nat -> R) (Bijs : nat -> nat -> R) : R := rsum N (fun i => rsum N (fun j => zs i * zs j * Bijs i j)).
Definition ext_dBVirial_mixture_dzs (N : nat) (zs : nat -> R) (Bijs : nat -> nat -> R) : nat -> R := fun i => rsum N (fun j => zs j * (Bijs i j + Bijs j i)).
Definition ext_mixing_simple (N : nat) (zs Bs : nat -> R) : R := rsum N (fun i => zs i * Bs i).
''')
PR='V B C dB_dT dC_dT d2B_dT2 d2C_dT2 d3B_dT3 d3C_dT3 dP_dT dP_dV dT_dP_V dV_dP dT_dV G_dep'.split()
EX={'self.%s()'%k:('param',k,'R') for k in PR}
EX.update({'self._V':('param','V','R'),'self.R':'Rgas','R':'Rgas'})
EX.update({'self.%s()'%k:('param',k,'V') for k in 'dB_dzs dC_dzs dV_dzs dG_dep_dns'.split()})
K=Klass(F,'VirialGas',T,{},pre='Vir_',order='N T zs'.split()+PR)
def last_doc(n): return [s for s in copy.deepcopy(n).body if not (isinstance(s,ast.Expr) and isinstance(s.value,ast.Constant))]
FAIL=[]
KEEP='dP_dT dP_dV'.split()
def g(m,body=last_doc,**k):
    e=dict(EX)
    for d in K.done:
        if d not in KEEP: e.pop('self.%s()'%d,None)
    dn={d:K.done.pop(d) for d in KEEP if d in K.done}
    try: K.gen(m,exprs=e,body=body,**k)
    except Exception as x: print('FAIL',m,type(x).__name__,x); FAIL.append(m)
    K.done.update(dn)
for m in 'dP_dT dP_dV d2P_dTdV d2P_dV2 d2P_dT2 H_dep dH_dep_dT S_dep dS_dep_dT dB_dP_V dC_dP_V d2B_dTdP_V d2C_dTdP_V d3B_dT2dP_V d3C_dT2dP_V dB_dV_P dC_dV_P d2B_dTdV_P d2C_dTdV_P d3B_dT2dV_P d3C_dT2dV_P dH_dep_dP_V dS_dep_dP_V dH_dep_dP_T dS_dep_dP_T dH_dep_dV_T dS_dep_dV_T dH_dep_dV_P dS_dep_dV_P lnphi dG_dep_dzs'.split(): g(m)
def sub(*subs):
    def bd(n):
        t='\n'.join(ast.unparse(x) for x in last_doc(n))
        for a,b in subs:
            assert a in t,(a,t); t=t.replace(a,b)
        out=ast.parse(t).body
        for s_ in out:
            for q in ast.walk(s_):
                if hasattr(q,'lineno'): q.lineno=n.lineno; q.end_lineno=n.end_lineno
        return out
    return bd
py2v.emit('The virial gas phase (thermo/phases/virial_phase.py)','/verif/rocq/theories/Gen_virial.v','')
