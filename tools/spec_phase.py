"""Derived properties of a phase (thermo/phases/phase.py): Phase in terms of its P-V-T derivatives, H, S and their derivatives, and
IdealGasDeparturePhase in terms of the departure functions."""
from clsgen import *
F='phases/phase.py'
py2v.EMIT.clear(); py2v.DONE.clear()
T={k:'V' for k in 'zs MWs Cpigs_pure Cpig_integrals_pure Cpig_integrals_over_T_pure dCpigs_dT_pure log_zs dV_dzs dH_dzs dS_dzs dH_dep_dzs dS_dep_dzs out Hfs Sfs'.split()}
T.update(N='N',i='N')
py2v.raw('''(* External formulas of the chemicals package, as documented there (chemicals.utils and chemicals.virial) *)
Definition ext_Cp_minus_Cv (T dP_dT dP_dV : R) : R := - T * (dP_dT * dP_dT) / dP_dV.
Definition ext_isentropic_exponent_PV (Cp Cv Vm P dP_dV_T : R) : R := - Vm * Cp * dP_dV_T / (P * Cv).
Definition ext_isentropic_exponent_PT (Cp P dV_dT_P : R) : R := 1 / (1 - P * dV_dT_P / Cp).
Definition ext_isentropic_exponent_TV (Cv Vm dP_dT_V : R) : R := 1 + Vm * dP_dT_V / Cv.
(* Joule_Thomson(T, V, Cp, dV_dT, beta) uses dV_dT when it is given *)
Definition ext_Joule_Thomson (T V Cp dV_dT beta : R) : R := (T * dV_dT - V) / Cp.
Definition ext_speed_of_sound (V dP_dV Cp Cv : R) : R := sqrt (- (V * V) * dP_dV * Cp / Cv).
Definition ext_phase_identification_parameter (V dP_dT dP_dV d2P_dV2 d2P_dTdV : R) : R := V * (d2P_dTdV / dP_dT - d2P_dV2 / dP_dV).
Definition ext_B_from_Z (Z T P : R) : R := (Z - 1) * Rgas * T / P.
Definition ext_c_ideal_gas (T k MW : R) : R := sqrt (k * (Rgas * 1000 / MW) * T).
Definition ext_property_molar_to_mass (A MW : R) : R := A * 1000 / MW.
(* chemicals.utils: mole number derivatives of an intensive property, and of n times it *)
Definition ext_dxs_to_dns (N : nat) (dxs xs : nat -> R) : nat -> R := fun i => dxs i - rsum N (fun j => xs j * dxs j).
Definition ext_dns_to_dn_partials (dns : nat -> R) (F : R) : nat -> R := fun i => dns i + F.
Definition ext_dxs_to_dn_partials (N : nat) (dxs xs : nat -> R) (F : R) : nat -> R := fun i => dxs i - rsum N (fun j => xs j * dxs j) + F.
''')
R_=lambda n:['R']*n
def kwcall(name,ps):
    def go(tr,e,env,stmt=False):
        kw={k.arg:k.value for k in e.keywords}
        args=[tr.R(a,env) for a in e.args]+[tr.R(kw[p],env) for p in ps[len(e.args):]]
        return Val('(%s)'%' '.join([name]+args),'R')
    return go
LK={'Cp_minus_Cv':('ext_Cp_minus_Cv',R_(3),'R'),
 'isentropic_exponent_PV':kwcall('ext_isentropic_exponent_PV','Cp Cv Vm P dP_dV_T'.split()),
 'isentropic_exponent_PT':kwcall('ext_isentropic_exponent_PT','Cp P dV_dT_P'.split()),
 'isentropic_exponent_TV':kwcall('ext_isentropic_exponent_TV','Cv Vm dP_dT_V'.split()),
 'Joule_Thomson':kwcall('ext_Joule_Thomson','T V Cp dV_dT beta'.split()),
 'speed_of_sound':('ext_speed_of_sound',R_(4),'R'),'phase_identification_parameter':('ext_phase_identification_parameter',R_(5),'R'),
 'B_from_Z':('ext_B_from_Z',R_(3),'R'),'c_ideal_gas':('ext_c_ideal_gas',R_(3),'R'),'property_molar_to_mass':('ext_property_molar_to_mass',R_(2),'R'),
 'dxs_to_dns':('ext_dxs_to_dns N_',['V','V'],'V'),'dns_to_dn_partials':('ext_dns_to_dn_partials',['V','R'],'V'),'dxs_to_dn_partials':('ext_dxs_to_dn_partials N_',['V','V','R'],'V')}
PR='V dP_dT dP_dV d2P_dT2 d2P_dV2 d2P_dTdV H S Cp dH_dT dH_dP dH_dT_V dH_dP_V dH_dV_T dS_dT dS_dP dS_dT_V dS_dP_V d2H_dT2 d2H_dTdP d2P_dT2_PV d2P_dVdT_TP d2P_dTdP d2P_dVdP Cp_ideal_gas H_ideal_gas S_ideal_gas MW H_dep S_dep dH_dep_dT dS_dep_dT mu k'.split()
EX={'self.%s()'%k:('param',k,'R') for k in PR}
EX.update({'self.dP_dT_V()':('param','dP_dT','R'),'self.dP_dV_T()':('param','dP_dV','R'),'self.dS_dT_P()':('param','dS_dT','R'),'self.R':'Rgas','self.R_inv':'(1 / Rgas)'})
EX.update({'self.%s()'%k:('param',k,'V') for k in 'dV_dzs dH_dzs dS_dzs'.split()})
K=Klass(F,'Phase',T,LK,pre='Ph_',order='N T P zs'.split()+PR)
FAIL=[]
def g(m,body=None,ex=None,KK=None,**k):
    KK=KK or K
    e=dict(ex or EX)
    for d in KK.done: e.pop('self.%s()'%d,None)
    try: KK.gen(m,exprs=e,body=body,**k)
    except Exception as x: print('FAIL',m,type(x).__name__,x); FAIL.append(m)
def alias(a,m,KK=None):
    KK=KK or K; KK.done[a]=KK.done[m]
g('dT_dP'); alias('dT_dP_V','dT_dP'); g('dV_dT'); alias('dV_dT_P','dV_dT'); g('dV_dP'); alias('dV_dP_T','dV_dP'); g('dT_dV'); alias('dT_dV_P','dT_dV')
g('d2V_dP2'); g('d2T_dP2'); g('d2T_dV2'); g('d2V_dT2'); g('d2V_dPdT'); alias('d2V_dTdP','d2V_dPdT'); g('d2T_dPdV'); g('d2P_dVdT')
for m in 'G U A'.split(): g(m)
for m in 'dG_dT:dG_dT_P dG_dT_V dG_dP:dG_dP_T dG_dP_V dG_dV_T dG_dV_P dU_dT:dU_dT_P dU_dT_V dU_dP:dU_dP_T dU_dP_V dU_dV_T dU_dV_P dA_dT:dA_dT_P dA_dT_V dA_dP:dA_dP_T dA_dP_V dA_dV_T dA_dV_P'.split():
    a=m.split(':'); g(a[0]); 
    if len(a)>1: alias(a[1],a[0])
g('dS_dP_T'); g('dS_dV_T'); g('dS_dV_P'); g('dH_dT_P'); g('dH_dP_T')
g('Cv'); g('dCv_dT_P'); g('dCv_dP_T'); g('Cp_Cv_ratio'); g('isentropic_exponent_PV'); g('isentropic_exponent_PT'); g('isentropic_exponent_TV')
g('Z'); g('rho'); g('PIP'); g('kappa'); g('dkappa_dT'); g('isothermal_bulk_modulus'); g('isobaric_expansion')
def last_doc(n): return [s for s in copy.deepcopy(n).body if not (isinstance(s,ast.Expr) and isinstance(s.value,ast.Constant))]
g('disobaric_expansion_dT',last_doc); g('disobaric_expansion_dP',last_doc)
g('Joule_Thomson'); g('speed_of_sound'); g('dZ_dT'); g('dZ_dP'); 
g('dP_drho'); g('drho_dP'); g('d2P_drho2'); g('d2rho_dP2'); g('dT_drho'); g('d2T_drho2'); g('drho_dT'); g('d2rho_dT2'); g('d2P_dTdrho'); g('d2T_dPdrho'); g('d2rho_dPdT'); g('drho_dV_T'); g('drho_dT_V'); g('dZ_dV'); g('Bvirial')
for m in 'dP_dT_P dP_dV_P dT_dP_T dT_dV_T dV_dT_V dV_dP_V dP_dP_T dP_dP_V dT_dT_P dT_dT_V dV_dV_T dV_dV_P'.split(): g(m)
g('V_ideal_gas'); g('Cv_ideal_gas',body=lambda n:[copy.deepcopy(n).body[-2].handlers[0].body[0],copy.deepcopy(n).body[-1]])
g('speed_of_sound_ideal_gas_mass'); g('speed_of_sound_ideal_gas'); g('Cv_dep'); g('Cp_dep'); g('Cp_Cv_ratio_ideal_gas'); g('G_ideal_gas'); g('U_ideal_gas'); g('A_ideal_gas')
g('G_dep'); g('V_dep'); g('U_dep'); g('A_dep')
g('MW_inv'); g('speed_of_sound_mass'); g('rho_mass'); g('drho_mass_dT',last_doc); g('drho_mass_dP',last_doc)
g('dspeed_of_sound_dT_P',last_doc); g('dspeed_of_sound_dP_T',last_doc)
g('dG_dep_dT')
# _derivs_jacobian: the eight methods found by name enter as values
def jac(n):
    b=last_doc(n); t='\n'.join(ast.unparse(s) for s in b)
    names=dict(n0='a_x',n1='c_y',n2='a_y',n3='c_x',d0='b_x',d1='c_y',d2='b_y',d3='c_x')
    out=[]
    for s in b:
        if isinstance(s,ast.Assign): 
            v=s.targets[0].id; want={'n0':"getattr(self, f'd{a}_d{x}_{y}')()",'n1':"getattr(self, f'd{c}_d{y}_{x}')()",'n2':"getattr(self, f'd{a}_d{y}_{x}')()",'n3':"getattr(self, f'd{c}_d{x}_{y}')()",'d0':"getattr(self, f'd{b}_d{x}_{y}')()",'d1':"getattr(self, f'd{c}_d{y}_{x}')()",'d2':"getattr(self, f'd{b}_d{y}_{x}')()",'d3':"getattr(self, f'd{c}_d{x}_{y}')()"}[v]
            assert ast.unparse(s.value)==want,(v,ast.unparse(s.value))
            s.value=ast.copy_location(ast.Attribute(value=ast.Name(id='self',ctx=ast.Load()),attr=names[v],ctx=ast.Load()),s.value)
        out.append(s)
    return out
g('_derivs_jacobian',jac,name='Ph_derivs_jacobian',note="(the values found by getattr enter as parameters: a_x is d{a}_d{x}_{y}, and so on)",drop=('a','b','c','x','y'))
# IdealGasDeparturePhase and the ideal gas properties
PD='Cp_dep H_dep S_dep dH_dep_dP_T dH_dep_dT_V dH_dep_dP_V dH_dep_dV_T dH_dep_dV_P d2H_dep_dT2 d2H_dep_dT2_V dS_dep_dT dS_dep_dP_T dS_dep_dT_V dS_dep_dP_V d2S_dep_dP2'.split()
EI={'self.%s()'%k:('param',k,'R') for k in PD+['dP_dT','dP_dV']}
EI.update({'self.%s()'%k:('param',k,'V') for k in 'Cpigs_pure Cpig_integrals_pure Cpig_integrals_over_T_pure log_zs dH_dep_dzs dS_dep_dzs'.split()})
EI.update({'self.dCpigs_dT_pure()':('param','dCpigs_dT_pure','V'),'self.R':'Rgas'})
I=Klass(F,'IdealGasDeparturePhase',T,LK,pre='IG_',order='N T P zs Cpigs_pure Cpig_integrals_pure Cpig_integrals_over_T_pure dCpigs_dT_pure log_zs P_REF_IG_INV dP_dT dP_dV'.split()+PD)
I.done.update({k:K.done[k] for k in 'dT_dP dT_dV dV_dT'.split()})
def sub(*subs):
    def bd(n):
        t='\n'.join(ast.unparse(x) for x in last_doc(n))
        for a,b in subs:
            assert a in t,(a,t); t=t.replace(a,b)
        out=ast.parse(t).body
        base=n.body[0].lineno
        for s_ in out:
            for q in ast.walk(s_):
                if hasattr(q,'lineno'): q.lineno=n.lineno; q.end_lineno=n.end_lineno
        return out
    return bd
ZIP=('for zi, Cp_int in zip(self.zs, self.Cpig_integrals_pure()):','for i in range(self.N):')
CI=('zi * Cp_int','self.zs[i] * self.Cpig_integrals_pure()[i]')
gi=lambda m,b=None,**k:g(m,b,ex=EI,KK=I,**k)
gi('Cp_ideal_gas',qual='Phase.Cp_ideal_gas'); gi('H_ideal_gas',sub(ZIP,CI),qual='Phase.H_ideal_gas')
CM=('range(self.N), ','self.N, ')
SUM=('sum([zs[i] * log_zs[i] for i in cmps])','sum([zs[i] * log_zs[i] for i in range(self.N)])')
gi('S_ideal_gas',sub(('P, zs, cmps = (self.P, self.zs, range(self.N))','P = self.P\nzs = self.zs'),SUM,('for i in cmps','for i in range(self.N)')),qual='Phase.S_ideal_gas')
gi('H',sub(ZIP,CI)); gi('S',sub(('P, zs, cmps = (self.P, self.zs, range(self.N))','P = self.P\nzs = self.zs'),SUM,('for i in cmps','for i in range(self.N)'),('R = self.R\n','')))
gi('Cp'); alias('dH_dT','Cp',I); alias('dH_dT_P','Cp',I)
for m in 'dH_dP dH_dT_V dH_dP_V dH_dV_T dH_dV_P d2H_dT2 d2H_dT2_V dS_dT dS_dP dS_dP_V d2S_dP2'.split(): gi(m)
gi('dS_dT_V',last_doc)
gi('dH_dzs'); gi('dS_dzs',sub(('cmps, eos_mix = (range(self.N), self.eos_mix)\n',''),('for i in cmps','for i in range(self.N)'),('R = self.R\n','')))
# IdealGas
G='phases/ideal_gas.py'
EG={'self.%s()'%k:('param',k,'V') for k in 'Cpigs_pure Cpig_integrals_pure Cpig_integrals_over_T_pure log_zs dCpigs_dT_pure'.split()}
EG.update({'self.R':'Rgas','self.R_inv':'(1 / Rgas)','self.R2':'(Rgas * Rgas)'})
IDG=Klass(G,'IdealGas',T,LK,pre='IDG_',order='N T P zs Cpigs_pure Cpig_integrals_pure Cpig_integrals_over_T_pure dCpigs_dT_pure log_zs P_REF_IG_INV'.split())
gg=lambda m,b=None,**k:g(m,b,ex=EG,KK=IDG,**k)
for m in 'V dP_dT dP_dV d2P_dT2 d2P_dV2 d2P_dTdV d2T_dV2 d2V_dT2 dV_dT PIP d2V_dP2 d2T_dP2 dV_dP dT_dP dT_dV'.split(): gg(m)
gg('H'); gg('S',sub(('R, P, zs = (self.R, self.P, self.zs)\ncmps = range(self.N)','P = self.P\nzs = self.zs'),SUM,('for i in cmps','for i in range(self.N)')))
for m in 'Cp dH_dP d2H_dT2 d2H_dP2 d2H_dTdP dH_dP_V dH_dV_T dH_dV_P dS_dT dS_dP d2S_dP2 dS_dT_V dS_dP_V d2P_dTdP d2P_dVdP d2P_dVdT_TP d2P_dT2_PV H_dep'.split(): gg(m)
gg('dS_dzs',sub(('R = self.R\n','')))
py2v.emit('Derived properties of a phase (thermo/phases/phase.py)','/verif/rocq/theories/Gen_phase.v','')
