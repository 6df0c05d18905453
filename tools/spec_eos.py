from py2v import *
import re as _re
F='eos.py'
fn(F,'main_derivatives_and_departures',tryexc={'*':'(Rleb x10 0)'},note='math.sqrt raises on a negative argument and 1/0 raises: both go to the except branch.')
fn(F,'main_derivatives_and_departures_VDW')
fn(F,'eos_lnphi')
fn(F,'eos_G_dep',calls={'eos_lnphi':('eos_lnphi','RRRRRRR','R')})
fn(F,'GCEOS.derivatives_and_departures', static={'quick':None}, tryexc={'*':'body'}, drop=('quick',),
   calls={'self.main_derivatives_and_departures':('main_derivatives_and_departures','R'*9,'(R R R R R R R R)')},
   note='1.0/dP_dV == 1/0 goes to an infinity in the code; here the theorems assume dP_dV <> 0.')
cls=find(F,'GCEOS')
props={n.name:n for n in cls.body if isinstance(n,ast.FunctionDef) and any(isinstance(d,ast.Name) and d.id=='property' for d in n.decorator_list)}
def strip_lg(n):
    b=[x for x in n.body if not (isinstance(x,ast.Expr) and isinstance(x.value,ast.Constant))]
    s='\n'.join(ast.unparse(x) for x in b)
    return _re.sub(r'_(l|g)\b(?!_)',r'',_re.sub(r'_(l|g)_([VTP])\b',r'_\2',s))
SM={}
for p in props:
    m=_re.match(r'(.*)_(l|g)_([VTP])$',p)
    if m: SM[p]=m.group(1)+'_'+m.group(3)
    else:
        m=_re.match(r'(.*)_(l|g)$',p)
        if m: SM[p]=m.group(1)
static={'isinf(self.dV_dT_g)':False,'isinf(x2)':False,'isinf(ans) or isnan(ans)':False}
done=set()
TC={}
for p in ('dH_dep_dT_l_V','dH_dep_dP_l_V','dS_dep_dT_l_V','dS_dep_dP_l_V','d2H_dep_dT2_l','d2S_dep_dT2_l','d2H_dep_dT2_l_V','d2S_dep_dT2_l_V','d2H_dep_dTdP_l','d2S_dep_dTdP_l','dS_dep_dP_l'):
    TC[p]={'dH_dep_dT_l_V':'(Reqb (delta * delta - 4 * epsilon_) 0)'}.get(p)
def cond(p):
    q=p.replace('_g','_l',1) if p.endswith('_g') or '_g_' in p else p
    if q in ('d2H_dep_dT2_l',): return '(Reqb x4 0)'
    if q in ('d2S_dep_dT2_l',): return '(Reqb x12 0)'
    if q in ('d2H_dep_dT2_l_V',): return '(Reqb x51 0)'
    if q=='d2H_dep_dTdP_l': return '(Reqb x5 0)'
    if q=='d2S_dep_dTdP_l': return '(Reqb x15 0)'
    return '(Reqb (delta * delta - 4 * epsilon_) 0)'
skip={'state_specs','d3a_alpha_dT3','mpmath_volumes','mpmath_volumes_float','mpmath_volume_ratios','V_l_mpmath','V_g_mpmath','sorted_volumes','more_stable_phase'}
PREF='eos_'
for p,n in props.items():
    if p in skip or p in done: continue
    nm2=SM.get(p,p)
    other=p.replace('_l','_g',1) if p.endswith('_l') else p.replace('_g','_l',1) if p.endswith('_g') else None
    m=_re.match(r'(.*)_(l|g)_([VTP])$',p)
    if m: other=m.group(1)+'_'+('g' if m.group(2)=='l' else 'l')+'_'+m.group(3)
    note=None; out=PREF+nm2
    if other in props and strip_lg(props[other])==strip_lg(n):
        done.add(other)
        note='%s (lines %d-%d) has the same text up to the phase suffix.'%(other,props[other].lineno,props[other].end_lineno)
    elif other in props:
        out=PREF+p
    kw=dict(static=static,selfmap=SM)
    if p in('fugacity_l','fugacity_g','phi_l','phi_g','dfugacity_dP_g'): kw['tryexc']={'*':'body'}
    else: kw['tryexc']={'*':cond(p)}
    try:
        fn(F,'GCEOS.'+p,name=out,note=note,**kw)
    except Exception as e:
        print('SKIP',p,n.lineno,repr(e)[:140])
if __name__=='__main__':
    emit('Pure-component cubic equations of state (thermo/eos.py)', '/verif/rocq/theories/Gen_eos.v')
