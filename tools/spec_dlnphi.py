from py2v import *
import py2v
import spec_eosmix as S
from spec_eosmix import VN, EX, L, g, bad, FM, P
py2v.EMIT.clear()
VN.update({k:'V' for k in 'ais d2V_dPdns d2V_dTdns d2P_dTdns d2P_dVdns d3P_dT2dns d3P_dV2dns d3P_dTdVdns d2T_dVdns d2T_dPdns d3T_dP2dns d3V_dP2dns d3T_dV2dns d3V_dT2dns d3T_dPdVdns d3V_dPdTdns da_alpha_dT_dns d2a_alpha_dT2_dns'.split()})
for c in 'PRMIX SRKMIX VDWMIX GCEOSMIX'.split():
    for q in 'dlnphis_dT dlnphis_dP'.split():
        g(c+'.'+q,tryexc={'*':'body'},lens=L)
fn(FM,'GCEOSMIX._d_main_derivatives_and_departures_dnx',name='GCEOSMIX_dmain_dnx',types=VN,consts=S.C,exprs=EX,lens=L)
def dnz(node):
    # the statements after the choice of the phase's stored derivatives
    b=node.body; k=[j for j,s in enumerate(b) if ast.unparse(s)=='d2V_dTdns = []'][0]
    st=set('d2P_dTdns d2P_dVdns d3P_dT2dns d3P_dV2dns d3P_dTdVdns dP_dT dP_dV dV_dT d2P_dT2 d2P_dV2 d2P_dTdV'.split())
    class X(ast.NodeTransformer):
        def visit_Name(self,n):
            if n.id in st and isinstance(n.ctx,ast.Load): return ast.copy_location(ast.Attribute(value=ast.Name(id='self',ctx=ast.Load()),attr=n.id,ctx=ast.Load()),n)
            return n
    r=[X().visit(q) for q in S.copy.deepcopy(b[k:])]
    for q in r: ast.fix_missing_locations(q)
    return r
fn(FM,'GCEOSMIX._dnz_derivatives_and_departures',name='GCEOSMIX_dnz',types=VN,consts=S.C,exprs=EX,lens=L,body=dnz,
   note='(from line 5193 on: the derivatives of the pressure with amounts, computed by the function above, and the stored derivatives of the chosen phase are arguments)')
if __name__=='__main__':
    py2v.emit('Mixture equations of state: derivatives of the fugacity coefficients with temperature and pressure, derivatives of the volumetric derivatives with amounts (thermo/eos_mix.py)','/verif/rocq/theories/Gen_dlnphi.v','From Verif Require Import Gen_mix.\n')
