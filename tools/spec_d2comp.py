from py2v import *
import py2v
import spec_eosmix as S
from spec_eosmix import VN, EX, L, g, bad, FM, P
py2v.EMIT.clear()
VN.update({k:'V' for k in 'd_Vs dbs d_epsilons d_deltas da_alphas phis'.split()})
VN.update({k:'M' for k in 'd2bs d2_epsilons d2_deltas d2a_alphas d2Vs dlnphis_dns'.split()})
VN['G']='B'
for q in '_d2V_dij_wrapper _d2_G_dep_lnphi_d2_helper'.split():
    g('GCEOSMIX.'+q,lens=L)
def dfug(node):
    # the statements after the choice of the phase and the calculation of the derivatives of the fugacity coefficients
    b=node.body; k=[j for j,s in enumerate(b) if ast.unparse(s)=='P = self.P'][0]
    st={'zs','phis','dlnphis_dns'}
    class X(ast.NodeTransformer):
        def visit_Name(self,n):
            if n.id in st and isinstance(n.ctx,ast.Load): return ast.copy_location(ast.Attribute(value=ast.Name(id='self',ctx=ast.Load()),attr=n.id,ctx=ast.Load()),n)
            return n
    r=[X().visit(q) for q in S.copy.deepcopy(b[k:])]
    for q in r: ast.fix_missing_locations(q)
    return r
g('GCEOSMIX.dfugacities_dns',lens=L,body=dfug,note='(from line 4619 on: the fugacity coefficients of the phase and their derivatives are arguments)')
if __name__=='__main__':
    py2v.emit('Mixture equations of state: second derivatives of the volume and of the Gibbs departure energy with composition (thermo/eos_mix.py)','/verif/rocq/theories/Gen_d2comp.v','From Verif Require Import Gen_mix.\n')
