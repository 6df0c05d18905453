from py2v import *
import py2v
import spec_eosmix as S
from spec_eosmix import VN, EX, L, g, bad, FM, P
py2v.EMIT.clear()
VN.update({k:'V' for k in 'dP_dns_Vt d_Vs dbs d_epsilons d_deltas da_alphas logzs'.split()})
VN.update({k:'M' for k in 'd2P_dninjs_Vt d2Vs d2bs d2_epsilons d2_deltas d2a_alphas dlnphis_dns'.split()})
EX['self.dlnphis_dns(Z)']=P('dlnphis_dns','M')
for q in 'dP_dns_Vt d2P_dninjs_Vt d3P_dninjnks_Vt _d2V_dij_wrapper dH_dep_dzs _d2_A_dep_d2_helper dA_dep_dns_Vt d2A_dep_dninjs_Vt dScomp_dns d2Scomp_dninjs'.split():
    g('GCEOSMIX.'+q,tryexc={'*':'body'},lens=L,drop=('row',))
if __name__=='__main__':
    py2v.emit('Mixture equations of state: derivatives with respect to mole numbers at fixed total volume, second derivatives of volume and departures (thermo/eos_mix.py)','/verif/rocq/theories/Gen_eosvt.v','From Verif Require Import Gen_mix.\n')
    p='/verif/rocq/theories/Gen_eosvt.v'; s=open(p).read().replace('(N_ : nat) (N_ : nat)','(N_ : nat)'); open(p,'w').write(s)
