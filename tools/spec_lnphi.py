from py2v import *
import py2v
from spec_mix import VV, C, F
py2v.EMIT.clear()
import spec_eos
py2v.EMIT.clear()
LK={q:link(F,q) for q in py2v.DONE if q in ('eos_mix_dV_dzs','G_dep_lnphi_d_helper','a_alpha_quadratic_terms','PR_lnphis','SRK_lnphis','VDW_lnphis','eos_mix_db_dns','eos_mix_da_alpha_dns','PR_translated_depsilon_dns','PR_translated_ddelta_dns','SRK_translated_depsilon_dns','SRK_translated_ddelta_dns')}
LK['eos_lnphi']=('eos_lnphi','RRRRRRR','R'); LK['eos_G_dep']=('eos_G_dep','RRRRRRR','R')
VX=dict(VV,one_minus_kijs='M',dlnphi_dns='V',l='B',g='B')
py2v.TY['VOL']='R -> R -> R -> R -> R -> R -> R * R * R'
fn(F,'eos_mix_lnphis_general',types=VX,calls=LK,prune=True)
LK['eos_mix_lnphis_general']=link(F,'eos_mix_lnphis_general')
def vol(tr,e,env,stmt=False):
    a=[tr.asR(tr.E(x,env)) for x in e.args]
    tr.param('volume_solutions','VOL')
    return Val('(volume_solutions %s)'%' '.join(a),'(R R R)')
LK['volume_solutions_halley']=vol
try:
    fn(F,'eos_mix_a_alpha_volume',types=VX,calls=LK)
except Exception as ex: print('FAIL',ex)
LK['eos_mix_a_alpha_volume']=link(F,'eos_mix_a_alpha_volume')
for f in 'PR SRK VDW RK PR_translated SRK_translated'.split():
    try: fn(F,f+'_lnphis_fastest',types=VX,calls=LK)
    except Exception as ex: print('FAIL',f,ex)
if __name__=='__main__':
    emit('Fugacity coefficients of mixtures (thermo/eos_mix_methods.py)','/verif/rocq/theories/Gen_lnphi.v','From Verif Require Import Gen_mix Gen_eos.')
