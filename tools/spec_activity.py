"""Base class GibbsExcess of the activity models (thermo/activity.py): GE, its derivatives and gammas enter as values."""
from clsgen import *
from spec_uniquac import gl
F='activity.py'
py2v.EMIT.clear(); py2v.DONE.clear() if hasattr(py2v.DONE,'clear') else None
T={k:'V' for k in 'xs gammas dG_dxs dGE_dxs d2GE_dTdxs dHE_dxs dSE_dxs dgammas_dT dHE_dxs vec0 d2GE_dTdns out'.split()}
T.update(N='N',i='N',j='N',k='N',d2GE_dxixjs='M',dgammas_dns='M')
LK={}
def do(q,subs=None,fill=None,**k):
    if subs is not None: k['body']=lambda n,subs=subs,fill=fill:gl(n,subs,fill)
    try: fn(F,q,types=T,annot=True,calls=LK,**k); LK[q]=link(F,q)
    except Exception as e: print('FAIL',q,type(e).__name__,e)
py2v.raw('(* thermo/activity.py, lines 83-93: gibbs_excess_gammas with its default gammas=None (lines 89-90: a new list of zeros). *)\nDefinition gibbs_excess_gammas_new (N : nat) (xs dG_dxs : nat -> R) (GE T : R) : nat -> R := gibbs_excess_gammas xs dG_dxs GE T (fun _ => 0) N.\n')
LK['gibbs_excess_gammas']=('gibbs_excess_gammas_new N_',['V','V','R','R'],'V')
do('gibbs_excess_dHE_dxs'); do('gibbs_excess_dgammas_dns',[('row = d2GE_dxixjs[j]','pass'),('row[k]','d2GE_dxixjs[j][k]')]); do('gibbs_excess_dgammas_dT')
py2v.raw('''(* External: chemicals.utils.dxs_to_dns(dxs, xs): mole-number derivatives of an intensive property, from mole fraction derivatives (its documented formula). *)
Definition ext_dxs_to_dns (N : nat) (dxs xs : nat -> R) : nat -> R := fun i => dxs i - rsum N (fun j => xs j * dxs j).
(* External: chemicals.utils.dns_to_dn_partials(dns, F): derivatives of n F with respect to mole numbers, from those of F (its documented formula). *)
Definition ext_dns_to_dn_partials (dns : nat -> R) (F : R) : nat -> R := fun i => dns i + F.
(* External: chemicals.utils.d2xs_to_dxdn_partials(d2xs, xs): its documented formula. *)
Definition ext_d2xs_to_dxdn_partials (N : nat) (d2xs : nat -> nat -> R) (xs : nat -> R) : nat -> nat -> R := fun i j => d2xs i j - rsum N (fun k => xs k * d2xs j k).
''')
LK['dxs_to_dn_partials']=('ext_dxs_to_dn_partials N_',['V','V','R'],'V'); LK['trunc_exp']=('exp',['R'],'R')
LK['dxs_to_dns']=('ext_dxs_to_dns N_',['V','V'],'V'); LK['dns_to_dn_partials']=('ext_dns_to_dn_partials',['V','R'],'V')
LK['d2xs_to_dxdn_partials']=('ext_d2xs_to_dxdn_partials N_',['M','V'],'M')
VAL={k:('param',k,'R') for k in 'GE dGE_dT d2GE_dT2'.split()}; VAL.update({k:('param',k,'V') for k in 'dGE_dxs d2GE_dTdxs'.split()}); VAL['d2GE_dxixjs']=('param','d2GE_dxixjs','M')
EX={'self.%s()'%k:v for k,v in VAL.items()}
K=Klass(F,'GibbsExcess',T,LK,order='N T xs GE dGE_dT d2GE_dT2 dGE_dxs d2GE_dTdxs d2GE_dxixjs'.split())
def g(m,body=None,**k):
    try: K.gen(m,exprs=EX,body=body,**k)
    except Exception as e: print('FAIL',m,type(e).__name__,e)
OUT='out = [0.0] * self.N if not self.vectorized else zeros(self.N)'
def b(*subs):
    def bd(n):
        t='\n'.join(ast.unparse(x) for x in n.body)
        return gl(n,[(x,y) for x,y in [(OUT,'N = self.N'),(', out)',')')] if x in t]+list(subs))
    return bd
g('HE'); g('dHE_dT'); g('SE',b(("try:\n    return self._SE\nexcept:\n    self._SE = (self.HE() - self.GE()) / self.T\nreturn self._SE",'return (self.HE() - self.GE()) / self.T')))
g('dHE_dxs',b(('if self.vectorized and type(dHE_dxs) is list:\n    dHE_dxs = array(dHE_dxs)','pass')))
for m in 'dHE_dns dnHE_dns'.split(): g(m,b())
g('dSE_dT',b(('try:\n    HE = self._HE\nexcept:\n    HE = self.HE()','HE = self.HE()')))
g('dSE_dxs')
for m in 'dSE_dns dnSE_dns dGE_dns dnGE_dns d2GE_dTdns d2nGE_dTdns'.split(): g(m,b())
g('d2nGE_dninjs',b(('if self.vectorized and type(d2nGE_dninjs) is list:\n    d2nGE_dninjs = array(d2nGE_dninjs)','pass'),('d2nGE_dninjs = d2xs','N = self.N\nd2nGE_dninjs = d2xs')))
g('gammas',b(('GE = self.GE()','GE = self.GE()\nN = self.N')))
g('gammas_vectorized',qual='GibbsExcess.gammas',body=b(('if not self.vectorized','if self.vectorized'),('GE = self.GE()','GE = self.GE()\nN = self.N'),('if type(gammas) is list:\n        gammas = array(gammas)','pass')),note='(the numpy path, without the cache)')
g('lngammas',b(('GE = self.GE()','GE = self.GE()\nN = self.N')))
g('dgammas_dns',b(('if self.vectorized and type(dgammas_dns) is list:\n    dgammas_dns = array(dgammas_dns)','pass'),('dgammas_dns = [[0.0] * N for _ in range(N)] if not self.vectorized else zeros((N, N))\n','dgammas_dns = [[0.0]*N for _ in range(N)]\n')))
g('dgammas_dT',b(('if self.vectorized and type(dgammas_dT) is list:\n    dgammas_dT = array(dgammas_dT)','pass')))
g('dlngammas_dT',b(('[dgamma_dT / gamma for gamma, dgamma_dT in zip(gammas, dgammas_dT)]','[dgammas_dT[i] / gammas[i] for i in range(self.N)]')))
try: fn('utils/functional.py','d2ns_to_dn2_partials',types=dict(T,d2ns='M',dns='V',hess='M'),annot=True,body=lambda n:gl(n,[('cmps = range(len(dns))','N = self.N'),('in cmps','in range(N)'),('hess = []','hess = [[0.0]*N for _ in range(N)]'),('row = []','pass'),('row.append(v)','hess[i][j] = v'),('hess.append(row)','pass')]))
except Exception as e: print('FAIL',type(e),e)
py2v.emit('Base class of the activity models (thermo/activity.py)','/verif/rocq/theories/Gen_activity.v','From Verif Require Import Gen_uniquac.\n')
