from clsgen import *
from spec_wilson import fills, LK as WLK
F='uniquac.py'
MM='taus dtaus_dT d2taus_dT2 d2taus_dT2s d3taus_dT3 d3taus_dT3s A B C D E F tau_as tau_bs tau_cs tau_ds tau_es tau_fs d2GE_dxixjs dphis_dxs dthetas_dxs tau_mk_dthetam_xi lambdas dlambdas_dT d2lambdas_dT2 d3lambdas_dT3'.split()
VVs='xs rs qs phis phis_inv thetas vec0 vec1 vec2 vec3 vec4 gammas dGE_dxs d2GE_dTdxs thetaj_taus_jis thetaj_taus_ijs thetaj_taus_jis_inv thetaj_dtaus_dT_jis thetaj_d2taus_dT2_jis thetaj_d3taus_dT3_jis qsxs qsxsthetaj_taus_jis_inv dG_dns dG_dxs'.split()
T={k:'M' for k in MM}; T.update({k:'V' for k in VVs}); T['N']='N'; T['d2phis_dxixjs']=T['d2thetas_dxixjs']='T'
T.update(i='N',j='N',calc='V')
LK={q:WLK[q] for q in 'interaction_exp dinteraction_exp_dT d2interaction_exp_dT2 d3interaction_exp_dT3'.split()}
py2v.EMIT.clear() if hasattr(py2v.EMIT,'clear') else None
def d2body(node):
    b=ast.unparse(node)
    class D(ast.NodeTransformer):
        def visit_Assign(self,n):
            t=ast.unparse(n.targets[0])
            if t in ('d2phis_dxixjsk','d2phis_dxixjskj'): return None
            if t.startswith('d2phis_dxixjskj['): n.targets[0]=ast.parse('d2phis_dxixjs[k][j]'+t[len('d2phis_dxixjskj'):]+' = 0').body[0].targets[0]
            return n
    b=[D().visit(x) for x in copy.deepcopy(node).body]
    for s in b:
        for q in ast.walk(s):
            if isinstance(q,(ast.stmt,ast.expr)) and not hasattr(q,'lineno'): q.lineno=q.end_lineno=s.lineno
    return b
def unroll(node):
    """for (m, n) in [(i, j), (j, i)]: the two passes written out"""
    class U(ast.NodeTransformer):
        def visit_For(self,nd):
            self.generic_visit(nd)
            if isinstance(nd.iter,ast.List) and isinstance(nd.target,ast.Tuple):
                out=[]
                for tup in nd.iter.elts:
                    mp={a.id:v.id for a,v in zip(nd.target.elts,tup.elts)}
                    for s in copy.deepcopy(nd.body):
                        for q in ast.walk(s):
                            if isinstance(q,ast.Name) and q.id in mp: q.id=mp[q.id]
                        out.append(s)
                return out
            return nd
    b=[U().visit(x) for x in copy.deepcopy(node).body]
    return b
OK=True
def do(q,**k):
    f=k.pop('fname',F)
    try: fn(f,q,types=T,annot=True,calls=LK,**k); LK[k.get('name') or q]=link(f,q)
    except Exception as e: print('FAIL',q,type(e).__name__,e)
py2v.raw('(* External: chemicals.utils.dxs_to_dn_partials(dxs, xs, F): derivatives of n F(x) with respect to mole numbers, from mole fraction derivatives (its documented formula). *)\nDefinition ext_dxs_to_dn_partials (N : nat) (dxs xs : nat -> R) (F : R) : nat -> R := fun i => dxs i + F - rsum N (fun j => xs j * dxs j).\n')
for q in 'uniquac_phis uniquac_dphis_dxs uniquac_thetaj_taus_jis uniquac_thetaj_taus_ijs uniquac_d2phis_dxixjs uniquac_GE uniquac_dGE_dT uniquac_d2GE_dT2 uniquac_d3GE_dT3 uniquac_dGE_dxs uniquac_d2GE_dTdxs uniquac_d2GE_dxixjs'.split():
    k={}
    if q=='uniquac_d2phis_dxixjs': k['body']=d2body
    if q=='uniquac_d2GE_dxixjs': k['body']=unroll; k['exprs']={'min(i, j)':('(Nat.min i j)','N'),'max(i, j)':('(Nat.max i j)','N')}
    do(q,**k)

def gl(node, subs, fill=None):
    t='\n'.join(ast.unparse(x) for x in node.body)
    for a,b in subs:
        assert a in t,(a,t)
        t=t.replace(a,b)
    b=ast.parse(t).body
    if fill:
        class N_: pass
        n=N_(); n.body=b; b=fills(fill)(n)
    lo=node.body[1].lineno if isinstance(node.body[0],ast.Expr) else node.body[0].lineno
    for s in b:
        for q in ast.walk(s):
            if isinstance(q,(ast.stmt,ast.expr)): q.lineno=lo; q.end_lineno=node.end_lineno
    return b
K=Klass(F,'UNIQUAC',T,LK,order='N T xs rs qs tau_as tau_bs tau_cs tau_ds tau_es tau_fs'.split())
def tryg(m,**k):
    try: K.gen(m,exprs={'self.z':('10','R')},**k)
    except Exception as e:
        print('FAIL',m,type(e).__name__,e)
if __name__=='__main__':
    tryg('taus'); tryg('dtaus_dT'); tryg('d2taus_dT2'); tryg('d3taus_dT3')
    P='self._phis, self._rsxs_sum_inv = uniquac_phis(N, xs, rs, phis)'; Q='self._thetas, self._qsxs_sum_inv = uniquac_phis(N, xs, qs, thetas)'
    tryg('phis',body=lambda n:gl(n,[(P,P.replace('self._','')),('return self._phis\n','pass\n'),('\nreturn self._phis','\nreturn phis')] if 0 else [('try:\n    return self._phis\nexcept AttributeError:\n    pass',''),(P,P.replace('self._','')),('return self._phis','return phis')]))
    tryg('rsxs_sum_inv',qual='UNIQUAC.phis',body=lambda n:gl(n,[('try:\n    return self._phis\nexcept AttributeError:\n    pass',''),(P,P.replace('self._','')),('return self._phis','return rsxs_sum_inv')]),note='(the value stored in _rsxs_sum_inv)')
    tryg('phis_inv')
    tryg('dphis_dxs',body=lambda n:gl(n,[('self._rsxs_sum_inv','self.rsxs_sum_inv()')]))
    tryg('d2phis_dxixjs',body=lambda n:gl(n,[('self.phis()\n',''),('self._rsxs_sum_inv','self.rsxs_sum_inv()')],'d2phis_dxixjs'))
    tryg('thetas',body=lambda n:gl(n,[('try:\n    return self._thetas\nexcept AttributeError:\n    pass',''),(Q,Q.replace('self._',''))]))
    tryg('qsxs_sum_inv',qual='UNIQUAC.thetas',body=lambda n:gl(n,[('try:\n    return self._thetas\nexcept AttributeError:\n    pass',''),(Q,Q.replace('self._','')),('return thetas','return qsxs_sum_inv')]),note='(the value stored in _qsxs_sum_inv)')
    tryg('dthetas_dxs',body=lambda n:gl(n,[('self._qsxs_sum_inv','self.qsxs_sum_inv()')]))
    tryg('d2thetas_dxixjs',body=lambda n:gl(n,[('self.thetas()\n',''),('self._qsxs_sum_inv','self.qsxs_sum_inv()')],'d2thetas_dxixjs'))
    for m in 'thetaj_taus_jis thetaj_taus_jis_inv thetaj_taus_ijs thetaj_dtaus_dT_jis thetaj_d2taus_dT2_jis thetaj_d3taus_dT3_jis GE dGE_dT d2GE_dT2 d3GE_dT3'.split(): tryg(m)
    tryg('dGE_dxs',body=fills('dGE_dxs'))
    tryg('d2GE_dTdxs',body=fills('d2GE_dTdxs'))
    tryg('d2GE_dxixjs')
    LK['dxs_to_dn_partials']=('ext_dxs_to_dn_partials N_',['V','V','R'],'V'); LK['trunc_exp']=('exp',['R'],'R')
    tryg('gammas',qual='GibbsExcess.gammas',fname='activity.py')
    do('gibbs_excess_gammas',fname='activity.py')
    do('uniquac_gammas_from_args')
    try: fn(F,'UNIQUAC_gammas',name='UNIQUAC_gammas_function',types=dict(T,vs='V',rsxs='V',VsSs='V',ans='V',Ss='V'),annot=True,body=lambda n:[ast.copy_location(ast.parse('N = self.N').body[0],n.body[-1])]+appends([x for x in n.body if not ast.unparse(x).startswith('cmps')]),note='(the stand-alone function)',lines=(1886,2008))
    except Exception as e: print('FAIL gf',type(e),e)
    py2v.raw('(* thermo/uniquac.py, line 1820: MIN_TAU_UNIQUAC. *)\nDefinition MIN_TAU_UNIQUAC : R := 1 / 10 ^ 20.\n')
    do('UNIQUAC_gammas_binary',note='(trunc_exp as the exponential)')
    CM={'MIN_TAU_UNIQUAC':('MIN_TAU_UNIQUAC','R'),'len(xs) // 2':('param','pts','N'),'i * 2':('(i * 2)%nat','N'),'rs':('param','r1','R')}
    do('UNIQUAC_gammas_binaries',exprs={k:v for k,v in CM.items() if k!='rs'},body=lambda n:gl(n,[('r1, r2 = rs','r1 = rs[0]\nr2 = rs[1]'),('q1, q2 = qs','q1 = qs[0]\nq2 = qs[1]')]))
    py2v.emit('UNIQUAC activity coefficient model (thermo/uniquac.py)','/verif/rocq/theories/Gen_uniquac.v','From Verif Require Import Gen_wilson.\n')
