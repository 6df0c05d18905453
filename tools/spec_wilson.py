from clsgen import *
F='wilson.py'
MM='lambdas dlambdas_dT d2lambdas_dT2 d3lambdas_dT3 d3lambdas_dT3s A B C D E F lambda_as lambda_bs lambda_cs lambda_ds lambda_es lambda_fs d2GE_dxixjs params'.split()
VVs='xs xj_Lambda_ijs xj_Lambda_ijs_inv log_xj_Lambda_ijs xj_dLambda_dTijs xj_d2Lambda_dT2ijs xj_d3Lambda_dT3ijs vec0 gammas dGE_dxs d2GE_dTdxs sums0'.split()
T={k:'M' for k in MM}; T.update({k:'V' for k in VVs}); T['N']='N'; T['d3GE_dxixjxks']='T'
LK={}
for q in 'interaction_exp dinteraction_exp_dT d2interaction_exp_dT2 d3interaction_exp_dT3'.split():
    try: fn('activity.py',q,types=T,annot=True); LK[q]=link('activity.py',q)
    except Exception as e: print('FAIL',q,type(e).__name__,e)
def d3body(node):
    class D(ast.NodeTransformer):
        def visit_Assign(self,n):
            t=ast.unparse(n.targets[0])
            if t in ('dG_matrix','dG_row'): return None
            if t=='dG_row[n]': n.targets[0]=ast.parse('d3GE_dxixjxks[k][m][n] = 0').body[0].targets[0]
            return n
    b=[D().visit(x) for x in copy.deepcopy(node).body]
    for s in b:
        for q in ast.walk(s):
            if isinstance(q,(ast.stmt,ast.expr)) and not hasattr(q,'lineno'): q.lineno=q.end_lineno=s.lineno
    return b
for q in 'wilson_xj_Lambda_ijs wilson_dGE_dT wilson_d2GE_dT2 wilson_d3GE_dT3 wilson_d2GE_dTdxs wilson_dGE_dxs wilson_d2GE_dxixjs wilson_d3GE_dxixjxks wilson_gammas'.split():
    try: fn(F,q,types=T,annot=True,**({'body':d3body} if q=='wilson_d3GE_dxixjxks' else {})); LK[q]=link(F,q)
    except Exception as e: print('FAIL',q,type(e).__name__,e)
K=Klass(F,'Wilson',T,LK,order='N T xs lambda_as lambda_bs lambda_cs lambda_ds lambda_es lambda_fs'.split())
def fills(buf):
    """f(..., buf, ...) as a statement fills buf"""
    def bd(node):
        b=copy.deepcopy(node).body
        def fix(s):
            if isinstance(s,ast.Expr) and isinstance(s.value,ast.Call) and isinstance(s.value.func,ast.Name):
                return ast.copy_location(ast.parse(buf+' = '+ast.unparse(s.value)).body[0],s)
            return s
        b=[fix(s) for s in b]
        for s in b:
            for q in ast.walk(s):
                if isinstance(q,(ast.stmt,ast.expr)) and not hasattr(q,'lineno'): q.lineno=q.end_lineno=s.lineno
        return b
    return bd
def tryg(m,**k):
    try: K.gen(m,**k)
    except Exception as e: print('FAIL',m,type(e).__name__,e)
if __name__=='__main__':
    for m in 'lambdas dlambdas_dT d2lambdas_dT2 d3lambdas_dT3 xj_Lambda_ijs xj_Lambda_ijs_inv log_xj_Lambda_ijs xj_dLambda_dTijs xj_d2Lambda_dT2ijs xj_d3Lambda_dT3ijs GE dGE_dT d2GE_dT2 d3GE_dT3'.split(): tryg(m)
    tryg('d2GE_dTdxs',body=fills('d2GE_dTdxs'))
    for m in 'dGE_dxs d2GE_dxixjs d3GE_dxixjxks'.split(): tryg(m)
    tryg('gammas',body=fills('gammas'))
    try: fn(F,'wilson_gammas_from_args',types=T,annot=True,calls=LK)
    except Exception as e: print('FAIL gfa',e)
    py2v.raw('(* thermo/wilson.py, line 223: MIN_LAMBDA_WILSON. *)\nDefinition MIN_LAMBDA_WILSON : R := 1 / 10 ^ 20.\n')
    try: fn(F,'Wilson_gammas',name='Wilson_gammas_function',types=T,annot=True,body=lambda n:[ast.copy_location(ast.parse('N = self.N').body[0],n.body[-1])]+appends(n.body),note='(the stand-alone function)',lines=(1798,1820))
    except Exception as e: print('FAIL gf',type(e),e)
    CM={'MIN_LAMBDA_WILSON':('MIN_LAMBDA_WILSON','R'),'len(xs) // 2':('param','pts','N'),'i * 2':('(i * 2)%nat','N')}
    LK['trunc_exp']=('exp',['R'],'R')
    try: fn(F,'wilson_gammas_binaries',types=dict(T,calc='V'),annot=True,exprs=CM,calls=LK,note='(trunc_exp, which returns the largest float instead of overflowing, is the exponential here)')
    except Exception as e: print('FAIL b',type(e),e)
    try: fn(F,'wilson_gammas_binaries_jac',types=dict(T,calc='M'),annot=True,exprs=CM,calls=LK,note='(trunc_exp as the exponential)')
    except Exception as e: print('FAIL j',type(e),e)
    py2v.emit('Wilson activity coefficient model (thermo/wilson.py, thermo/activity.py)','/verif/rocq/theories/Gen_wilson.v')
