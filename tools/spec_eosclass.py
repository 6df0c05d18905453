from py2v import *
F='eos.py'
def inner(node):
    out=[]
    def rec(ss):
        for s in ss:
            if isinstance(s,ast.Assign): out.append(s)
            elif isinstance(s,ast.FunctionDef):
                out.extend(s.body); return True
            elif isinstance(s,ast.If):
                if rec(s.body) or rec(s.orelse): return True
        return False
    rec(node.body); return out
D=('self.no_T_spec','solution')
PRE={'PR':'PR_','PRSV':'PRSV_','PRSV2':'PRSV2_','VDW':'VDW_','RK':'RK_','SRK':'SRK_','APISRK':'APISRK_','IG':'IG_'}
for c,p in PRE.items():
    drop=('T',) if False else ()
    fn(F,c+'.a_alpha_pure',name=p+'a_alpha_pure')
    fn(F,c+'.a_alpha_and_derivatives_pure',name=p+'a_alpha_and_derivatives_pure')
fn(F,'PR.d3a_alpha_dT3_pure',name='PR_d3a_alpha_dT3_pure')
fn(F,'PR.P_max_at_V',name='PR_P_max_at_V',tryexc={'*':'body'},optret=True,note='(the except branch only serves mixtures with a single component)')
fn(F,'SRK.P_max_at_V',name='SRK_P_max_at_V',tryexc={'*':'body'},optret=True,note='(the except branch only serves mixtures with a single component)')
fn(F,'IG.solve_T',name='IG_solve_T',drop=D)
fn(F,'VDW.solve_T',name='VDW_solve_T',drop=D)
fn(F,'PR.solve_T',name='PR_solve_T',drop=D,static={"solution is not None and solution == 'g'":False},
   exprs={'super().solve_T(P, V, solution=solution)':('param','fallback','R')},
   note="(solution=None or 'l'; the numerical fallback GCEOS.solve_T is the parameter fallback)")
fn(F,'SRK.solve_T',name='SRK_solve_T',drop=D,static={'abs(T_calc.imag) > 1e-12':False})
fn(F,'PRSV.solve_T',name='PRSV_T_residual',drop=D,body=inner,exprs={'T':('param','T','R')},note='The function to_solve handed to the secant solver.')
fn(F,'PRSV2.solve_T',name='PRSV2_T_residual',drop=D,body=inner,exprs={'T':('param','T','R')},note='The function to_solve handed to the secant solver.')
fn(F,'APISRK.solve_T',name='APISRK_T_residual',drop=D+('self.m',),body=inner,exprs={'T':('param','T','R')},note='The function to_solve handed to the secant solver when S2 <> 0.')
fn(F,'GCEOS.a_alpha_for_V',name='eos_a_alpha_for_V')
if __name__=='__main__':
    emit('Per-class attraction parameters and temperature solvers (thermo/eos.py)','/verif/rocq/theories/Gen_eosclass.v')
