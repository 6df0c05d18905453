from clsgen import *
from spec_wilson import fills
from spec_uniquac import gl
F='regular_solution.py'
py2v.EMIT.clear(); py2v.DONE.clear() if hasattr(py2v.DONE,'clear') else None
T={k:'M' for k in 'coeffs lambda_coeffs His Aijs d2GE_dxixjs output jac'.split()}
T.update({k:'V' for k in 'xs Vs SPs Ts xsVs Hi_sums dGE_dxs dG_dxs gammas tots tot2s tmp d2GE_dTdxs delta_d delta_p delta_h calc'.split()})
T.update(N='N',i='N',j='N',k='N',d3GE_dxixjxks='T')
LK={}
LEN={'len(xs)':('param','N_','N'),'len(SPs)':('param','N_','N'),'len(xsVs)':('param','N_','N'),'len(tmp)':('param','N_','N'),'len(delta_d)':('param','N_','N')}
def do(q,subs=None,fill=None,**k):
    if subs is not None: k['body']=lambda n,subs=subs,fill=fill:gl(n,subs,fill)
    try: fn(F,q,types=T,annot=True,calls=LK,**k); LK[q]=link(F,q)
    except Exception as e: print('FAIL',q,type(e).__name__,e)
do('regular_solution_His',[('Hi_row = His[i]','pass'),('Hi_row[j]','His[i][j]')])
do('regular_solution_Hi_sums')
do('regular_solution_Hi_sums_fast')
do('regular_solution_Aijs',[('N = len(SPs)\n','N = self.N\n')])
do('regular_solution_GE')
do('regular_solution_GE_from_Aijs',[('N = len(xsVs)\n','N = self.N\n')])
do('regular_solution_dGE_dxs')
do('regular_solution_gammas')
do('regular_solution_d2GE_dxixjs',[('row = d2GE_dxixjs[i]','pass'),('row[j] = tot','d2GE_dxixjs[i][j] = tot')])
do('regular_solution_d3GE_dxixjxks',[('dG_matrix = d3GE_dxixjxks[i]','pass'),('dG_row = dG_matrix[j]','pass'),('dG_row[k] = tot','d3GE_dxixjxks[i][j][k] = tot')])
NL=[('len(xs)','self.N')]
do('flory_huggins_GE',NL+[('len(tmp)','self.N')])
do('flory_huggins_dGE_dT',NL)
do('flory_huggins_d2GE_dTdxs',NL)
do('flory_huggins_dGE_dxs',[],'dGE_dxs')
do('flory_huggins_d2GE_dxixjs',[('\nregular_solution_dGE_dxs(','\ndGE_dxs = regular_solution_dGE_dxs('),('\nregular_solution_d2GE_dxixjs(','\nd2GE_dxixjs = regular_solution_d2GE_dxixjs(')])
do('flory_huggins_d3GE_dxixjxks',[('\nregular_solution_dGE_dxs(','\ndGE_dxs = regular_solution_dGE_dxs('),('\nregular_solution_d2GE_dxixjs(','\nd2GE_dxixjs = regular_solution_d2GE_dxixjs('),('\nregular_solution_d3GE_dxixjxks(','\nd3GE_dxixjxks = regular_solution_d3GE_dxixjxks(')])
do('hansen_Aijs_His',[('N = len(delta_d)\n','N = self.N\n')],static={'alpha is None':False})
do('hansen_Aijs',static={'alpha is None':False},order='N_ delta_d delta_p delta_h Aijs alpha'.split())
do('hansen_His',static={'alpha is None':False})
AT=[('self.xsVs_sum_inv','self.xsVs_sum_inv()'),('self.xsVs,','self.xsVs(),'),('self.Aijs','self.Aijs()'),('self.His','self.His()')]
def txt(s,lo,hi):
    def bd(n):
        b=ast.parse(s).body
        for x in b:
            for q in ast.walk(x):
                if isinstance(q,(ast.stmt,ast.expr)): q.lineno=lo; q.end_lineno=hi
        return b
    return bd
def klass(cls,par,A,H):
    K=Klass(F,cls,T,LK,order=['N','T','xs','Vs']+par)
    def g(m,subs=None,fill=None,**k):
        def bd(n):
            t='\n'.join(ast.unparse(x) for x in n.body)
            return gl(n,[(a,b) for a,b in AT if a in t]+(subs or []),fill)
        if 'body' not in k: k['body']=bd
        try: K.gen(m,**k)
        except Exception as e: print('FAIL',cls,m,type(e).__name__,e)
    init=cls if cls!='FloryHuggins' else 'RegularSolution'
    X='xs = self.xs\nVs = self.Vs\nN = self.N\n'
    lo,hi=(579,593) if init=='RegularSolution' else (1659,1672)
    g('xsVs',qual=init+'.__init__',body=txt(X+'xsVs = [0.0]*N\nfor i in range(N):\n    xsVs[i] = xs[i]*Vs[i]\nreturn xsVs',lo,hi),lines=(lo,hi),note='(the attribute xsVs)')
    g('xsVs_sum_inv',qual=init+'.__init__',body=txt(X+'xsVs_sum = 0.0\nfor i in range(N):\n    xsVs_sum += xs[i]*Vs[i]\nreturn 1.0/xsVs_sum',lo,hi),lines=(lo,hi),note='(the attribute xsVs_sum_inv)')
    l1,l2=(596,599) if init=='RegularSolution' else (1674,1675)
    g('Aijs',qual=init+'.__init__',body=txt('N = self.N\nreturn '+A,l1,l1),lines=(l1,l1),note='(the attribute Aijs)')
    g('His',qual=init+'.__init__',body=txt('N = self.N\nreturn '+H,l2,l2),lines=(l2,l2),note='(the attribute His)')
    fh='RegularSolution' if cls=='RegularSolution' else 'FloryHuggins'
    g('Hi_sums',qual='RegularSolution.Hi_sums')
    g('GE',qual=fh+'.GE')
    if fh=='FloryHuggins':
        g('dGE_dT',qual=fh+'.dGE_dT'); g('d2GE_dTdxs',qual=fh+'.d2GE_dTdxs')
    g('dGE_dxs',qual=fh+'.dGE_dxs',fill='dGE_dxs')
    if cls!='Hansen':
        g('d2GE_dxixjs'); g('d3GE_dxixjxks')
    LK['dxs_to_dn_partials']=('ext_dxs_to_dn_partials N_',['V','V','R'],'V'); LK['trunc_exp']=('exp',['R'],'R')
    g('gammas',qual='GibbsExcess.gammas',fname='activity.py')
klass('RegularSolution',['SPs','lambda_coeffs'],'regular_solution_Aijs(self.SPs, self.lambda_coeffs, [[0.0]*N for i in range(N)])','regular_solution_His(self.SPs, self.lambda_coeffs, self.N, [[0.0]*N for i in range(N)])')
klass('FloryHuggins',['SPs','lambda_coeffs'],'regular_solution_Aijs(self.SPs, self.lambda_coeffs, [[0.0]*N for i in range(N)])','regular_solution_His(self.SPs, self.lambda_coeffs, self.N, [[0.0]*N for i in range(N)])')
klass('Hansen',['delta_d','delta_p','delta_h','alpha'],'hansen_Aijs(self.delta_d, self.delta_p, self.delta_h, [[0.0]*N for i in range(N)], self.alpha)','hansen_His(self.delta_d, self.delta_p, self.delta_h, [[0.0]*N for i in range(N)], self.alpha)')
py2v.raw('(* thermo/regular_solution.py, lines 1046-1048: MIN_LAMBDA_REGULAR_SOLUTION, MAX_LAMBDA_REGULAR_SOLUTION, MAX_GAMMA_REGULAR_SOLUTION. *)\nDefinition MIN_LAMBDA_REGULAR_SOLUTION : R := - 10 ^ 100.\nDefinition MAX_LAMBDA_REGULAR_SOLUTION : R := 10 ^ 100.\nDefinition MAX_GAMMA_REGULAR_SOLUTION : R := 10 ^ 10.\n')
CM={k:(k,'R') for k in 'MIN_LAMBDA_REGULAR_SOLUTION MAX_LAMBDA_REGULAR_SOLUTION MAX_GAMMA_REGULAR_SOLUTION'.split()}
CM.update({'len(xs) // 2':('param','pts','N'),'i * 2':('(i * 2)%nat','N'),'R_inv':('(1 / Rgas)','R')})
LK['trunc_exp2']=('exp',['R'],'R'); LK['min']=('Rmin',['R','R'],'R')
UN=[('SP0, SP1 = SPs','SP0 = SPs[0]\nSP1 = SPs[1]'),('V0, V1 = Vs','V0 = Vs[0]\nV1 = Vs[1]'),(', 1e+100)',')'),('l01, l10 = (lambda12, lambda21)','l01 = lambda12\nl10 = lambda21'),('trunc_exp(','trunc_exp2(')]
do('regular_solution_gammas_binaries',UN,exprs=CM,note='(trunc_exp as the exponential)')
do('regular_solution_gammas_binaries_jac',UN,exprs=CM,note='(trunc_exp as the exponential)')
py2v.emit('Regular solution, Flory-Huggins and Hansen models (thermo/regular_solution.py)','/verif/rocq/theories/Gen_regular.v','From Verif Require Import Gen_uniquac.\n')
