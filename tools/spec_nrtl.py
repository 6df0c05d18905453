from clsgen import *
F='nrtl.py'
MM='Gs taus Gs_transposed Gs_taus_transposed Gs_taus A B E F G H c d alphas dalphas_dT dtaus_dT d2taus_dT2 d3taus_dT3 dGs_dT d2Gs_dT2 d3Gs_dT3 d2GE_dxixjs tau_as tau_bs tau_es tau_fs tau_gs tau_hs alpha_cs alpha_ds'.split()
VVs='xs xj_Gs_jis xj_Gs_taus_jis vec0 vec1 gammas xj_Gs_jis_inv xj_dGs_dT_jis xj_taus_dGs_dT_jis xj_Gs_dtaus_dT_jis dGE_dxs d2GE_dTdxs'.split()
T={k:'M' for k in MM}; T.update({k:'V' for k in VVs}); T['N']='N'; T['alpha_temperature_independent']='B'
LK={}
for q in 'nrtl_xj_Gs_jis_and_Gs_taus_jis nrtl_gammas nrtl_taus nrtl_dtaus_dT nrtl_d2taus_dT2 nrtl_d3taus_dT3 nrtl_alphas nrtl_Gs nrtl_dGs_dT nrtl_d2Gs_dT2 nrtl_d3Gs_dT3 nrtl_xj_Gs_jis nrtl_xj_Gs_taus_jis nrtl_GE nrtl_dGE_dT nrtl_d2GE_dT2 nrtl_dGE_dxs nrtl_d2GE_dxixjs nrtl_d2GE_dTdxs'.split():
    try:
        fn(F,q,types=T,annot=True); LK[q]=link(F,q)
    except Exception as e: print('FAIL',q,type(e).__name__,e)
def transpose_(tr,e,env,stmt=False):
    v=tr.E(e.args[0],env); return Val('(fun i_ j_ => %s j_ i_)'%v.s,'M')
LK['transpose']=transpose_
K=Klass(F,'NRTL',T,LK,order='N T xs tau_as tau_bs tau_es tau_fs tau_gs tau_hs alpha_cs alpha_ds alpha_temperature_independent'.split())
try: fn(F,'NRTL.__init__',name='NRTL_alpha_temperature_independent',types=T,drop=('xs','T','tau_coeffs','alpha_coeffs','ABEFGHCD'),annot=True,prune=True,endret='alpha_temperature_independent',body=lambda n:[ast.copy_location(ast.parse('N = self.N').body[0],n.body[-1])]+[s for s in n.body if 726<=s.lineno<=732],lines=(726,733),note='(the flag only)')
except Exception as e: print('FAIL ati',type(e),e)
def inplace(which):
    def bd(node):
        b=copy.deepcopy(node).body; out=[]
        for s in b:
            if isinstance(s,ast.Expr) and isinstance(s.value,ast.Call) and isinstance(s.value.func,ast.Name):
                # f(..., b1, b2) fills b1 and b2 and returns them
                s=ast.copy_location(ast.parse('_xj_Gs_jis, _xj_Gs_taus_jis = '+ast.unparse(s.value)).body[0],s)
            if isinstance(s,ast.Assign) and ast.unparse(s).startswith('self._xj_Gs_jis, '): continue
            if isinstance(s,ast.Return) and which: s=ast.copy_location(ast.parse('def f():\n return '+which).body[0].body[0],s)
            for q in ast.walk(s):
                if not hasattr(q,'lineno') and isinstance(q,(ast.stmt,ast.expr)): q.lineno=q.end_lineno=b[-1].lineno
            out.append(s)
        return out
    return bd
def tryg(m,**k):
    try: K.gen(m,**k)
    except Exception as e: print('FAIL',m,type(e).__name__,e)
for m in 'taus dtaus_dT d2taus_dT2 d3taus_dT3'.split(): tryg(m)
tryg('alphas'); tryg('dalphas_dT')
for m in 'Gs dGs_dT d2Gs_dT2 d3Gs_dT3 Gs_transposed Gs_taus_transposed Gs_taus'.split(): tryg(m)
tryg('xj_Gs_jis',body=inplace(None))
tryg('xj_Gs_taus_jis',qual='NRTL.xj_Gs_jis',body=inplace('_xj_Gs_taus_jis'),note='(the second list it computes, returned by NRTL.xj_Gs_taus_jis, lines 1344-1350; without the cache; list path)')
for m in 'xj_Gs_jis_inv xj_dGs_dT_jis xj_taus_dGs_dT_jis xj_Gs_dtaus_dT_jis GE dGE_dT d2GE_dT2 dGE_dxs d2GE_dxixjs d2GE_dTdxs gammas'.split(): tryg(m)
try: fn(F,'nrtl_gammas_from_args',types=T,annot=True,calls=LK,body=lambda n:[(ast.copy_location(ast.parse('xj_Gs_jis, xj_Gs_taus_jis = '+ast.unparse(s.value)).body[0],s) if isinstance(s,ast.Expr) and isinstance(s.value,ast.Call) else s) for s in n.body])
except Exception as e: print('FAIL gfa',e)
py2v.raw('(* thermo/nrtl.py, lines 1858-1859: MIN_TAU_NRTL, MIN_ALPHA_NRTL. *)\nDefinition MIN_TAU_NRTL : R := - (10 ^ 100).\nDefinition MIN_ALPHA_NRTL : R := 1 / 10 ^ 10.\n')
try: fn(F,'NRTL_gammas',name='NRTL_gammas_function',types=dict(T,td2s='V',tn3s='V'),annot=True,body=lambda n:[ast.copy_location(ast.parse('N = self.N').body[0],n.body[-1])]+appends(n.body,mats=('Gs',)),note='(the stand-alone function)',lines=(2104,2141))
except Exception as e: print('FAIL gf',type(e),e)
CM={'MIN_TAU_NRTL':('MIN_TAU_NRTL','R'),'MIN_ALPHA_NRTL':('MIN_ALPHA_NRTL','R'),'len(xs) // 2':('param','pts','N'),'i * 2':('(i * 2)%nat','N')}
for nme,k in (('NRTL_gammas_binaries',{}),('NRTL_gammas_binaries_jac',{})):
    try: fn(F,nme,types=dict(T,calc='M'),annot=True,exprs=CM,**k)
    except Exception as e: print('FAIL',nme,type(e),e)
if __name__=='__main__':
    py2v.emit('NRTL activity coefficient model (thermo/nrtl.py)','/verif/rocq/theories/Gen_nrtl.v')
