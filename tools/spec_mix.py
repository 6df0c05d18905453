from py2v import *
import copy
F='eos_mix_methods.py'
class W2F(ast.NodeTransformer):
    """i = 0; while i < N: ...; i += 1   ->   for i in range(N): ..."""
    def fix(self, body):
        out=[]
        for s in body:
            if isinstance(s,ast.While):
                v=s.test.left.id
                last=s.body[-1]
                assert isinstance(last,ast.AugAssign) and last.target.id==v and last.value.value==1
                init=out.pop()
                assert isinstance(init,ast.Assign) and init.targets[0].id==v and init.value.value==0
                f=ast.For(target=ast.Name(id=v,ctx=ast.Store()),iter=ast.Call(func=ast.Name(id='range',ctx=ast.Load()),args=[s.test.comparators[0]],keywords=[]),body=self.fix(s.body[:-1]),orelse=[],lineno=s.lineno,end_lineno=s.end_lineno)
                ast.fix_missing_locations(f)
                out.append(f)
            elif isinstance(s,ast.For):
                s.body=self.fix(s.body); out.append(s)
            else: out.append(s)
        return out
def w2f(node):
    b=[s for s in copy.deepcopy(node).body if not(isinstance(s,ast.Expr) and isinstance(s.value,ast.Constant))]
    return W2F().fix(b)
V3={'zs':'V','one_minus_kijs':'M'}
ten100='(10 ^ 100)'
fn(F,'a_alpha_aijs_composition_independent',types=dict(a_alphas='V',one_minus_kijs='M',a_alpha_ijs='M',a_alpha_roots='V',a_alpha_ij_roots_inv='M'),
   calls={'_sqrt':('sqrt',['R'],'R')},drop=('_sqrt',),tryexc={'*':'(Reqb term 0)'},note='(the three buffers are parameters; None means all-zero buffers; the division raises exactly when term = 0)')
AB=dict(a_alphas='V',zs='V',one_minus_kijs='M',a_alpha_ijs='M',a_alpha_roots='V',a_alpha_ij_roots_inv='M',da_alpha_dTs='V',d2a_alpha_dT2s='V')
fn(F,'a_alpha_and_derivatives',types=AB,drop=('da_alpha_dT','d2a_alpha_dT2'),exprs={'(a_alpha, None, a_alpha_ijs)':('(a_alpha, a_alpha_ijs)','(R M)')},note='(with the precomputed matrices given; the second component of the result is None)')
fn(F,'a_alpha_and_derivatives_full',types=AB,note='(with the precomputed matrices given)')
fn(F,'a_alpha_quadratic_terms',types=dict(AB,a_alpha_j_rows='V',vec0='V'),body=w2f,note='(while loops with a counter written as for loops)')
fn(F,'a_alpha_and_derivatives_quadratic_terms',types=dict(AB,a_alpha_j_rows='V',da_alpha_dT_j_rows='V'))
VV={k:'V' for k in 'bs b0s cs db_dzs ddelta_dzs depsilon_dzs da_alpha_dzs dbs depsilons ddelta dVs da_alphas a_alpha_j_rows a_alpha_roots lnphis db_dns da_alpha_dns ddelta_dns depsilon_dns zs a_alphas vec0'.split()}
VV.update(N='N',one_minus_kijs='M',out='V')
fn(F,'eos_mix_dV_dzs',types=VV)
fn(F,'G_dep_lnphi_d_helper',types=dict(VV,G='B'))
for f in 'eos_mix_db_dns eos_mix_da_alpha_dns PR_ddelta_dzs PR_ddelta_dns PR_depsilon_dns PR_depsilon_dzs PR_translated_ddelta_dzs PR_translated_ddelta_dns SRK_translated_ddelta_dns SRK_translated_depsilon_dns SRK_translated_depsilon_dzs PR_translated_depsilon_dzs PR_translated_depsilon_dns'.split():
    fn(F,f,types=VV)
for f in 'PR_d2delta_dninjs PR_d2epsilon_dzizjs PR_d2epsilon_dninjs PR_translated_d2epsilon_dzizjs PR_translated_d2epsilon_dninjs SRK_translated_d2epsilon_dzizjs SRK_translated_d2delta_dninjs SRK_translated_d2epsilon_dninjs PR_translated_d2delta_dninjs'.split():
    fn(F,f,types=dict(VV,out='M'))
def inl(node):
    """rows of `out` bound to a name (r = out[i]; row = r[j]) are replaced by what they stand for"""
    b=[s for s in copy.deepcopy(node).body if not(isinstance(s,ast.Expr) and isinstance(s.value,ast.Constant))]
    def root(e):
        while isinstance(e,ast.Subscript): e=e.value
        return e.id if isinstance(e,ast.Name) else None
    def go(body,al):
        al=dict(al); out=[]
        class X(ast.NodeTransformer):
            def visit_Name(self,n): return copy.deepcopy(al[n.id]) if n.id in al else n
        for s in body:
            if isinstance(s,ast.Assign) and isinstance(s.targets[0],ast.Name) and isinstance(s.value,ast.Subscript) and (root(s.value)=='out' or root(s.value) in al):
                al[s.targets[0].id]=X().visit(s.value); continue
            if isinstance(s,ast.For): s.body=go(s.body,al); out.append(s)
            else: out.append(X().visit(s))
        return out
    b=go(b,{})
    class Y(ast.NodeTransformer):
        def visit_Assign(self,s):
            for t in s.targets:
                for x in ast.walk(t):
                    if isinstance(x,ast.Subscript): x.ctx=ast.Load()
                if isinstance(t,ast.Subscript): t.ctx=ast.Store()
            return s
    b=[Y().visit(s) for s in b]
    for s in b: ast.fix_missing_locations(s)
    return b
for f in 'RK_d3delta_dninjnks PR_d3delta_dninjnks PR_d3epsilon_dninjnks SRK_translated_d3delta_dninjnks SRK_translated_d3epsilon_dninjnks PR_translated_d3delta_dninjnks PR_translated_d3epsilon_dninjnks'.split():
    fn(F,f,types=dict(VV,out='T'),body=inl)
C={'root_two':'(sqrt 2)','R2_inv':'(1 / (Rgas * Rgas))','R_inv':'(1 / Rgas)','R2':'(Rgas * Rgas)','root_two_m1':'(sqrt 2 - 1)','root_two_p1':'(sqrt 2 + 1)','two_root_two':'(2 * sqrt 2)'}
def prl(node):
    b=[s for s in copy.deepcopy(node).body if not(isinstance(s,ast.Expr) and isinstance(s.value,ast.Constant))]
    for s in b:
        if isinstance(s,ast.If) and s.orelse and isinstance(s.orelse[0],ast.For):
            f=s.orelse[0]
            assert isinstance(f.body[-1],ast.Return)
            v=f.target.id
            class X(ast.NodeTransformer):
                def visit_Name(self,n): return ast.copy_location(ast.Constant(value=0),n) if n.id==v else n
            s.orelse=[X().visit(q) for q in f.body]
    return b
fn(F,'PR_lnphis',types=VV,consts=C,body=prl,note='(the loop at lines 1310-1312 returns in its first iteration: it is modelled as that iteration with i = 0, N >= 1)')
fn(F,'SRK_lnphis',types=VV,consts=C)
fn(F,'VDW_lnphis',types=VV,consts=C)
if __name__=='__main__':
    emit('Mixing rules (thermo/eos_mix_methods.py)','/verif/rocq/theories/Gen_mix.v')
