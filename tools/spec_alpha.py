from py2v import *
F='eos_alpha_functions.py'
tree=load(F)[1]
pure={}
for n in tree.body:
    if isinstance(n,ast.FunctionDef) and n.name.endswith('_alpha_pure'): pure[n.name]=n
def mk(name,arity):
    def call(tr,e,env,stmt=False):
        args=[]
        for a in e.args:
            if isinstance(a,ast.Starred):
                v=tr.E(a.value,env)
                k=len(args)
                args+=['(%s %d%%nat)'%(v.s,i) for i in range(arity-k)]
            else: args.append(tr.R(a,env))
        return Val('(%s %s)'%(name,' '.join(args)),'R')
    return call
calls={}
for n,node in pure.items():
    if node.args.vararg: continue
    fn(F,n); calls[n]=mk(n,len(node.args.args))
TY={'alpha_coeffs':'V'}
skip=('Poly_a_alpha','Mathias_Copeman_poly_a_alpha','TwuSRK95_a_alpha','TwuPR95_a_alpha')
for n in tree.body:
    if isinstance(n,ast.ClassDef) and n.name.endswith('_a_alpha') and n.name not in skip:
        p=n.name[:-len('_a_alpha')]
        fn(F,n.name+'.a_alpha_pure',name=p+'_a_alpha_pure',types=TY,calls=calls)
        fn(F,n.name+'.a_alpha_and_derivatives_pure',name=p+'_a_alpha_and_derivatives_pure',types=TY)
        names=[m.name for m in n.body if isinstance(m,ast.FunctionDef)]
        if 'a_alphas_vectorized' in names:
            T2={'alpha_coeffs':'M','ais':'V','Tcs':'V','N':'N'}
            fn(F,n.name+'.a_alphas_vectorized',name=p+'_a_alphas_vectorized',types=T2,static={'self.vectorized':False},note='List form; one append per iteration is an update at the loop index.')
            fn(F,n.name+'.a_alpha_and_derivatives_vectorized',name=p+'_a_alpha_and_derivatives_vectorized',types=T2,static={'self.vectorized':False})
for m in ('PR','SRK'):
    st={"method == 'PR'":m=='PR',"method == 'SRK'":m=='SRK'}
    fn(F,'TWU_a_alpha_common',name='Twu%s95_a_alpha_pure'%m,static=dict(st,**{'not full':True}),drop=('full','method'),note="method='%s', full=False."%m)
    fn(F,'TWU_a_alpha_common',name='Twu%s95_a_alpha_and_derivatives_pure'%m,static=dict(st,**{'not full':False}),drop=('full','method'),note="method='%s', full=True."%m)
V={'Tcs':'V','ais':'V','kappas':'V','ms':'V','kappa0s':'V','kappa1s':'V','kappa2s':'V','kappa3s':'V','S1s':'V','S2s':'V','a_alphas':'V','da_alpha_dTs':'V','d2a_alpha_dT2s':'V'}
for p in ('PR','SRK','RK','PRSV','PRSV2','APISRK'):
    fn(F,p+'_a_alphas_vectorized',types=V)
    fn(F,p+'_a_alpha_and_derivatives_vectorized',types=V)
if __name__=='__main__':
    emit('Alpha functions (thermo/eos_alpha_functions.py)','/verif/rocq/theories/Gen_alpha.v')
