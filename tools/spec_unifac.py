from clsgen import *
F='unifac.py'
T={}
for k in 'psis dpsis_dT d2psis_dT2 d3psis_dT3 psi_a psi_b psi_c vs dVis_dxs dFis_dxs dVis_modified_dxs dThetas_dxs Ws mat0 Xs_pure Thetas_pure Theta_pure_Psi_sums Theta_pure_Psi_sum_invs Fs_pure Gs_pure Hs_pure lnGammas_subgroups_pure dlnGammas_subgroups_pure_dT d2lnGammas_subgroups_pure_dT2 d3lnGammas_subgroups_pure_dT3 dlnGammas_subgroups_dxs d2lnGammas_subgroups_dTdxs dlngammas_r_dxs d2lngammas_r_dTdxs dlngammas_c_dxs d2GE_dxixjs dgammas_dxs dgammas_dns'.split(): T[k]='M'
for k in 'xs rs qs Qs rs_34 Vis Fis Vis_modified Xs Thetas VS VSXS vec0 vec1 Theta_Psi_sums Theta_Psi_sum_invs Theta_dPsidT_sum Theta_d2PsidT2_sum Theta_d3PsidT3_sum Fs Gs Hs Zs Us_inv lnGammas_subgroups dlnGammas_subgroups_dT d2lnGammas_subgroups_dT2 d3lnGammas_subgroups_dT3 cmp_v_count cmp_v_count_inv lngammas_r dlngammas_r_dT d2lngammas_r_dT2 d3lngammas_r_dT3 lngammas_c gammas dgammas_dT dGE_dxs d2GE_dTdxs row'.split(): T[k]='V'
for k in 'd2Vis_dxixjs d2Fis_dxixjs d2Vis_modified_dxixjs d2Thetas_dxixjs d2lnGammas_subgroups_dxixjs d2lngammas_r_dxixjs d2lngammas_c_dxixjs'.split(): T[k]='T'
for k in 'd3Vis_dxixjxks d3Fis_dxixjxks d3Vis_modified_dxixjxks d3lngammas_c_dxixjxks'.split(): T[k]='Q'
for k in 'N N_groups version i j k m n'.split(): T[k]='N'
LK={}
py2v.raw('''(* store into a four-index array *)
Definition updq {A : Type} (a : nat -> nat -> nat -> nat -> A) (i j h l : nat) (v : A) : nat -> nat -> nat -> nat -> A :=
  fun p q r s => if (Nat.eqb p i && Nat.eqb q j && Nat.eqb r h && Nat.eqb s l)%bool then v else a p q r s.
''')
def src(node, subs=()):
    t='\n'.join(ast.unparse(x) for x in node.body)
    for a,b in list(subs):
        assert a in t,(a,t)
        t=t.replace(a,b)
    t=t.replace('version in (4, 5)','version == 4 or version == 5').replace('version in (1, 3, 4)','version == 1 or version == 3 or version == 4').replace('version in (1, 4)','version == 1 or version == 4')
    b=ast.parse(t).body
    lo=node.body[1].lineno if isinstance(node.body[0],ast.Expr) else node.body[0].lineno
    for s in b:
        for q in ast.walk(s):
            if isinstance(q,(ast.stmt,ast.expr)): q.lineno=lo; q.end_lineno=node.end_lineno
    return b
def rowfree(node, subs=()):
    """assignments row = a[i] of a nested output array, followed by stores into row, written as stores into the array"""
    b=src(node,subs)
    names={}
    arrays={a.arg for a in node.args.args if T.get(a.arg) in ('T','Q')}
    def go(body):
        out=[]
        for s in body:
            if isinstance(s,ast.Assign) and isinstance(s.targets[0],ast.Name) and isinstance(s.value,ast.Subscript) and isinstance(s.value.value,ast.Name) and (s.value.value.id in arrays or s.value.value.id in names) and s.targets[0].id in ('row','mat','cube','matrix','hess','third','r','d2Thetas_dxixjs_ij'):
                names[s.targets[0].id]=ast.unparse(R().visit(copy.deepcopy(s.value))); continue
            s=R().visit(s) if not isinstance(s,(ast.For,ast.If)) else s
            if isinstance(s,(ast.For,ast.If)):
                s.body=go(s.body)
                if s.orelse: s.orelse=go(s.orelse)
            out.append(s)
        return out
    class R(ast.NodeTransformer):
        def visit_Name(self,n):
            if n.id in names: return ast.copy_location(ast.parse(names[n.id],mode='eval').body,n)
            return n
    b=go(b)
    t='\n'.join(ast.unparse(x) for x in b)
    lo,hi=b[0].lineno,node.end_lineno
    b=ast.parse(t).body
    for s in b:
        for q in ast.walk(s):
            if isinstance(q,(ast.stmt,ast.expr)): q.lineno=lo; q.end_lineno=hi
    return b
def do(q,**k):
    nm_=k.get('name') or q
    try: fn(F,q,types=T,annot=True,calls=LK,**({'body':rowfree}|k)); LK[q]=link(F,q)
    except Exception as e:
        print('FAIL',q,type(e).__name__,e)
        if os.environ.get('TB'): raise
import os
py2v.TY['(V R)']='(nat -> R) * R'
for q in 'unifac_psis unifac_dpsis_dT unifac_d2psis_dT2 unifac_d3psis_dT3 unifac_Vis unifac_dVis_dxs unifac_d2Vis_dxixjs unifac_d3Vis_dxixjxks unifac_Xs unifac_Thetas unifac_dThetas_dxs unifac_d2Thetas_dxixjs unifac_VSXS unifac_Theta_Psi_sums unifac_ws unifac_Theta_pure_Psi_sums unifac_lnGammas_subgroups unifac_dlnGammas_subgroups_dxs unifac_d2lnGammas_subgroups_dTdxs unifac_d2lnGammas_subgroups_dxixjs unifac_dlnGammas_subgroups_dT unifac_d2lnGammas_subgroups_dT2 unifac_d3lnGammas_subgroups_dT3 unifac_Xs_pure unifac_Thetas_pure'.split(): do(q)
IDX=[('in group_cmp_idx[k]','in range(N)')]
MEM='(the index lists hold the groups with a non-zero count: `for m in cmp_group_idx[i]` is a loop over all groups with a test)'
def pure(node):
    t='\n'.join(ast.unparse(x) for x in node.body)
    t=t.replace('for i in group_cmp_idx[k]:','for i in range(N):\n      if vs[k][i] != 0.0:') 
    t=t.replace('for m in cmp_group_idx[i]:','for m in range(N_groups):\n           if vs[m][i] != 0.0:')
    t=t.replace('if k in groups2:','if vs[k][m] != 0.0:').replace('    groups2 = cmp_group_idx[m]\n','')
    class N_: pass
    n=N_(); n.body=ast.parse(t).body; n.end_lineno=node.end_lineno; n.args=node.args
    for s in n.body:
        for q in ast.walk(s):
            if isinstance(q,(ast.stmt,ast.expr)): q.lineno=node.body[0].lineno
    return rowfree(n)
for q in 'unifac_lnGammas_subgroups_pure unifac_dlnGammas_subgroups_pure_dT unifac_d2lnGammas_subgroups_pure_dT2 unifac_d3lnGammas_subgroups_pure_dT3'.split(): do(q,body=pure,note=MEM,exprs={'vs':('param','vs','M')},prune=True)
for q in 'unifac_lngammas_r unifac_dlngammas_r_dxs unifac_d2lngammas_r_dxixjs unifac_GE unifac_GE_skip_comb unifac_dGE_dxs unifac_dGE_dxs_skip_comb unifac_d2GE_dTdxs unifac_d2GE_dTdxs_skip_comb unifac_d2GE_dxixjs unifac_d2GE_dxixjs_skip_comb unifac_dGE_dT unifac_d2GE_dT2 unifac_d3GE_dT3 unifac_gammas unifac_lngammas_c unifac_dlngammas_c_dxs unifac_d2lngammas_c_dxixjs unifac_d3lngammas_c_dxixjxks unifac_dgammas_dxs unifac_dgammas_dxs_skip_comb unifac_dgammas_dns'.split(): do(q)
do('unifac_gammas_from_args',body=lambda n:rowfree(n,[('skip_comb = version == 3\n',''),('if skip_comb:','if version == 3:')]))

# ---- the class
def gl(node, subs, fill=None):
    class N_: pass
    t='\n'.join(ast.unparse(x) for x in node.body)
    for a,b in subs:
        assert a in t,(a,t)
        t=t.replace(a,b)
    t=re.sub(r'self\.version', 'version', t) if 0 else t
    t=t.replace('version in (1, 4)','version == 1 or version == 4').replace('self.cmp_v_count_inv','self.cmp_v_count_inv()').replace('self.cmp_v_count\n','self.cmp_v_count()\n').replace('self.rs_34','self.rs_34()').replace('= self._Thetas_pure\n','= self.Thetas_pure()\n').replace('self._Thetas_pure,','self.Thetas_pure(),').replace('Xs_pure = self._Xs_pure\n','')
    t=t.replace('cmp_group_idx = self.cmp_group_idx\n','').replace('Thetas_pure, cmp_group_idx = (self.Thetas_pure(), self.cmp_group_idx)','Thetas_pure = self.Thetas_pure()').replace('self.group_cmp_idx','0')
    t=re.sub(r'\bcmp_group_idx\b','0',t)
    if fill: t=re.sub(r'^( *)(unifac_\w+\()',lambda m:m.group(1)+fill+' = '+m.group(2),t,flags=re.M)
    b=ast.parse(t).body
    lo=node.body[1].lineno if isinstance(node.body[0],ast.Expr) else node.body[0].lineno
    for x in b:
        for q in ast.walk(x):
            if isinstance(q,(ast.stmt,ast.expr)): q.lineno=lo; q.end_lineno=node.end_lineno
    return b
import re
py2v.raw("""(* thermo/unifac.py, lines 5534-5539: UNIFAC.__init__, the number of groups in each compound (cmp_v_count). *)
Definition UNIFAC_cmp_v_count (N_groups : nat) (vs : nat -> nat -> R) : nat -> R :=
  fun i => loop N_groups (fun group tot => tot + vs group i) 0.
""")
py2v.raw("""(* thermo/unifac.py, lines 5540-5545: UNIFAC.__init__, cmp_v_count_inv. *)
Definition UNIFAC_cmp_v_count_inv (N_groups : nat) (vs : nat -> nat -> R) : nat -> R :=
  fun i => 1 / UNIFAC_cmp_v_count N_groups vs i.
""")
py2v.raw("""(* thermo/unifac.py, lines 5520-5532: UNIFAC.__init__, the powers of rs. The attribute is not set for the other versions, which never read it; here it is 0 for them. *)
Definition UNIFAC_rs_34 (version : nat) (rs : nat -> R) : nat -> R :=
  fun i => if Nat.eqb version 1 then Rpower (rs i) (3 / 4) else if Nat.eqb version 4 then Rpower (rs i) (2 / 3) else 0.
""")
K=Klass(F,'UNIFAC',T,LK,order='N N_groups T xs version rs qs Qs vs psi_a psi_b psi_c'.split())
K.done['cmp_v_count']=('UNIFAC_cmp_v_count',[('N_groups','N'),('vs','M')],'V')
K.done['cmp_v_count_inv']=('UNIFAC_cmp_v_count_inv',[('N_groups','N'),('vs','M')],'V')
K.done['rs_34']=('UNIFAC_rs_34',[('version','N'),('rs','V')],'V')
def g(m,subs=(),fill=None,**k):
    try: K.gen(m,body=lambda n:gl(n,subs,fill),**k)
    except Exception as e:
        print('FAIL',m,type(e).__name__,e)
        if os.environ.get('TB'): raise
def two(m,call,first,second,meth2,exc='except AttributeError:'):
    a='try:\n    return self._%s\n%s\n    pass\n'%(m,exc)
    g(m,[(a,''),(call,call.replace('self._','').replace('self.',''))])
    g(meth2,[(a,''),(call,call.replace('self._','').replace('self.','')),('return '+first,'return '+second)],qual='UNIFAC.'+m,note='(the value stored in %s)'%(('_' if second!='r34x_sum_inv' else '')+second))
def inv(m,meth,a,under='_'):
    g(m,[('try:\n    %s = self.%s%s\nexcept AttributeError:\n    self.%s()\n    %s = self.%s%s'%(a,under,a,meth,a,under,a),'%s = self.%s()'%(a,a))])
for m in 'psis dpsis_dT d2psis_dT2 d3psis_dT3'.split(): g(m)
two('Vis','self._Vis, self._rx_sum_inv = unifac_Vis(rs, xs, N, Vis)','Vis','rx_sum_inv','rx_sum_inv','except:')
for m in 'dVis_dxs d2Vis_dxixjs d3Vis_dxixjxks'.split(): inv(m,'Vis','rx_sum_inv')
two('Fis','self._Fis, self._qx_sum_inv = unifac_Vis(qs, xs, N, Fis)','Fis','qx_sum_inv','qx_sum_inv')
for m in 'dFis_dxs d2Fis_dxixjs d3Fis_dxixjxks'.split(): inv(m,'Fis','qx_sum_inv')
two('Vis_modified','self._Vis_modified, self.r34x_sum_inv = unifac_Vis(rs_34, xs, N, Vis_modified)','Vis_modified','r34x_sum_inv','r34x_sum_inv','except:')
for m in 'dVis_modified_dxs d2Vis_modified_dxixjs d3Vis_modified_dxixjxks'.split(): inv(m,'Vis_modified','r34x_sum_inv','')
two('Xs','self._Xs, self._Xs_sum_inv = unifac_Xs(N, N_groups, xs, vs, Xs)','Xs','Xs_sum_inv','Xs_sum_inv')
two('Thetas','self._Thetas, self._Thetas_sum_inv = unifac_Thetas(N_groups, Xs, Qs, Thetas)','Thetas','Thetas_sum_inv','Thetas_sum_inv')
g('VSXS')
for m in 'dThetas_dxs d2Thetas_dxixjs Theta_Psi_sums'.split(): g(m)
g('Theta_Psi_sum_invs',[('[1.0 / v for v in Theta_Psi_sums]','[1.0 / Theta_Psi_sums[k] for k in range(self.N_groups)]')])
for m in 'Ws Fs Gs Hs'.split(): g(m)
g('Xs_pure'); g('Thetas_pure')
for m in 'Theta_pure_Psi_sums'.split(): g(m)
g('Theta_pure_Psi_sum_invs',[('[[1.0 / v for v in row] for row in Theta_pure_Psi_sums]','[[1.0 / Theta_pure_Psi_sums[i][k] for k in range(self.N_groups)] for i in range(self.N)]')])
for m in 'Fs_pure Gs_pure Hs_pure lnGammas_subgroups dlnGammas_subgroups_dxs d2lnGammas_subgroups_dxixjs dlnGammas_subgroups_dT d2lnGammas_subgroups_dT2 d3lnGammas_subgroups_dT3 lnGammas_subgroups_pure dlnGammas_subgroups_pure_dT d2lnGammas_subgroups_pure_dT2'.split(): g(m)
g('d3lnGammas_subgroups_pure_dT3',[('Theta_pure_Psi_sum_invs = self.Theta_pure_Psi_sum_invs\n','Theta_pure_Psi_sum_invs = self.Theta_pure_Psi_sum_invs()\n')],note='(the value when the reciprocal sums are cached; for the case they are not see Model_unifac)')
# the array passed in is filled in place and returned
g('d2lnGammas_subgroups_dTdxs',[('self._d2lnGammas_subgroups_dTdxs = unifac','d2lnGammas_subgroups_dTdxs = unifac')])
g('lngammas_r',fill='lngammas_r')
for m in 'dlngammas_r_dT d2lngammas_r_dT2 d3lngammas_r_dT3'.split(): g(m)
for m in 'dlngammas_r_dxs d2lngammas_r_dTdxs d2lngammas_r_dxixjs'.split(): g(m)
g('lngammas_c',fill='lngammas_c')
for m in 'dlngammas_c_dxs d2lngammas_c_dxixjs d3lngammas_c_dxixjxks'.split(): g(m)
SK=[('self.skip_comb','self.version == 3')]
SK2=[(', skip_comb = ',' = '),(', self.skip_comb',''),('if skip_comb:','if self.version == 3:')]
g('GE',SK); g('dGE_dxs',SK2); g('d2GE_dTdxs',SK2); g('d2GE_dxixjs',SK2,fill='d2GE_dxixjs')
for m in 'dGE_dT d2GE_dT2 d3GE_dT3'.split(): g(m)
g('gammas',SK); g('dgammas_dT'); g('dgammas_dxs',SK); g('dgammas_dns')
py2v.emit('UNIFAC activity coefficient model (thermo/unifac.py)','/verif/rocq/theories/Gen_unifac.v','')
