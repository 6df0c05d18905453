(* Facts about dictionaries, reference names and the depth first traversals of the serialization. *)
From Coq Require Import ZArith Arith List Bool String DecimalString DecimalNat Decimal Lia FunctionalExtensionality.
From Verif Require Import Model_serialize Spec_serialize.
Import ListNotations.
Open Scope list_scope.

Lemma eqb_refl s : String.eqb s s = true.
Proof. apply String.eqb_refl. Qed.
Lemma dget_dset {A} k k' (v : A) d : dget k (dset k' v d) = if String.eqb k k' then Some v else dget k d.
Proof.
  induction d as [|[k1 v1] d IH]; cbn [dset dget].
  - destruct (String.eqb k k'); reflexivity.
  - destruct (String.eqb_spec k' k1) as [E|E].
    + subst k1. cbn [dget]. destruct (String.eqb k k'); reflexivity.
    + cbn [dget]. rewrite IH. destruct (String.eqb_spec k k1) as [->|E']; [|reflexivity]. destruct (String.eqb_spec k1 k'); [congruence|reflexivity].
Qed.
Lemma dget_in {A} k (v : A) d : dget k d = Some v -> In (k, v) d.
Proof. induction d as [|[k1 v1] d IH]; cbn; [discriminate|]. destruct (String.eqb_spec k k1) as [->|E]; [intros [= ->]; auto|auto]. Qed.
Lemma in_dget {A} k (v : A) d : NoDup (keys d) -> In (k, v) d -> dget k d = Some v.
Proof.
  induction d as [|[k1 v1] d IH]; cbn; [tauto|]. intros N [E|I]; inversion_clear N as [|? ? N1 N2].
  - injection E as -> ->. now rewrite eqb_refl.
  - destruct (String.eqb_spec k k1) as [->|E]; [|auto]. destruct N1. change k1 with (fst (k1, v)). now apply in_map.
Qed.
Lemma dget_none {A} k (d : list (string * A)) : dget k d = None <-> ~ In k (keys d).
Proof.
  induction d as [|[k1 v1] d IH]; cbn; [tauto|]. destruct (String.eqb_spec k k1) as [->|E]; [split; [discriminate|tauto]|]. rewrite IH. intuition congruence.
Qed.
Lemma dset_map {A} k (v : A) d : NoDup (keys d) -> In k (keys d) -> dset k v d = map (fun kv => if String.eqb (fst kv) k then (fst kv, v) else kv) d.
Proof.
  induction d as [|[k1 v1] d IH]; cbn; [tauto|]. intros N [E|I]; inversion_clear N as [|? ? N1 N2].
  - subst k1. rewrite eqb_refl. f_equal. transitivity (map (fun kv : string * A => kv) d); [symmetry; apply map_id|]. apply map_ext_in. intros [k2 v2] I. cbn. destruct (String.eqb_spec k2 k) as [->|]; [|reflexivity]. destruct N1. change k with (fst (k, v2)). now apply in_map.
  - rewrite String.eqb_sym. destruct (String.eqb_spec k1 k) as [->|E]; [tauto|]. f_equal. auto.
Qed.
Lemma dset_absent {A} k (v : A) d : ~ In k (keys d) -> dset k v d = d ++ [(k, v)].
Proof. induction d as [|[k1 v1] d IH]; cbn; [reflexivity|]. intros N. destruct (String.eqb_spec k k1) as [->|E]; [tauto|]. rewrite IH; tauto. Qed.
Lemma keys_on_dict f d : keys (on_dict f d) = keys d.
Proof. unfold keys, on_dict. rewrite map_map. reflexivity. Qed.
Lemma dget_on_dict f k d : dget k (on_dict f d) = match dget k d with Some v => Some (f v) | None => None end.
Proof. induction d as [|[k1 v1] d IH]; cbn; [reflexivity|]. destruct (String.eqb k k1); auto. Qed.
Lemma ddel_absent {A} ks (d : list (string * A)) : (forall k, In k ks -> ~ In k (keys d)) -> ddel ks d = d.
Proof.
  intros N. unfold ddel. induction d as [|[k v] d IH]; cbn; [reflexivity|]. destruct (existsb (String.eqb k) ks) eqn:E; cbn.
  - apply existsb_exists in E. destruct E as (x & I & Q). apply String.eqb_eq in Q. subst x. destruct (N k I). now left.
  - f_equal. apply IH. intros x I J. apply (N x I). now right.
Qed.
Lemma ddel_keys {A} ks (d : list (string * A)) k : In k (keys (ddel ks d)) -> In k (keys d).
Proof. unfold keys, ddel. rewrite !in_map_iff. intros (x & E & I). apply filter_In in I. exists x. tauto. Qed.
Lemma ddel_nodup {A} ks (d : list (string * A)) : NoDup (keys d) -> NoDup (keys (ddel ks d)).
Proof.
  induction d as [|[k v] d IH]; cbn; [auto|]. intros N. inversion_clear N as [|? ? N1 N2]. destruct (existsb (String.eqb k) ks); cbn; auto. constructor; auto. intros I. apply N1. eapply ddel_keys, I.
Qed.
Lemma ddel_get {A} ks (d : list (string * A)) k : ~ In k ks -> dget k (ddel ks d) = dget k d.
Proof.
  intros N. unfold ddel. induction d as [|[k1 v1] d IH]; cbn; [reflexivity|]. destruct (existsb (String.eqb k1) ks) eqn:E; cbn.
  - destruct (String.eqb_spec k k1) as [->|]; auto. apply existsb_exists in E. destruct E as (x & I & Q). apply String.eqb_eq in Q. now subst.
  - rewrite IH. reflexivity.
Qed.
Lemma dget_ext {A} k (a b : list (string * A)) v : dget k a = Some v -> dget k (a ++ b) = Some v.
Proof. induction a as [|[k1 v1] a IH]; cbn; [discriminate|]. destruct (String.eqb k k1); auto. Qed.
Lemma dget_app {A} k (a b : list (string * A)) : dget k (a ++ b) = match dget k a with Some v => Some v | None => dget k b end.
Proof. induction a as [|[k1 v1] a IH]; cbn; [reflexivity|]. destruct (String.eqb k k1); auto. Qed.
Lemma idget_app a l m : idget a (l ++ m) = match idget a l with Some v => Some v | None => idget a m end.
Proof. induction l as [|[b s] l IH]; cbn; [reflexivity|]. destruct (Nat.eqb a b); auto. Qed.
Lemma idget_in a s l : idget a l = Some s -> In (a, s) l.
Proof. induction l as [|[b t] l IH]; cbn; [discriminate|]. destruct (Nat.eqb_spec a b) as [->|E]; [intros [= ->]; auto|auto]. Qed.
Lemma idget_none a l : idget a l = None <-> ~ In a (map fst l).
Proof. induction l as [|[b t] l IH]; cbn; [tauto|]. destruct (Nat.eqb_spec a b) as [->|E]; [split; [discriminate|tauto]|]. rewrite IH. intuition congruence. Qed.
Lemma in_idget a s l : NoDup (map fst l) -> In (a, s) l -> idget a l = Some s.
Proof.
  induction l as [|[b t] l IH]; cbn; [tauto|]. intros N [E|I]; inversion_clear N as [|? ? N1 N2].
  - injection E as -> ->. now rewrite Nat.eqb_refl.
  - destruct (Nat.eqb_spec a b) as [->|E]; [|auto]. destruct N1. change b with (fst (b, s)). now apply in_map.
Qed.

(* Reference names *)
Lemma append_inj p a b : String.append p a = String.append p b -> a = b.
Proof. induction p; cbn; [auto|]. intros [= E]. auto. Qed.
Lemma ref_name_inj a b : ref_name a = ref_name b -> a = b.
Proof.
  unfold ref_name. intros E. apply append_inj in E. apply (f_equal NilEmpty.uint_of_string) in E. rewrite !NilEmpty.usu in E. injection E as E. now apply DecimalNat.Unsigned.to_uint_inj.
Qed.
Lemma ref_name_is_ref n : is_ref (ref_name n) = true.
Proof. unfold is_ref, ref_name. generalize (NilEmpty.string_of_uint (Nat.to_uint n)). intros s. destruct s; reflexivity. Qed.
Lemma ref_name_0 : ref_name 0 = "pyid_0"%string.
Proof. reflexivity. Qed.

(* The encoding of attribute values with the names given to objects *)
Definition enc1 (ids : list (nat * string)) (v : val) : val := match v with VObj a => match idget a ids with Some s => VStr s | None => v end | _ => v end.
Definition enc (ids : list (nat * string)) (v : val) : val := match v with VList l => VList (map (enc1 ids) l) | VDict l => VDict (on_dict (enc1 ids) l) | _ => enc1 ids v end.
Definition covered (ids : list (nat * string)) (v : val) : Prop := forall a, In a (refs_in v) -> idget a ids <> None.
Definition extends (ids ids' : list (nat * string)) : Prop := exists new, ids' = ids ++ new.
Lemma extends_refl ids : extends ids ids.
Proof. exists []. now rewrite app_nil_r. Qed.
Lemma extends_trans a b c : extends a b -> extends b c -> extends a c.
Proof. intros [x ->] [y ->]. exists (x ++ y). now rewrite app_assoc. Qed.
Lemma extends_get ids ids' a s : extends ids ids' -> idget a ids = Some s -> idget a ids' = Some s.
Proof. intros [n ->] E. now rewrite idget_app, E. Qed.
Lemma extends_covered ids ids' v : extends ids ids' -> covered ids v -> covered ids' v.
Proof. intros X C a I E. destruct (idget a ids) as [s|] eqn:G; [|now apply (C a)]. apply (extends_get _ _ _ _ X) in G. congruence. Qed.
Lemma enc1_stable ids ids' v : extends ids ids' -> covered ids v -> enc1 ids v = enc1 ids' v.
Proof.
  intros X C. destruct v; try reflexivity. cbn. destruct (idget a ids) as [s|] eqn:G; [|exfalso; apply (C a); cbn; auto]. now rewrite (extends_get _ _ _ _ X G).
Qed.
Lemma covered_list ids l v : covered ids (VList l) -> In v l -> covered ids v.
Proof. intros C I a J. apply C. cbn. apply in_flat_map. eauto. Qed.
Lemma covered_dict ids l k v : covered ids (VDict l) -> In (k, v) l -> covered ids v.
Proof. intros C I a J. apply C. cbn. apply in_flat_map. exists (k, v). auto. Qed.
Lemma enc_stable ids ids' v : extends ids ids' -> covered ids v -> enc ids v = enc ids' v.
Proof.
  intros X C. destruct v as [| | |l|l|l|l]; try reflexivity.
  - now apply enc1_stable.
  - cbn. f_equal. apply map_ext_in. intros v I. apply enc1_stable; auto. eapply covered_list; eauto.
  - cbn. f_equal. apply map_ext_in. intros [k v] I. cbn. f_equal. apply enc1_stable; auto. eapply covered_dict; eauto.
Qed.
Lemma in_keys {A} k (v : A) d : In (k, v) d -> In k (keys d).
Proof. intros I. change k with (fst (k, v)). now apply in_map. Qed.
Lemma keys_in {A} k (d : list (string * A)) : In k (keys d) -> exists v, In (k, v) d.
Proof. unfold keys. rewrite in_map_iff. intros ([k' v] & E & I). cbn in E. subst. eauto. Qed.

Section Serialize.
Variable classes : string -> option klass.
Variable H : list obj.
Hypothesis HOK : heap_ok classes H.

Definition encd (ids : list (nat * string)) (k : klass) (d : dict) : dict := map (fun kv => if listed k (fst kv) then (fst kv, enc ids (snd kv)) else kv) d.
Definition finish (o : obj) (k : klass) (d : dict) : dict := dset "json_version" (version k) (dset "py/object" (VStr (o_class o)) (if is_vectorized (o_attrs o) then on_dict arrays_to_lists d else d)).
Definition entry (ids : list (nat * string)) (op : bool) (b : nat) : dict :=
  match nth_error H b with Some o => match classes (o_class o) with Some k => finish o k (encd ids k (kept op k o)) | None => [] end | None => [] end.
Definition closed (op : bool) (ids : list (nat * string)) (b : nat) : Prop := forall o k n v, nth_error H b = Some o -> classes (o_class o) = Some k -> In (n, v) (kept op k o) -> covered ids v.
Record ids_ok (ids : list (nat * string)) : Prop := {
  ids_names : forall i a s, nth_error ids i = Some (a, s) -> s = ref_name i;
  ids_valid : forall a, In a (map fst ids) -> a < List.length H;
  ids_nodup : NoDup (map fst ids) }.
Record post (ids ids' : list (nat * string)) (tbl tbl' : list (string * dict)) : Prop := {
  p_ext : extends ids ids'; p_ok : ids_ok ids';
  p_new : forall b s, idget b ids = None -> idget b ids' = Some s -> dget s tbl' = Some (entry ids' false b) /\ closed false ids' b;
  p_old : forall b s, idget b ids = Some s -> dget s tbl' = dget s tbl;
  p_keys : forall s, In s (keys tbl') -> In s (keys tbl) \/ In s (map snd ids') }.

Lemma to_save_kept op k o : to_save op k o = kept op k o.
Proof.
  unfold to_save, kept, ddel. destruct op; cbn [andb].
  - induction (o_attrs o) as [|kv l IH]; [reflexivity|]. cbn [filter]. destruct (existsb (String.eqb (fst kv)) (dropped k)); cbn [negb andb]; [exact IH|]. cbn [filter]. rewrite IH. reflexivity.
  - apply filter_ext. intros kv. now rewrite andb_true_r.
Qed.
Lemma vec_iff o : NoDup (map fst (o_attrs o)) -> (vectorized o <-> is_vectorized (o_attrs o) = true).
Proof.
  unfold vectorized, is_vectorized. intros N. split.
  - intros I. replace (dget "vectorized"%string (o_attrs o)) with (Some (VPrim (PBool true))); [reflexivity|]. symmetry. revert N I. generalize (o_attrs o) as l. induction l as [|[x v] l IH]; intros N I; [destruct I|].
    inversion N as [|? ? N1 N2]; subst. cbn [dget]. destruct (String.eqb_spec "vectorized" x) as [E|E].
    + destruct I as [Q|I]; [injection Q as -> ->; reflexivity|]. exfalso. apply N1. rewrite <- E. change "vectorized"%string with (fst ("vectorized"%string, VPrim (PBool true))). now apply in_map.
    + destruct I as [Q|I]; [injection Q as Q _; congruence|auto].
  - intros E. destruct (dget "vectorized"%string (o_attrs o)) as [v|] eqn:G; [|discriminate]. destruct v as [p| | | | | |]; try discriminate. destruct p; try discriminate. subst. now apply dget_in in G.
Qed.
Lemma kept_incl op k o n v : In (n, v) (kept op k o) -> In (n, v) (kept false k o).
Proof. unfold kept. destruct op; [|auto]. unfold ddel. rewrite !filter_In. tauto. Qed.
Lemma kept_nodup op k o : NoDup (keys (o_attrs o)) -> NoDup (keys (kept op k o)).
Proof. intros N. unfold kept. destruct op; repeat apply ddel_nodup; auto. Qed.
Lemma kept_keys op k o n : In n (keys (kept op k o)) -> In n (keys (o_attrs o)).
Proof. unfold kept. destruct op; intros I; repeat apply ddel_keys in I; auto. Qed.
Lemma names_inj ids a b s : ids_ok ids -> idget a ids = Some s -> idget b ids = Some s -> a = b.
Proof.
  intros [N V D] A B. apply idget_in in A. apply idget_in in B. apply In_nth_error in A. apply In_nth_error in B. destruct A as [i A], B as [j B].
  pose proof (N _ _ _ A) as E. pose proof (N _ _ _ B) as E'. subst s. apply ref_name_inj in E'. subst j. congruence.
Qed.
Lemma ids_bound ids : ids_ok ids -> List.length ids <= List.length H.
Proof.
  intros [N V D]. rewrite <- (map_length fst ids), <- (seq_length (List.length H) 0). apply NoDup_incl_length; auto. intros a I. apply in_seq. specialize (V a I). lia.
Qed.
Lemma ids_add ids a : ids_ok ids -> a < List.length H -> idget a ids = None -> ids_ok (ids ++ [(a, ref_name (List.length ids))]).
Proof.
  intros [N V D] L G. constructor.
  - intros i b s E. destruct (Nat.lt_ge_cases i (List.length ids)) as [I|I]; [rewrite nth_error_app1 in E by auto; eauto|].
    rewrite nth_error_app2 in E by auto. destruct (i - List.length ids) as [|m] eqn:M; [|destruct m; discriminate E]. cbn in E. injection E as <- <-. replace i with (List.length ids) by lia. reflexivity.
  - intros b. rewrite map_app, in_app_iff. intros [I|[<-|[]]]; auto.
  - rewrite map_app. apply NoDup_rev in D. rewrite <- (rev_involutive (map fst ids ++ _)). apply NoDup_rev. rewrite rev_app_distr. cbn. constructor; auto. rewrite <- in_rev. now apply idget_none.
Qed.
Lemma entry_stable ids ids' op b : extends ids ids' -> closed op ids b -> entry ids op b = entry ids' op b.
Proof.
  intros X C. unfold entry. destruct (nth_error H b) as [o|] eqn:E; [|reflexivity]. destruct (classes (o_class o)) as [k|] eqn:K; [|reflexivity]. f_equal. unfold encd. apply map_ext_in. intros [n v] I. cbn [fst snd].
  destruct (listed k n); [|reflexivity]. f_equal. apply enc_stable; auto. eapply C; eauto.
Qed.
Lemma closed_extends ids ids' op b : extends ids ids' -> closed op ids b -> closed op ids' b.
Proof. intros X C o k n v E K I. eapply extends_covered; eauto. Qed.
Lemma post_refl ids tbl : ids_ok ids -> post ids ids tbl tbl.
Proof. intros O. constructor; auto; [apply extends_refl|intros; congruence]. Qed.
Lemma keys_dset {A} k (v : A) d s : In s (keys (dset k v d)) -> s = k \/ In s (keys d).
Proof. induction d as [|[k' v'] d IH]; cbn; [intuition|]. destruct (String.eqb_spec k k') as [->|]; cbn; intuition. Qed.
Lemma post_trans i1 i2 i3 t1 t2 t3 : post i1 i2 t1 t2 -> post i2 i3 t2 t3 -> post i1 i3 t1 t3.
Proof.
  intros [X1 O1 N1 D1 K1] [X2 O2 N2 D2 K2]. constructor; auto; [eapply extends_trans; eauto| | |].
  - intros b s E E3. destruct (idget b i2) as [s'|] eqn:E2; [|auto]. pose proof (extends_get _ _ _ _ X2 E2). assert (s' = s) by congruence. subst s'.
    destruct (N1 b s E E2) as [A B]. rewrite (D2 b s E2), A. split; [f_equal; now apply entry_stable|eapply closed_extends; eauto].
  - intros b s E. rewrite (D2 b s), (D1 b s); auto. eapply extends_get; eauto.
  - intros s I. destruct (K2 s I) as [I2|]; [|auto]. destruct (K1 s I2) as [|I1]; [auto|]. right. destruct X2 as [x ->]. rewrite map_app. apply in_or_app. auto.
Qed.

Section Step.
Variable n : nat.
Notation rec := (as_json classes H n false).
Hypothesis IH : forall a tbl ids, ids_ok ids -> idget a ids <> None -> List.length H + 1 <= n + List.length ids -> exists tbl' ids', rec a (tbl, ids) = Some (entry ids' false a, (tbl', ids')) /\ post ids ids' tbl tbl' /\ closed false ids' a.
Lemma claim_ok v tbl ids : ids_ok ids -> List.length H <= n + List.length ids -> is_obj v -> (forall a, In a (refs_in v) -> a < List.length H) ->
  exists tbl' ids', claim rec v (tbl, ids) = Some (enc1 ids' v, (tbl', ids')) /\ post ids ids' tbl tbl' /\ covered ids' v.
Proof.
  intros O L [a ->] V. cbn [claim]. assert (Va : a < List.length H) by (apply V; cbn; auto). destruct (idget a ids) as [s|] eqn:G.
  - exists tbl, ids. cbn [enc1]. rewrite G. split; [reflexivity|]. split; [now apply post_refl|]. intros b [<-|[]]. congruence.
  - set (s := ref_name (List.length ids)). destruct (IH a tbl (ids ++ [(a, s)])) as (tbl' & ids' & E & P & C).
    + now apply ids_add.
    + rewrite idget_app, G. cbn. now rewrite Nat.eqb_refl.
    + rewrite app_length. cbn. lia.
    + rewrite E. exists (dset s (entry ids' false a) tbl'), ids'. destruct P as [X O' N D KE].
      assert (Ga : idget a ids' = Some s) by (apply (extends_get _ _ _ _ X); rewrite idget_app, G; cbn; now rewrite Nat.eqb_refl).
      assert (X0 : extends ids ids') by (eapply extends_trans; [|exact X]; eexists; reflexivity).
      cbn [enc1]. rewrite Ga. split; [reflexivity|]. split; [|intros b [<-|[]]; congruence]. constructor; auto.
      * intros b t Gb Gb'. rewrite dget_dset. destruct (String.eqb_spec t s) as [->|Q].
        { assert (b = a) by (eapply names_inj; eauto). subst b. auto. }
        apply N; auto. rewrite idget_app, Gb. cbn. destruct (Nat.eqb_spec b a) as [->|]; [congruence|reflexivity].
      * intros b t Gb. rewrite dget_dset. destruct (String.eqb_spec t s) as [->|Q].
        { exfalso. assert (b = a) by (eapply names_inj; eauto; now apply (extends_get _ _ _ _ X0)). subst b. congruence. }
        apply (D b). now rewrite idget_app, Gb.
      * intros t I. apply keys_dset in I. destruct I as [->|I]; [|auto]. right. change s with (snd (a, s)). apply in_map. now apply idget_in.
Qed.
Lemma claim_list_ok l : forall tbl ids, ids_ok ids -> List.length H <= n + List.length ids -> (forall v, In v l -> is_obj v) -> (forall a, In a (flat_map refs_in l) -> a < List.length H) ->
  exists tbl' ids', claim_list rec l (tbl, ids) = Some (map (enc1 ids') l, (tbl', ids')) /\ post ids ids' tbl tbl' /\ covered ids' (VList l).
Proof.
  induction l as [|v l IHl]; intros tbl ids O L HO V.
  - exists tbl, ids. split; [reflexivity|]. split; [now apply post_refl|intros a []].
  - destruct (claim_ok v tbl ids O L) as (t1 & i1 & E1 & P1 & C1); [apply HO; now left|intros a I; apply V; cbn; apply in_or_app; auto|].
    destruct (IHl t1 i1) as (t2 & i2 & E2 & P2 & C2); [apply P1|destruct P1 as [[x ->] _ _ _ _]; rewrite app_length; lia|intros w I; apply HO; now right|intros a I; apply V; cbn; apply in_or_app; auto|].
    exists t2, i2. cbn [claim_list map]. rewrite E1, E2. rewrite (enc1_stable i1 i2 v) by (auto; apply P2). split; [reflexivity|]. split; [eapply post_trans; eauto|].
    intros a I. cbn in I. apply in_app_or in I. destruct I as [I|I]; [|now apply C2]. eapply (extends_covered i1 i2); eauto. apply P2.
Qed.
Lemma claim_dict_ok l : forall tbl ids, ids_ok ids -> List.length H <= n + List.length ids -> (forall k v, In (k, v) l -> is_obj v) -> (forall a, In a (refs_in (VDict l)) -> a < List.length H) ->
  exists tbl' ids', claim_dict rec l (tbl, ids) = Some (on_dict (enc1 ids') l, (tbl', ids')) /\ post ids ids' tbl tbl' /\ covered ids' (VDict l).
Proof.
  induction l as [|[k v] l IHl]; intros tbl ids O L HO V.
  - exists tbl, ids. split; [reflexivity|]. split; [now apply post_refl|intros a []].
  - destruct (claim_ok v tbl ids O L) as (t1 & i1 & E1 & P1 & C1); [apply (HO k); now left|intros a I; apply V; cbn; apply in_or_app; auto|].
    destruct (IHl t1 i1) as (t2 & i2 & E2 & P2 & C2); [apply P1|destruct P1 as [[x ->] _ _ _ _]; rewrite app_length; lia|intros k' w I; apply (HO k'); now right|intros a I; apply V; cbn; apply in_or_app; auto|].
    exists t2, i2. cbn [claim_dict on_dict map fst snd]. rewrite E1, E2. rewrite (enc1_stable i1 i2 v) by (auto; apply P2). split; [reflexivity|]. split; [eapply post_trans; eauto|].
    intros a I. cbn in I. apply in_app_or in I. destruct I as [I|I]; [|now apply C2]. eapply (extends_covered i1 i2); eauto. apply P2.
Qed.
Lemma claim_attr_ok vec v tbl ids : ids_ok ids -> List.length H <= n + List.length ids -> ref_value vec v -> (forall a, In a (refs_in v) -> a < List.length H) ->
  exists tbl' ids', claim_attr rec v (tbl, ids) = Some (enc ids' v, (tbl', ids')) /\ post ids ids' tbl tbl' /\ covered ids' v.
Proof.
  intros O L R V. destruct v as [p|s|a|l|l|l|l]; try destruct R.
  - exists tbl, ids. split; [reflexivity|]. split; [now apply post_refl|intros a []].
  - exists tbl, ids. split; [reflexivity|]. split; [now apply post_refl|intros a []].
  - apply (claim_ok (VObj a)); auto. now exists a.
  - destruct (claim_list_ok l tbl ids) as (t & i & E & P & C); auto. exists t, i. cbn [claim_attr enc]. now rewrite E.
  - destruct (claim_dict_ok l tbl ids) as (t & i & E & P & C); auto. exists t, i. cbn [claim_attr enc]. now rewrite E.
Qed.
(* the loop over the names: listed attributes are replaced by their encoding *)
Definition encn (ids : list (nat * string)) (names : list string) (d : dict) : dict := map (fun kv => if existsb (String.eqb (fst kv)) names then (fst kv, enc ids (snd kv)) else kv) d.
Lemma existsb_in k names : existsb (String.eqb k) names = true <-> In k names.
Proof. rewrite existsb_exists. split; [intros (x & I & E); apply String.eqb_eq in E; now subst|intros I; exists k; split; auto; apply eqb_refl]. Qed.
Lemma claim_attrs_ok vec names : forall d tbl ids, ids_ok ids -> List.length H <= n + List.length ids -> NoDup names -> NoDup (keys d) -> (forall k v, In (k, v) d -> In k names -> ref_value vec v) -> (forall k v a, In (k, v) d -> In k names -> In a (refs_in v) -> a < List.length H) ->
  exists tbl' ids', claim_attrs rec names d (tbl, ids) = Some (encn ids' names d, (tbl', ids')) /\ post ids ids' tbl tbl' /\ (forall k v, In (k, v) d -> In k names -> covered ids' v).
Proof.
  induction names as [|m names IHn]; intros d tbl ids O L N K R V.
  - exists tbl, ids. cbn [claim_attrs]. split; [|split; [now apply post_refl|intros k v _ []]]. do 2 f_equal. unfold encn. cbn. symmetry. apply map_id.
  - inversion_clear N as [|? ? N1 N2]. cbn [claim_attrs]. destruct (dget m d) as [v|] eqn:G.
    + apply dget_in in G as I. destruct (claim_attr_ok vec v tbl ids O L) as (t1 & i1 & E1 & P1 & C1); [eapply R; [exact I|now left]|intros a; eapply V; [exact I|now left]|].
      rewrite E1. pose proof (in_keys _ _ _ I) as Ik. pose proof (dset_map m (enc i1 v) d K Ik) as DM.
      assert (ID : forall k w, In (k, w) (dset m (enc i1 v) d) -> In k names -> In (k, w) d).
      { intros k w J Hk. rewrite DM in J. apply in_map_iff in J. destruct J as ([k' w'] & Q & J). cbn in Q. destruct (String.eqb_spec k' m) as [->|Ne]; [injection Q as <- _; tauto|]. now injection Q as <- <-. }
      destruct (IHn (dset m (enc i1 v) d) t1 i1) as (t2 & i2 & E2 & P2 & C2).
      * apply P1.
      * destruct P1 as [[x ->] _ _ _ _]. rewrite app_length. lia.
      * auto.
      * rewrite DM. unfold keys. rewrite map_map. rewrite (map_ext _ fst); [exact K|]. intros [a b]. cbn. destruct (String.eqb a m); reflexivity.
      * intros k w J Hk. apply (R k); [now apply ID|now right].
      * intros k w a J Hk. apply (V k); [now apply ID|now right].
      * rewrite E2. exists t2, i2. split; [|split; [eapply post_trans; eauto|]].
        { do 2 f_equal. rewrite DM. unfold encn. rewrite map_map. apply map_ext_in. intros [k w] J. cbn [fst snd existsb]. destruct (String.eqb_spec k m) as [->|Ne]; cbn [fst snd orb].
          - destruct (existsb (String.eqb m) names) eqn:X; [apply existsb_in in X; tauto|]. f_equal. assert (w = v) by (apply in_dget in J; auto; congruence). subst w. apply enc_stable; auto. apply P2.
          - reflexivity. }
        { intros k w J [<-|Hk].
          - assert (w = v) by (apply in_dget in J; auto; congruence). subst w. eapply extends_covered; [apply P2|auto].
          - apply (C2 k w); auto. rewrite DM. apply in_map_iff. exists (k, w). cbn. split; auto. destruct (String.eqb_spec k m) as [->|]; [tauto|reflexivity]. }
    + destruct (IHn d tbl ids) as (t2 & i2 & E2 & P2 & C2); auto; [intros k w J Hk; apply (R k); auto; now right|intros k w a J Hk; apply (V k); auto; now right|].
      exists t2, i2. rewrite E2. apply dget_none in G. split; [|split; auto].
      * do 2 f_equal. unfold encn. apply map_ext_in. intros [k w] J. cbn [fst snd existsb]. destruct (String.eqb_spec k m) as [->|Ne]; [exfalso; apply G; eapply in_keys; eauto|reflexivity].
      * intros k w J [<-|Hk]; [exfalso; apply G; eapply in_keys; eauto|eauto].
Qed.
End Step.
Definition search (k : klass) (d : dict) : list string := match refs k with Some r => r | None => keys d end.
Lemma encn_encd ids k d : encn ids (search k d) d = encd ids k d.
Proof.
  unfold encn, encd, search, listed. destruct (refs k) as [r|]; [reflexivity|]. apply map_ext_in. intros [n v] I. cbn [fst snd]. replace (existsb (String.eqb n) (keys d)) with true; [reflexivity|]. symmetry. apply existsb_in. eapply in_keys; eauto.
Qed.
Lemma as_json_ok n : forall op a tbl ids, ids_ok ids -> idget a ids <> None -> List.length H + 1 <= n + List.length ids ->
  exists tbl' ids', as_json classes H n op a (tbl, ids) = Some (entry ids' op a, (tbl', ids')) /\ post ids ids' tbl tbl' /\ closed op ids' a.
Proof.
  induction n as [|n IH]; intros op a tbl ids O G L; [pose proof (ids_bound ids O); lia|].
  assert (Va : a < List.length H) by (apply (ids_valid ids O); destruct (in_dec Nat.eq_dec a (map fst ids)) as [|Ne]; auto; destruct G; now apply idget_none).
  cbn [as_json]. destruct (nth_error H a) as [o|] eqn:Eo; [|apply nth_error_None in Eo; lia].
  destruct (HOK o (nth_error_In _ _ Eo)) as [k [S1 S2 S3 SV S4 S5]]. rewrite to_save_kept in S5. rewrite S1. fold (search k (kept op k o)).
  destruct S2 as (K1 & K2 & K3).
  destruct (claim_attrs_ok n (IH false) (vectorized o) (search k (kept op k o)) (kept op k o) tbl ids) as (t & i & E & P & C); auto.
  - lia.
  - unfold search. destruct (refs k); [auto|now apply kept_nodup].
  - now apply kept_nodup.
  - intros m v I J. destruct (S5 m v (kept_incl _ _ _ _ _ I)) as [A _]. replace (listed k m) with true in A; auto. symmetry. unfold listed. unfold search in J. destruct (refs k); [now apply existsb_in|reflexivity].
  - intros m v b I J. apply (S5 m v (kept_incl _ _ _ _ _ I)).
  - rewrite E, encn_encd. exists t, i. unfold entry. rewrite Eo, S1. split; [reflexivity|]. split; [auto|].
    intros o' k' m v E' K' I. assert (o' = o) by congruence. subst o'. assert (k' = k) by congruence. subst k'.
    destruct (listed k m) eqn:Li.
    + apply (C m); auto. unfold listed in Li. unfold search. destruct (refs k); [now apply existsb_in|eapply in_keys; eauto].
    + destruct (S5 m v (kept_incl _ _ _ _ _ I)) as [A _]. rewrite Li in A. destruct A as [A _]. intros b J. rewrite A in J. destruct J.
Qed.
(* The whole table: an entry for each named object, and every object referred to is named *)
Lemma serialize_ok op a : a < List.length H -> exists t ids, serialize classes H op a = Some t /\ ids_ok ids /\ idget a ids = Some "pyid_0"%string /\
  (forall b s, idget b ids = Some s -> dget s t = Some (entry ids (op && Nat.eqb b a) b) /\ closed (op && Nat.eqb b a) ids b) /\
  (forall s, In s (keys t) -> exists b, idget b ids = Some s).
Proof.
  intros L. unfold serialize. assert (O : ids_ok [(a, "pyid_0"%string)]).
  { constructor; cbn; [|intros b [<-|[]]; auto|constructor; [intros []|constructor]]. intros [|i] b s E; [injection E as <- <-; reflexivity|destruct i; discriminate E]. }
  destruct (as_json_ok (S (List.length H)) op a [("pyid_0"%string, [])] [(a, "pyid_0"%string)] O) as (t & ids & E & P & C).
  - cbn. rewrite Nat.eqb_refl. discriminate.
  - cbn. lia.
  - rewrite E. assert (G : idget a ids = Some "pyid_0"%string) by (apply (extends_get _ _ _ _ (p_ext _ _ _ _ P)); cbn; now rewrite Nat.eqb_refl).
    exists (dset "pyid_0"%string (entry ids op a) t), ids. split; [reflexivity|]. split; [apply P|]. split; [auto|]. split.
    { intros b s Gb. rewrite dget_dset. destruct (Nat.eqb_spec b a) as [->|Ne].
      - assert (s = "pyid_0"%string) by congruence. subst s. rewrite andb_true_r. split; [reflexivity|auto].
      - rewrite andb_false_r. destruct (String.eqb_spec s "pyid_0") as [->|Q]; [destruct Ne; exact (names_inj ids b a _ (p_ok _ _ _ _ P) Gb G)|]. apply (p_new _ _ _ _ P); auto. cbn. destruct (Nat.eqb_spec b a); [tauto|reflexivity]. }
    { intros s I. apply keys_dset in I. destruct I as [->|I]; [eauto|]. apply (p_keys _ _ _ _ P) in I. destruct I as [[<-|[]]|I]; [eauto|]. apply in_map_iff in I. destruct I as ([b s'] & Q & I). cbn in Q. subst s'. exists b. apply in_idget; auto. apply P. }
Qed.
End Serialize.
