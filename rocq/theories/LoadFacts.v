(* Facts about from_json applied to the result of as_json. *)
From Coq Require Import ZArith Arith List Bool String Lia.
From Verif Require Import Model_serialize Spec_serialize SerFacts.
Import ListNotations.
Open Scope list_scope.

Lemma nodup_app_one {A} (l : list A) x : NoDup l -> ~ In x l -> NoDup (l ++ [x]).
Proof. intros N I. rewrite <- (rev_involutive (l ++ [x])). apply NoDup_rev. rewrite rev_app_distr. cbn. constructor; [now rewrite <- in_rev|now apply NoDup_rev]. Qed.
Lemma set_nth_other {A} n m (x : A) l : n <> m -> nth_error (set_nth n x l) m = nth_error l m.
Proof. revert n m. induction l as [|y l IH]; intros [|n] [|m] E; cbn; auto; try congruence. Qed.
Lemma set_nth_same {A} n (x : A) l : n < List.length l -> nth_error (set_nth n x l) n = Some x.
Proof. revert n. induction l as [|y l IH]; intros [|n] E; cbn in *; auto; try lia. apply IH. lia. Qed.
Lemma set_nth_length {A} n (x : A) l : List.length (set_nth n x l) = List.length l.
Proof. revert n. induction l as [|y l IH]; intros [|n]; cbn; auto. Qed.
Lemma in_snd_inj {A} (l : list (string * A)) s t a : NoDup (map snd l) -> In (s, a) l -> In (t, a) l -> s = t.
Proof.
  induction l as [|[u b] l IH]; cbn; [tauto|]. intros N; inversion_clear N as [|? ? N1 N2]. intros [E|I] [E'|I'].
  - congruence.
  - exfalso. injection E as -> ->. apply N1. change a with (snd (t, a)). now apply in_map.
  - exfalso. injection E' as -> ->. apply N1. change a with (snd (s, a)). now apply in_map.
  - auto.
Qed.

Section Loading.
Variable classes : string -> option klass.
Variable H : list obj.
Hypothesis HOK : heap_ok classes H.
Variables (op : bool) (root : nat) (ids : list (nat * string)).
Hypothesis IOK : ids_ok H ids.
Notation opt b := (op && Nat.eqb b root).
Hypothesis CL : forall b s, idget b ids = Some s -> closed classes H (opt b) ids b.
Definition J (b : nat) : dict := entry classes H ids (opt b) b.

Definition ren1 (made : list (string * nat)) (v : val) : val := match v with VObj c => match idget c ids with Some s => match dget s made with Some a => VObj a | None => v end | None => v end | _ => v end.
Definition ren (made : list (string * nat)) (v : val) : val := match v with VList l => VList (map (ren1 made) l) | VDict l => VDict (on_dict (ren1 made) l) | _ => ren1 made v end.
Definition mcovered (made : list (string * nat)) (v : val) : Prop := forall c, In c (refs_in v) -> exists s a, idget c ids = Some s /\ dget s made = Some a.
Definition copy (made : list (string * nat)) (b : nat) : option obj :=
  match nth_error H b with Some o => match classes (o_class o) with Some k => Some {| o_class := o_class o; o_attrs := map (fun kv => (fst kv, if listed k (fst kv) then ren made (snd kv) else snd kv)) (kept (opt b) k o) |} | None => None end | None => None end.
Definition lclosed (made : list (string * nat)) (b : nat) : Prop := forall o k n v, nth_error H b = Some o -> classes (o_class o) = Some k -> In (n, v) (kept (opt b) k o) -> mcovered made v.
Record linv (st : lstate) : Prop := {
  l_names : NoDup (keys (made st)); l_addr : NoDup (map snd (made st));
  l_valid : forall s a, In (s, a) (made st) -> a < List.length (mem st) /\ exists b, idget b ids = Some s;
  l_js : forall b s, idget b ids = Some s -> dget s (made st) = None -> dget s (js st) = Some (J b) }.
Record lpost (st st' : lstate) : Prop := {
  q_ext : exists new, made st' = made st ++ new; q_inv : linv st';
  q_new : forall b s a, idget b ids = Some s -> dget s (made st) = None -> dget s (made st') = Some a -> (List.length (mem st) <= a /\ nth_error (mem st') a = copy (made st') b) /\ lclosed (made st') b;
  q_mem : forall a, a < List.length (mem st) -> nth_error (mem st') a = nth_error (mem st) a;
  q_len : List.length (mem st) <= List.length (mem st') }.

Lemma mext_get (m new : list (string * nat)) m' s a : m' = m ++ new -> dget s m = Some a -> dget s m' = Some a.
Proof. intros ->. apply dget_ext. Qed.
Lemma ren1_stable m new v : mcovered m v -> ren1 m v = ren1 (m ++ new) v.
Proof. intros C. destruct v; try reflexivity. cbn. destruct (C a) as (s & x & E & G); [cbn; auto|]. now rewrite E, G, (dget_ext s m new x G). Qed.
Lemma mcovered_ext m new v : mcovered m v -> mcovered (m ++ new) v.
Proof. intros C c I. destruct (C c I) as (s & a & E & G). exists s, a. split; auto. now apply dget_ext. Qed.
Lemma ren_stable m new v : mcovered m v -> ren m v = ren (m ++ new) v.
Proof.
  intros C. destruct v as [| | |l|l|l|l]; try reflexivity.
  - now apply ren1_stable.
  - cbn. f_equal. apply map_ext_in. intros v I. apply ren1_stable. intros c J'. apply C. cbn. apply in_flat_map. eauto.
  - cbn. f_equal. apply map_ext_in. intros [k v] I. cbn. f_equal. apply ren1_stable. intros c J'. apply C. cbn. apply in_flat_map. exists (k, v). auto.
Qed.
Lemma copy_stable m new b : lclosed m b -> copy m b = copy (m ++ new) b.
Proof.
  intros C. unfold copy. destruct (nth_error H b) as [o|] eqn:E; [|reflexivity]. destruct (classes (o_class o)) as [k|] eqn:K; [|reflexivity]. do 2 f_equal. apply map_ext_in. intros [n v] I. cbn [fst snd].
  destruct (listed k n); [|reflexivity]. f_equal. apply ren_stable. eapply C; eauto.
Qed.
Lemma lclosed_ext m new b : lclosed m b -> lclosed (m ++ new) b.
Proof. intros C o k n v E K I. apply mcovered_ext. eapply C; eauto. Qed.
Lemma lpost_refl st : linv st -> lpost st st.
Proof. intros O. constructor; auto; [exists []; now rewrite app_nil_r|intros; congruence]. Qed.
Lemma lpost_trans a b c : lpost a b -> lpost b c -> lpost a c.
Proof.
  intros [[x X1] O1 N1 M1 L1] [[y X2] O2 N2 M2 L2]. constructor; auto; [exists (x ++ y); rewrite X2, X1; now rewrite app_assoc| | |lia].
  - intros n s ad E G G3. destruct (dget s (made b)) as [ad'|] eqn:G2.
    + assert (ad' = ad) by (apply (mext_get _ _ _ _ _ X2) in G2; congruence). subst ad'. destruct (N1 n s ad E G G2) as [[A1 A] B].
      split; [|rewrite X2; now apply lclosed_ext]. split; [auto|]. rewrite M2 by (apply (l_valid _ O1 s), dget_in, G2). rewrite X2, <- copy_stable; auto.
    + destruct (N2 n s ad E G2 G3) as [[A1 A] B]. split; auto. split; [lia|auto].
  - intros ad Lt. rewrite M2, M1; auto. lia.
Qed.
Lemma made_bound st : linv st -> List.length (made st) <= List.length ids.
Proof.
  intros [N A V _]. rewrite <- (map_length fst (made st)), <- (map_length snd ids). apply NoDup_incl_length; auto. intros s I. apply keys_in in I. destruct I as [a I]. destruct (V s a I) as [_ [b G]]. change s with (snd (b, s)). apply in_map. now apply idget_in.
Qed.

Section Step.
Variable n : nat.
Notation rec := (from_json classes n).
Hypothesis IH : forall b s st, linv st -> idget b ids = Some s -> dget s (made st) = None -> List.length ids <= n + List.length (made st) ->
  exists st', rec s st = Some st' /\ lpost st st' /\ dget s (made st') = Some (List.length (mem st)).
Lemma lpost_fuel st st' m : lpost st st' -> List.length ids <= m + List.length (made st) -> List.length ids <= m + List.length (made st').
Proof. intros [[x ->] _ _ _ _] L. rewrite app_length. lia. Qed.
Lemma fetch_ok v st : linv st -> List.length ids <= n + List.length (made st) -> is_obj v -> covered ids v -> exists st', fetch rec (enc1 ids v) st = Some (ren1 (made st') v, st') /\ lpost st st' /\ mcovered (made st') v.
Proof.
  intros O L [c ->] C. cbn [enc1]. destruct (idget c ids) as [s|] eqn:G; [|exfalso; apply (C c); cbn; auto]. cbn [fetch]. destruct (dget s (made st)) as [a|] eqn:E.
  - exists st. rewrite E. cbn [ren1]. rewrite G, E. split; [reflexivity|]. split; [now apply lpost_refl|]. intros b [<-|[]]. eauto.
  - destruct (IH c s st O G E L) as (st' & R & P & D). rewrite R, D. exists st'. cbn [ren1]. rewrite G, D. split; [reflexivity|]. split; [auto|]. intros b [<-|[]]. eauto.
Qed.
Lemma fetch_list_ok l : forall st, linv st -> List.length ids <= n + List.length (made st) -> (forall v, In v l -> is_obj v) -> covered ids (VList l) ->
  exists st', fetch_list rec (map (enc1 ids) l) st = Some (map (ren1 (made st')) l, st') /\ lpost st st' /\ mcovered (made st') (VList l).
Proof.
  induction l as [|v l IHl]; intros st O L HO C.
  - exists st. split; [reflexivity|]. split; [now apply lpost_refl|intros c []].
  - destruct (fetch_ok v st O L) as (s1 & E1 & P1 & C1); [apply HO; now left|eapply covered_list; [exact C|now left]|].
    destruct (IHl s1) as (s2 & E2 & P2 & C2); [apply P1|eapply lpost_fuel; eauto|intros w I; apply HO; now right|intros a I; apply C; cbn; apply in_or_app; auto|].
    exists s2. cbn [fetch_list map]. rewrite E1, E2. pose proof P2 as [[x X] _ _ _ _]. split; [|split; [eapply lpost_trans; eauto|]].
    + rewrite X, <- (ren1_stable (made s1) x v) by auto. reflexivity.
    + intros c I. cbn in I. apply in_app_or in I. destruct I as [I|I]; [|now apply C2]. rewrite X. apply (mcovered_ext _ x _ C1 c I).
Qed.
Lemma fetch_dict_ok l : forall st, linv st -> List.length ids <= n + List.length (made st) -> (forall k v, In (k, v) l -> is_obj v) -> covered ids (VDict l) ->
  exists st', fetch_dict rec (on_dict (enc1 ids) l) st = Some (on_dict (ren1 (made st')) l, st') /\ lpost st st' /\ mcovered (made st') (VDict l).
Proof.
  induction l as [|[k v] l IHl]; intros st O L HO C.
  - exists st. split; [reflexivity|]. split; [now apply lpost_refl|intros c []].
  - destruct (fetch_ok v st O L) as (s1 & E1 & P1 & C1); [apply (HO k); now left|eapply covered_dict; [exact C|now left]|].
    destruct (IHl s1) as (s2 & E2 & P2 & C2); [apply P1|eapply lpost_fuel; eauto|intros k' w I; apply (HO k'); now right|intros a I; apply C; cbn; apply in_or_app; auto|].
    exists s2. cbn [on_dict map fst snd fetch_dict]. rewrite E1. change (map (fun kv : string * val => (fst kv, enc1 ids (snd kv))) l) with (on_dict (enc1 ids) l). rewrite E2. pose proof P2 as [[x X] _ _ _ _]. split; [|split; [eapply lpost_trans; eauto|]].
    + rewrite X, <- (ren1_stable (made s1) x v) by auto. reflexivity.
    + intros c I. cbn in I. apply in_app_or in I. destruct I as [I|I]; [|now apply C2]. rewrite X. apply (mcovered_ext _ x _ C1 c I).
Qed.
Lemma name_is_ref b s : idget b ids = Some s -> is_ref s = true.
Proof. intros G. apply idget_in, In_nth_error in G. destruct G as [i G]. rewrite (ids_names _ _ IOK _ _ _ G). apply ref_name_is_ref. Qed.
Lemma fetch_attr_ok vec v st : linv st -> List.length ids <= n + List.length (made st) -> ref_value vec v -> covered ids v -> exists st', fetch_attr rec (enc ids v) st = Some (ren (made st') v, st') /\ lpost st st' /\ mcovered (made st') v.
Proof.
  intros O L R C. destruct v as [p|s|a|l|l|l|l]; try (exfalso; exact R).
  - exists st. split; [reflexivity|]. split; [now apply lpost_refl|intros a []].
  - change (is_ref s = false) in R. exists st. cbn [enc enc1 fetch_attr]. rewrite R. split; [reflexivity|]. split; [now apply lpost_refl|intros a []].
  - destruct (fetch_ok (VObj a) st O L) as (s1 & E1 & P1 & C1); auto; [now exists a|]. exists s1. split; [|auto]. cbn [enc ren]. rewrite <- E1. cbn [enc1]. destruct (idget a ids) as [s|] eqn:G; [|exfalso; apply (C a); cbn; auto]. cbn [fetch_attr]. now rewrite (name_is_ref a s G).
  - destruct R as [_ R]. destruct l as [|v l]; [exists st; split; [reflexivity|]; split; [now apply lpost_refl|intros a []]|].
    destruct (fetch_list_ok (v :: l) st) as (s1 & E1 & P1 & C1); auto. exists s1. split; [|auto]. cbn [enc ren]. destruct (R v) as [a ->]; [now left|]. cbn [map enc1] in *. destruct (idget a ids) as [s|] eqn:G; [|exfalso; apply (C a); cbn; auto]. cbn [fetch_attr]. rewrite (name_is_ref a s G), E1. reflexivity.
  - destruct l as [|[k v] l]; [exists st; split; [reflexivity|]; split; [now apply lpost_refl|intros a []]|].
    destruct (fetch_dict_ok ((k, v) :: l) st) as (s1 & E1 & P1 & C1); auto. exists s1. split; [|auto]. cbn [enc ren]. destruct (R k v) as [a ->]; [now left|]. cbn [on_dict map fst snd enc1] in *. destruct (idget a ids) as [s|] eqn:G; [|exfalso; apply (C a); cbn; auto]. cbn [fetch_attr]. rewrite (name_is_ref a s G), E1. reflexivity.
Qed.
Definition gmap (g : string -> val -> val) (d : dict) : dict := map (fun kv => (fst kv, g (fst kv) (snd kv))) d.
Lemma dget_gmap g k d : dget k (gmap g d) = match dget k d with Some v => Some (g k v) | None => None end.
Proof. induction d as [|[k1 v1] d IHd]; cbn; [reflexivity|]. destruct (String.eqb_spec k k1) as [->|]; auto. Qed.
Lemma keys_gmap g d : keys (gmap g d) = keys d.
Proof. unfold keys, gmap. rewrite map_map. reflexivity. Qed.
Lemma fetch_attrs_ok vec d names : forall g st, linv st -> List.length ids <= n + List.length (made st) -> NoDup names -> NoDup (keys d) -> (forall k v, In (k, v) d -> In k names -> g k v = enc ids v /\ ref_value vec v /\ covered ids v) ->
  exists st', fetch_attrs rec names (gmap g d) st = Some (gmap (fun k v => if existsb (String.eqb k) names then ren (made st') v else g k v) d, st') /\ lpost st st' /\ (forall k v, In (k, v) d -> In k names -> mcovered (made st') v).
Proof.
  induction names as [|m names IHn]; intros g st O L N K A.
  - exists st. split; [reflexivity|]. split; [now apply lpost_refl|intros k v _ []].
  - inversion_clear N as [|? ? N1 N2]. cbn [fetch_attrs]. rewrite dget_gmap. destruct (dget m d) as [v|] eqn:G.
    + apply dget_in in G as I. destruct (A m v I) as (A1 & A2 & A3); [now left|]. rewrite A1. destruct (fetch_attr_ok vec v st O L A2 A3) as (s1 & E1 & P1 & C1). rewrite E1.
      pose (g' := fun k w => if String.eqb k m then ren (made s1) v else g k w).
      assert (DM : dset m (ren (made s1) v) (gmap g d) = gmap g' d).
      { rewrite dset_map; [|rewrite keys_gmap; auto|rewrite keys_gmap; eapply in_keys; eauto]. unfold gmap. rewrite map_map. apply map_ext. intros [k w]. cbn. unfold g'. destruct (String.eqb k m); reflexivity. }
      rewrite DM. destruct (IHn g' s1) as (s2 & E2 & P2 & C2); auto; [apply P1|eapply lpost_fuel; eauto| |].
      * intros k w J' Hk. destruct (A k w J') as (B1 & B2 & B3); [now right|]. unfold g'. destruct (String.eqb_spec k m) as [->|]; [tauto|auto].
      * rewrite E2. exists s2. pose proof P2 as [[x X] _ _ _ _]. split; [|split; [eapply lpost_trans; eauto|]].
        { do 2 f_equal. apply map_ext_in. intros [k w] J'. cbn [fst snd existsb]. f_equal. unfold g'. destruct (String.eqb_spec k m) as [->|Ne]; cbn [orb]; [|reflexivity].
          destruct (existsb (String.eqb m) names) eqn:Y; [apply existsb_in in Y; tauto|]. assert (w = v) by (apply in_dget in J'; auto; congruence). subst w. rewrite X. now apply ren_stable. }
        { intros k w J' [<-|Hk]; [|eauto]. assert (w = v) by (apply in_dget in J'; auto; congruence). subst w. rewrite X. now apply mcovered_ext. }
    + destruct (IHn g st) as (s2 & E2 & P2 & C2); auto; [intros k w J' Hk; apply A; auto; now right|]. apply dget_none in G. rewrite E2. exists s2. split; [|split; auto].
      * do 2 f_equal. apply map_ext_in. intros [k w] J'. cbn [fst snd existsb]. destruct (String.eqb_spec k m) as [->|Ne]; [exfalso; apply G; eapply in_keys; eauto|reflexivity].
      * intros k w J' [<-|Hk]; [exfalso; apply G; eapply in_keys; eauto|eauto].
Qed.
End Step.

(* What is found in an entry of the table *)
Lemma ref_value_iff (P Q : Prop) v : (P <-> Q) -> ref_value P v -> ref_value Q v.
Proof. intros E. destruct v; cbn; tauto. Qed.
Lemma rect_array l : rectangular l -> list_to_array l = VArr l.
Proof.
  destruct l as [|[] rest]; try reflexivity. intros Hr. cbn in Hr. destruct rest as [|y rest]; [reflexivity|]. unfold list_to_array. cbv beta iota.
  assert (E : forall k, (forall y, In y k -> exists m, y = VList m /\ List.length m = List.length l) -> ragged (List.length l) k = false).
  { induction k as [|v k IH]; intros K; [reflexivity|]. destruct (K v (or_introl eq_refl)) as (m & -> & E). cbn. rewrite E, Nat.eqb_refl. apply IH. intros q Hq. apply K. now right. }
  now rewrite (E _ Hr).
Qed.
Lemma naive_lists v : array_data v -> naive_lists_to_arrays (arrays_to_lists v) = v.
Proof.
  revert v. fix IH 1. intros [p|s|a|l|l|l|l] A; cbn in *; try contradiction; try reflexivity.
  - now apply rect_array.
  - f_equal. rewrite map_map. revert A. induction l as [|v l IHl]; intros A; [reflexivity|]. destruct A as [A B]. cbn [map]. f_equal; [now apply IH|now apply IHl].
  - f_equal. rewrite map_map. revert A. induction l as [|[k v] l IHl]; intros A; [reflexivity|]. destruct A as [A B]. cbn [map]. f_equal; [f_equal; now apply IH|now apply IHl].
Qed.
Lemma naive_refs v : ref_value (true = true) v -> covered ids v -> naive_lists_to_arrays (arrays_to_lists (enc ids v)) = enc ids v.
Proof.
  intros R C. destruct v as [p|s|a|l|l|l|l]; try (exfalso; exact R); try reflexivity.
  - cbn. destruct (idget a ids); reflexivity.
  - destruct R as [NR _]. destruct (NR eq_refl).
  - cbn. unfold on_dict. rewrite !map_map. f_equal. apply map_ext_in. intros [k v] I. cbn. f_equal. destruct (R k v I) as [a ->]. cbn. destruct (idget a ids); reflexivity.
Qed.
Lemma encd_gmap k d : encd ids k d = gmap (fun n v => if listed k n then enc ids v else v) d.
Proof. unfold encd, gmap. apply map_ext. intros [n v]. cbn. destruct (listed k n); reflexivity. Qed.
Lemma is_vec_get d d' : dget "vectorized"%string d = dget "vectorized"%string d' -> is_vectorized d = is_vectorized d'.
Proof. unfold is_vectorized. now intros ->. Qed.
Lemma vec_of_enc k d (f : val -> val) : (forall v, match f v with VPrim p => v = VPrim p | _ => forall p, v <> VPrim p end) -> is_vectorized (on_dict f (encd ids k d)) = is_vectorized d.
Proof.
  intros F. unfold is_vectorized. rewrite dget_on_dict, encd_gmap, dget_gmap. destruct (dget "vectorized"%string d) as [v|]; [|reflexivity].
  set (w := if listed k "vectorized" then enc ids v else v). assert (W : match w with VPrim p => v = VPrim p | _ => forall p, v <> VPrim p end).
  { unfold w. destruct (listed k "vectorized"); destruct v as [p|s|a|l|l|l|l]; cbn; try (intros; congruence). destruct (idget a ids); intros; congruence. }
  specialize (F w). destruct (f w) as [p|s|a|l|l|l|l].
  - rewrite F in W. now rewrite W.
  - destruct w as [q|s1|a1|l1|l1|l1|l1]; try (destruct v as [p| | | | | |]; [destruct (W p eq_refl)|reflexivity..]); destruct (F q eq_refl).
  - destruct w as [q|s1|a1|l1|l1|l1|l1]; try (destruct v as [p| | | | | |]; [destruct (W p eq_refl)|reflexivity..]); destruct (F q eq_refl).
  - destruct w as [q|s1|a1|l1|l1|l1|l1]; try (destruct v as [p| | | | | |]; [destruct (W p eq_refl)|reflexivity..]); destruct (F q eq_refl).
  - destruct w as [q|s1|a1|l1|l1|l1|l1]; try (destruct v as [p| | | | | |]; [destruct (W p eq_refl)|reflexivity..]); destruct (F q eq_refl).
  - destruct w as [q|s1|a1|l1|l1|l1|l1]; try (destruct v as [p| | | | | |]; [destruct (W p eq_refl)|reflexivity..]); destruct (F q eq_refl).
  - destruct w as [q|s1|a1|l1|l1|l1|l1]; try (destruct v as [p| | | | | |]; [destruct (W p eq_refl)|reflexivity..]); destruct (F q eq_refl).
Qed.
Lemma on_dict_id d : on_dict (fun v => v) d = d.
Proof. unfold on_dict. transitivity (map (fun kv : string * val => kv) d); [apply map_ext; intros []; reflexivity|apply map_id]. Qed.
Lemma from_json_ok n : forall b s st, linv st -> idget b ids = Some s -> dget s (made st) = None -> List.length ids <= n + List.length (made st) ->
  exists st', from_json classes n s st = Some st' /\ lpost st st' /\ dget s (made st') = Some (List.length (mem st)).
Proof.
  induction n as [|n IH]; intros b s st O G E L.
  { exfalso. assert (P : List.length (made st ++ [(s, List.length (mem st))]) <= List.length ids).
    { rewrite <- (map_length fst (made st ++ _)), <- (map_length snd ids). apply NoDup_incl_length.
      - rewrite map_app. apply nodup_app_one; [apply O|]. now apply dget_none.
      - intros x. rewrite map_app, in_app_iff. intros [I|[<-|[]]].
        + apply keys_in in I. destruct I as [a I]. destruct (l_valid _ O x a I) as [_ [c Gc]]. change x with (snd (c, x)). apply in_map. now apply idget_in.
        + change (fst (s, List.length (mem st))) with (snd (b, s)). apply in_map. now apply idget_in. }
    rewrite app_length in P. cbn in P, L. lia. }
  cbn [from_json]. rewrite (l_js _ O b s G E).
  assert (Vb : b < List.length H) by (apply (ids_valid _ _ IOK); change b with (fst (b, s)); apply in_map; now apply idget_in).
  destruct (nth_error H b) as [o|] eqn:Eo; [|apply nth_error_None in Eo; lia]. destruct (HOK o (nth_error_In _ _ Eo)) as [k [S1 S2 S3 SV S4 S5]]. destruct S2 as (K1 & K2 & K3). rewrite to_save_kept in S5. pose proof (vec_iff o K1) as VI.
  set (kp := kept (opt b) k o). set (vec := is_vectorized (o_attrs o)) in *. set (d' := if vec then on_dict arrays_to_lists (encd ids k kp) else encd ids k kp).
  assert (Kd : keys d' = keys kp) by (unfold d'; rewrite encd_gmap; destruct vec; rewrite ?keys_on_dict, ?keys_gmap; reflexivity).
  assert (NP : ~ In "py/object"%string (keys d')) by (rewrite Kd; intros I; apply kept_keys in I; tauto).
  assert (NV : ~ In "json_version"%string (keys d')) by (rewrite Kd; intros I; apply kept_keys in I; tauto).
  assert (JB : J b = dset "json_version" (version k) (dset "py/object" (VStr (o_class o)) d')) by (unfold J, entry; rewrite Eo, S1; reflexivity).
  rewrite JB. rewrite !dget_dset. cbn [String.eqb Ascii.eqb Bool.eqb]. rewrite S1. cbv zeta.
  assert (D1 : ddel ["py/object"%string; "json_version"%string] (dset "json_version" (version k) (dset "py/object" (VStr (o_class o)) d')) = d').
  { rewrite (dset_absent "py/object") by auto. rewrite dset_absent.
    - unfold ddel. rewrite !filter_app. cbn. rewrite !app_nil_r. exact (ddel_absent ["py/object"%string; "json_version"%string] d' (fun x I => match I with or_introl Q => eq_ind _ (fun y => ~ In y (keys d')) NP _ Q | or_intror (or_introl Q) => eq_ind _ (fun y => ~ In y (keys d')) NV _ Q | or_intror (or_intror F) => match F with end end)).
    - unfold keys. rewrite map_app, in_app_iff. cbn. intros [I|[I|[]]]; [auto|discriminate I]. }
  rewrite D1.
  assert (VK : is_vectorized kp = vec).
  { unfold vec, kp, kept. apply is_vec_get. destruct (opt b); rewrite !ddel_get; auto; tauto. }
  assert (V1 : is_vectorized d' = vec).
  { transitivity (is_vectorized kp); [|exact VK]. unfold d'. destruct vec.
    - apply vec_of_enc. intros [p|x|a|l|l|l|l]; cbn; congruence.
    - rewrite <- (on_dict_id (encd ids k kp)). apply vec_of_enc. intros [p|x|a|l|l|l|l]; congruence. }
  rewrite V1. assert (CB : closed classes H (opt b) ids b) by (eapply CL; eauto).
  assert (SA : forall m v, In (m, v) kp -> (if listed k m then ref_value (vec = true) v else data_value (vec = true) v) /\ covered ids v).
  { intros m v I. split; [|eapply CB; eauto]. destruct (S5 m v (kept_incl _ _ _ _ _ I)) as [A _]. destruct (listed k m); [now apply (ref_value_iff _ _ v VI)|]. destruct A as [A B]. split; [exact A|]. intros Q. apply B, VI, Q. }
  assert (D2 : (if vec then on_dict naive_lists_to_arrays d' else d') = encd ids k kp).
  { unfold d'. destruct vec; [|reflexivity]. unfold on_dict. rewrite map_map. unfold encd at 1. rewrite map_map. unfold encd. apply map_ext_in. intros [m v] I. destruct (SA m v I) as [A C]. cbn [fst snd]. destruct (listed k m); cbn [fst snd]; f_equal.
    - now apply naive_refs.
    - apply naive_lists. now apply A. }
  rewrite D2, Kd. fold (search k kp). rewrite encd_gmap.
  set (st1 := {| js := dset s d' (js st); made := made st ++ [(s, List.length (mem st))]; mem := mem st ++ [{| o_class := o_class o; o_attrs := [] |}] |}).
  assert (O1 : linv st1).
  { destruct O as [ON OA OV OJ]. constructor; cbn [st1 made mem js].
    - unfold keys. rewrite map_app. apply nodup_app_one; auto. now apply dget_none.
    - rewrite map_app. apply nodup_app_one; auto. intros I. apply in_map_iff in I. destruct I as ([x a] & Q & I). cbn in Q. subst a. destruct (OV x _ I). lia.
    - intros x a I. rewrite app_length. cbn. apply in_app_or in I. destruct I as [I|[I|[]]]; [destruct (OV x a I); split; auto; lia|]. injection I as <- <-. split; [lia|eauto].
    - intros c x Gc Q. rewrite dget_app in Q. destruct (dget x (made st)) eqn:Qx; [discriminate|]. cbn in Q. rewrite dget_dset. destruct (String.eqb x s) eqn:Y; [discriminate|]. auto. }
  assert (NK : NoDup (keys kp)) by (now apply kept_nodup).
  destruct (fetch_attrs_ok n IH (vec = true) kp (search k kp) (fun m v => if listed k m then enc ids v else v) st1 O1) as (st2 & E2 & P2 & C2).
  - cbn [st1 made]. rewrite app_length. cbn. lia.
  - unfold search. destruct (refs k); auto.
  - auto.
  - intros m v I J'. destruct (SA m v I) as [A C]. assert (Li : listed k m = true) by (unfold listed; unfold search in J'; destruct (refs k); [now apply existsb_in|reflexivity]). rewrite Li in *. auto.
  - rewrite E2. eexists. split; [reflexivity|].
    destruct P2 as [[x X] [ON OA OV OJ] QN QM QL]. cbn [st1 made mem] in *. rewrite app_length in *. cbn [List.length] in *.
    assert (GS : dget s (made st2) = Some (List.length (mem st))) by (rewrite X, !dget_app, E; cbn; now rewrite eqb_refl).
    split; [|exact GS].
    assert (AT : gmap (fun m v => if existsb (String.eqb m) (search k kp) then ren (made st2) v else if listed k m then enc ids v else v) kp = map (fun kv => (fst kv, if listed k (fst kv) then ren (made st2) (snd kv) else snd kv)) kp).
    { apply map_ext_in. intros [m v] I. cbn [fst snd]. f_equal. unfold listed, search. destruct (refs k) as [r|]; [destruct (existsb (String.eqb m) r); reflexivity|]. replace (existsb (String.eqb m) (keys kp)) with true; [reflexivity|]. symmetry. apply existsb_in. eapply in_keys; eauto. }
    constructor; cbn [made mem js].
    + exists ((s, List.length (mem st)) :: x). rewrite X, <- app_assoc. reflexivity.
    + constructor; cbn [made mem js]; auto.
      * intros t a I. rewrite set_nth_length. auto.
      * intros c t Gc Q. assert (t <> s) by congruence. destruct vec; [now apply OJ|]. rewrite dget_dset. destruct (String.eqb_spec t s); [congruence|]. now apply OJ.
    + intros c t a Gc Q Q'. destruct (String.eqb_spec t s) as [->|Ne].
      * assert (a = List.length (mem st)) by congruence. subst a. assert (c = b) by (eapply names_inj; eauto). subst c. split; [split; [lia|]|].
        { rewrite set_nth_same by lia. unfold copy. rewrite Eo, S1. rewrite AT. reflexivity. }
        { intros o' k' m v Eo' Ek' I. assert (o' = o) by congruence. subst o'. assert (k' = k) by congruence. subst k'. destruct (SA m v I) as [A C]. destruct (listed k m) eqn:Li.
          - apply (C2 m); auto. unfold listed in Li. unfold search. destruct (refs k); [now apply existsb_in|eapply in_keys; eauto].
          - destruct A as [A _]. intros y I'. rewrite A in I'. destruct I'. }
      * destruct (QN c t a Gc) as [[A1 A] B]; auto; [rewrite dget_app, Q; cbn; destruct (String.eqb_spec t s); [congruence|reflexivity]|]. split; [|auto]. split; [lia|]. rewrite set_nth_other; auto. lia.
    + intros a La. rewrite set_nth_other by lia. rewrite QM by lia. now rewrite nth_error_app1.
    + rewrite set_nth_length. lia.
Qed.
End Loading.
