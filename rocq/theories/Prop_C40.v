(* C40: serialization of object graphs. *)
From Coq Require Import ZArith Arith List Bool String Lia.
From Verif Require Import Model_serialize Spec_serialize SerFacts LoadFacts.
Import ListNotations.
Open Scope list_scope.

Lemma rename_none f : forall v, refs_in v = [] -> rename f v = v.
Proof.
  fix IH 1. intros [p|s|a|l|l|l|l] E; cbn in *; try reflexivity; try discriminate.
  - f_equal. revert E. induction l as [|v l IHl]; intros E; [reflexivity|]. cbn in E. apply app_eq_nil in E. destruct E as [E1 E2]. cbn [map]. f_equal; [now apply IH|now apply IHl].
  - f_equal. revert E. induction l as [|v l IHl]; intros E; [reflexivity|]. cbn in E. apply app_eq_nil in E. destruct E as [E1 E2]. cbn [map]. f_equal; [now apply IH|now apply IHl].
  - f_equal. revert E. induction l as [|v l IHl]; intros E; [reflexivity|]. cbn in E. apply app_eq_nil in E. destruct E as [E1 E2]. cbn [map]. f_equal; [now apply IH|now apply IHl].
  - f_equal. revert E. induction l as [|[k v] l IHl]; intros E; [reflexivity|]. cbn in E. apply app_eq_nil in E. destruct E as [E1 E2]. cbn [map]. f_equal; [f_equal; now apply IH|now apply IHl].
Qed.
Lemma refs_arrays_to_lists : forall v, refs_in (arrays_to_lists v) = refs_in v.
Proof.
  fix IH 1. intros [p|s|a|l|l|l|l]; cbn; try reflexivity.
  - induction l as [|v l IHl]; [reflexivity|]. cbn. now rewrite IH, IHl.
  - induction l as [|[k v] l IHl]; [reflexivity|]. cbn. now rewrite IH, IHl.
Qed.
Section Copy.
Variable ids : list (nat * string).
Variable made : list (string * nat).
Definition image (b : nat) : nat := match idget b ids with Some s => match dget s made with Some x => x | None => 0 end | None => 0 end.
Lemma ren1_image v : is_obj v -> mcovered ids made v -> ren1 ids made v = rename image v.
Proof. intros [a ->] C. destruct (C a) as (s & x & E & G); [cbn; auto|]. unfold ren1, rename, image. now rewrite E, G. Qed.
Lemma ren_image vec v : ref_value vec v -> mcovered ids made v -> ren ids made v = rename image v.
Proof.
  intros R C. destruct v as [p|s|a|l|l|l|l]; try (exfalso; exact R); try reflexivity.
  - apply ren1_image; auto. now exists a.
  - cbn. f_equal. apply map_ext_in. intros v I. apply ren1_image; [now apply R|]. intros c J. apply C. cbn. apply in_flat_map. eauto.
  - cbn. f_equal. apply map_ext_in. intros [k v] I. cbn. f_equal. apply ren1_image; [now apply (R k)|]. intros c J. apply C. cbn. apply in_flat_map. exists (k, v). auto.
Qed.
End Copy.

(* from_json(as_json(x)): both succeed, and the result is a copy of the graph of x, cycles and sharing included, in fresh memory; objects that were there before are not touched *)
Theorem C40_round_trip classes H option a base : heap_ok classes H -> a < List.length H ->
  exists t a' H' t', serialize classes H option a = Some t /\ load classes t base = Some (a', H', t') /\
  (exists f, is_copy (saved_of classes option a) H a H' a' f /\ forall b, reaches (saved_of classes option a) H a b -> List.length base <= f b) /\
  (forall x, x < List.length base -> nth_error H' x = nth_error base x).
Proof.
  intros HOK L. destruct (serialize_ok classes H HOK option a L) as (t & ids & ES & IOK & GA & EN & _).
  assert (CL : forall b s, idget b ids = Some s -> closed classes H (option && Nat.eqb b a) ids b) by (intros b s G; apply (EN b s G)).
  set (st0 := {| js := t; made := []; mem := base |}).
  assert (O : linv classes H option a ids st0).
  { constructor; cbn; [constructor|constructor|intros s x []|]. intros b s G _. apply (EN b s G). }
  assert (FU : List.length ids <= List.length t).
  { rewrite <- (map_length snd ids), <- (map_length fst t). apply NoDup_incl_length.
    - apply (proj2 (NoDup_nth_error (map snd ids))). intros i j Li E. rewrite map_length in Li. rewrite !nth_error_map in E. destruct (nth_error ids i) as [[x s]|] eqn:Ei; [|apply nth_error_None in Ei; lia].
      destruct (nth_error ids j) as [[y u]|] eqn:Ej; [|discriminate E]. cbn in E. injection E as ->. pose proof (ids_names _ _ IOK _ _ _ Ei) as Q1. pose proof (ids_names _ _ IOK _ _ _ Ej) as Q2. apply ref_name_inj. congruence.
    - intros s I. apply in_map_iff in I. destruct I as ([b u] & Q & I). cbn in Q. subst u. assert (G : idget b ids = Some s) by (apply in_idget; auto; apply IOK). destruct (EN b s G) as [D _]. apply dget_in in D. eapply in_keys; eauto. }
  destruct (from_json_ok classes H HOK option a ids IOK CL (S (List.length t)) a "pyid_0"%string st0 O GA eq_refl) as (st & EL & [X [IN IA IV IJ] QN QM QL] & GS); [cbn; lia|].
  exists t, (List.length base), (mem st), (js st). split; [auto|]. split; [unfold load; fold st0; rewrite EL, GS; reflexivity|]. split; [|exact QM].
  assert (RE : forall b, reaches (saved_of classes option a) H a b -> exists s x, idget b ids = Some s /\ dget s (made st) = Some x).
  { intros b Rb. induction Rb as [|b c o n v Rb (s & x & G & D) Eo I J]; [eauto|]. destruct (QN b s x G eq_refl D) as [_ C]. destruct (HOK o (nth_error_In _ _ Eo)) as [k [S1 S2 S3 SV S4 S5]]. rewrite to_save_kept in S5.
    unfold saved_of in I. rewrite S1, to_save_kept in I. exact (C o k n v Eo S1 I c J). }
  exists (image ids (made st)). split.
  - constructor.
    + unfold image. now rewrite GA, GS.
    + intros b c Rb Rc. destruct (RE b Rb) as (s & x & G & D). destruct (RE c Rc) as (s' & x' & G' & D'). unfold image. rewrite G, D, G', D'. intros ->. apply dget_in in D. apply dget_in in D'. pose proof (in_snd_inj _ _ _ _ IA D D'). subst s'. eapply names_inj; eauto.
    + intros b Rb. destruct (RE b Rb) as (s & x & G & D). destruct (QN b s x G eq_refl D) as [[_ C1] C2]. unfold copy in C1. assert (Vb : b < List.length H) by (apply (ids_valid _ _ IOK); change b with (fst (b, s)); apply in_map; now apply idget_in).
      destruct (nth_error H b) as [o|] eqn:Eo; [|apply nth_error_None in Eo; lia]. exists o. split; [auto|]. unfold image at 1. rewrite G, D. destruct (HOK o (nth_error_In _ _ Eo)) as [k [S1 S2 S3 SV S4 S5]]. rewrite to_save_kept in S5. rewrite S1 in C1.
      rewrite C1. do 2 f_equal. unfold saved_of, on_dict. rewrite S1, to_save_kept. apply map_ext_in. intros [n v] I. cbn [fst snd]. f_equal. destruct (S5 n v (kept_incl _ _ _ _ _ I)) as [A _]. pose proof (C2 o k n v Eo S1 I) as MC. destruct (listed k n).
      * eapply ren_image; eauto.
      * symmetry. apply rename_none, A.
  - intros b Rb. destruct (RE b Rb) as (s & x & G & D). destruct (QN b s x G eq_refl D) as [[C _] _]. unfold image. rewrite G, D. exact C.
Qed.

(* as_json gives plain data: no value in it is or contains an object of the library *)
Theorem C40_json_is_plain classes H option a t : heap_ok classes H -> a < List.length H -> serialize classes H option a = Some t ->
  forall s d n v, dget s t = Some d -> In (n, v) d -> refs_in v = [].
Proof.
  intros HOK L ES s d n v D I. destruct (serialize_ok classes H HOK option a L) as (t' & ids & ES' & IOK & GA & EN & KE). assert (t' = t) by congruence. subst t'.
  destruct (KE s) as [b G]; [apply dget_in in D; eapply in_keys; eauto|]. destruct (EN b s G) as [D' C]. assert (d = entry classes H ids (option && Nat.eqb b a) b) by congruence. subst d.
  unfold entry in I. destruct (nth_error H b) as [o|] eqn:Eo; [|destruct I]. destruct (HOK o (nth_error_In _ _ Eo)) as [k [S1 S2 S3 SV S4 S5]]. rewrite to_save_kept in S5. rewrite S1 in I. unfold finish in I.
  assert (DS : forall (m : string) (w : val) (e : dict), In (n, v) (dset m w e) -> v = w \/ In (n, v) e).
  { intros m w. induction e as [|[m' w'] e IHe]; cbn; [intros [Q|[]]; left; congruence|]. destruct (String.eqb m m'); cbn; intros [Q|Q]; [left; congruence|auto|auto|]. destruct (IHe Q); auto. }
  apply DS in I. destruct I as [->|I]; [exact SV|]. apply DS in I. destruct I as [->|I]; [reflexivity|].
  assert (EE : forall m w, In (m, w) (encd ids k (kept (option && Nat.eqb b a) k o)) -> refs_in w = []).
  { intros m w J. unfold encd in J. apply in_map_iff in J. destruct J as ([m' w'] & Q & J). cbn [fst snd] in Q. destruct (S5 m' w' (kept_incl _ _ _ _ _ J)) as [A _]. pose proof (C o k m' w' Eo S1 J) as CO. destruct (listed k m').
    - injection Q as <- <-. assert (E1 : forall u, is_obj u -> covered ids u -> refs_in (enc1 ids u) = []) by (intros u [x ->] Cu; cbn; destruct (idget x ids) eqn:Gx; [reflexivity|exfalso; apply (Cu x); cbn; auto]).
      destruct w' as [p|x|x|l|l|l|l]; try (exfalso; exact A); try reflexivity.
      + apply E1; [now exists x|auto].
      + destruct A as [_ A]. cbn. apply incl_l_nil. intros x J'. apply in_flat_map in J'. destruct J' as (u & J1 & J2). apply in_map_iff in J1. destruct J1 as (u' & <- & J1). rewrite E1 in J2; [exact J2|auto|eapply covered_list; eauto].
      + cbn. apply incl_l_nil. intros x J'. apply in_flat_map in J'. destruct J' as ([m u] & J1 & J2). apply in_map_iff in J1. destruct J1 as ([m2 u'] & Q & J1). cbn in Q. injection Q as <- <-. rewrite E1 in J2; [exact J2|eapply A; eauto|eapply covered_dict; eauto].
    - injection Q as <- <-. apply A. }
  destruct (is_vectorized (o_attrs o)); [|eauto]. unfold on_dict in I. apply in_map_iff in I. destruct I as ([m w] & Q & I). cbn in Q. injection Q as <- <-. rewrite refs_arrays_to_lists. eauto.
Qed.

(* deserialising changes its input: the same json cannot be loaded a second time *)
Lemma ddel_gone {A} ks k (d : list (string * A)) : In k ks -> dget k (ddel ks d) = None.
Proof. intros I. apply dget_none. intros J. apply keys_in in J. destruct J as [v J]. unfold ddel in J. apply filter_In in J. destruct J as [_ J]. cbn in J. rewrite (proj2 (existsb_in k ks) I) in J. discriminate J. Qed.
Section Consumed.
Variable classes : string -> option klass.
Definition spent (st : lstate) : Prop := forall s, dget s (made st) <> None -> forall d, dget s (js st) = Some d -> dget "py/object"%string d = None.
Definition grows (st st' : lstate) : Prop := spent st' /\ forall s, dget s (made st) <> None -> dget s (made st') <> None.
Lemma grows_refl st : spent st -> grows st st. Proof. split; auto. Qed.
Lemma grows_trans a b c : grows a b -> grows b c -> grows a c. Proof. intros [A B] [C D]. split; auto. Qed.
Section Step.
Variable n : nat.
Hypothesis IH : forall s st st', from_json classes n s st = Some st' -> dget s (made st) = None -> spent st -> grows st st'.
Lemma fetch_grows v st o st' : fetch (from_json classes n) v st = Some (o, st') -> spent st -> grows st st'.
Proof.
  intros E P. destruct v; try discriminate E. cbn in E. destruct (dget s (made st)) as [x|] eqn:G; [rewrite G in E; injection E as _ <-; now apply grows_refl|].
  destruct (from_json classes n s st) as [st1|] eqn:F; [|discriminate E]. destruct (dget s (made st1)); [|discriminate E]. injection E as _ <-. eapply IH; eauto.
Qed.
Lemma fetch_list_grows l : forall st o st', fetch_list (from_json classes n) l st = Some (o, st') -> spent st -> grows st st'.
Proof.
  induction l as [|v l IHl]; cbn; intros st o st' E P; [injection E as _ <-; now apply grows_refl|]. destruct (fetch (from_json classes n) v st) as [[o1 s1]|] eqn:F; [|discriminate E]. destruct (fetch_list (from_json classes n) l s1) as [[o2 s2]|] eqn:F2; [|discriminate E].
  injection E as _ <-. pose proof (fetch_grows _ _ _ _ F P) as G. eapply grows_trans; [exact G|]. eapply IHl; eauto. apply G.
Qed.
Lemma fetch_dict_grows l : forall st o st', fetch_dict (from_json classes n) l st = Some (o, st') -> spent st -> grows st st'.
Proof.
  induction l as [|[k v] l IHl]; cbn; intros st o st' E P; [injection E as _ <-; now apply grows_refl|]. destruct (fetch (from_json classes n) v st) as [[o1 s1]|] eqn:F; [|discriminate E]. destruct (fetch_dict (from_json classes n) l s1) as [[o2 s2]|] eqn:F2; [|discriminate E].
  injection E as _ <-. pose proof (fetch_grows _ _ _ _ F P) as G. eapply grows_trans; [exact G|]. eapply IHl; eauto. apply G.
Qed.
Lemma fetch_attr_grows v st o st' : fetch_attr (from_json classes n) v st = Some (o, st') -> spent st -> grows st st'.
Proof.
  intros E P. destruct v as [p|s|a|l|l|l|l]; cbn [fetch_attr] in E; try (injection E as _ <-; now apply grows_refl).
  - destruct (is_ref s); [eapply fetch_grows; eauto|injection E as _ <-; now apply grows_refl].
  - destruct l as [|[p|s|a|l1|l1|l1|l1] l]; try (injection E as _ <-; now apply grows_refl). destruct (is_ref s); [|injection E as _ <-; now apply grows_refl].
    destruct (fetch_list (from_json classes n) (VStr s :: l) st) as [[r s1]|] eqn:F; [|discriminate E]. injection E as _ <-. eapply fetch_list_grows; eauto.
  - destruct l as [|[k [p|s|a|l1|l1|l1|l1]] l]; try (injection E as _ <-; now apply grows_refl). destruct (is_ref s); [|injection E as _ <-; now apply grows_refl].
    destruct (fetch_dict (from_json classes n) ((k, VStr s) :: l) st) as [[r s1]|] eqn:F; [|discriminate E]. injection E as _ <-. eapply fetch_dict_grows; eauto.
Qed.
Lemma fetch_attrs_grows names : forall d st d' st', fetch_attrs (from_json classes n) names d st = Some (d', st') -> spent st -> grows st st' /\ (forall k, dget k d = None -> dget k d' = None).
Proof.
  induction names as [|m names IHn]; cbn; intros d st d' st' E P; [injection E as <- <-; split; [now apply grows_refl|auto]|]. destruct (dget m d) as [v|] eqn:G; [|eauto].
  destruct (fetch_attr (from_json classes n) v st) as [[v1 s1]|] eqn:F; [|discriminate E]. pose proof (fetch_attr_grows _ _ _ _ F P) as G1. destruct (IHn _ _ _ _ E (proj1 G1)) as [G2 K]. split; [eapply grows_trans; eauto|].
  intros k Q. apply K. rewrite dget_dset. destruct (String.eqb_spec k m) as [->|]; [congruence|auto].
Qed.
End Step.
Lemma from_json_grows n : forall s st st', from_json classes n s st = Some st' -> dget s (made st) = None -> spent st -> grows st st' /\ dget s (made st') <> None.
Proof.
  induction n as [|n IH]; intros s st st' E G P; [discriminate E|]. cbn [from_json] in E. destruct (dget s (js st)) as [d|] eqn:D; [|discriminate E].
  destruct (dget "py/object" d) as [[|cl| | | | |]|]; try discriminate E. destruct (dget "json_version" d); [|discriminate E]. destruct (classes cl) as [k|]; [|discriminate E].
  set (d1 := ddel ["py/object"%string; "json_version"%string] d) in E.
  set (st1 := {| js := dset s d1 (js st); made := made st ++ [(s, List.length (mem st))]; mem := mem st ++ [{| o_class := cl; o_attrs := [] |}] |}) in E.
  destruct (fetch_attrs (from_json classes n) _ _ st1) as [[d3 st2]|] eqn:F; [|discriminate E]. injection E as <-.
  assert (D1 : dget "py/object"%string d1 = None) by (apply ddel_gone; cbn; auto).
  assert (P1 : spent st1).
  { intros x M e. cbn [st1 made js] in *. rewrite dget_dset. destruct (String.eqb_spec x s) as [->|Ne]; [intros Q; injection Q as <-; exact D1|]. apply P. rewrite dget_app in M. destruct (dget x (made st)); [congruence|]. cbn in M. destruct (String.eqb_spec x s); [congruence|exact M]. }
  destruct (fetch_attrs_grows n (fun x a b E1 E2 E3 => proj1 (IH x a b E1 E2 E3)) _ _ _ _ _ F P1) as [[S2 M2] K2].
  assert (MS : dget s (made st2) <> None) by (apply M2; cbn [st1 made]; rewrite dget_app, G; cbn; rewrite eqb_refl; discriminate).
  split; [split|exact MS].
  - intros x M e. cbn [made js] in *. destruct (is_vectorized d1); [now apply S2|]. rewrite dget_dset. destruct (String.eqb_spec x s) as [->|Ne]; [intros Q; injection Q as <-; now apply K2|now apply S2].
  - intros x M. cbn [made]. apply M2. cbn [st1 made]. rewrite dget_app. destruct (dget x (made st)); [discriminate|congruence].
Qed.
Theorem C40_input_is_consumed t base a H' t' : load classes t base = Some (a, H', t') -> t' <> t /\ forall memory, load classes t' memory = None.
Proof.
  unfold load at 1. destruct (from_json classes (S (List.length t)) "pyid_0" {| js := t; made := []; mem := base |}) as [st|] eqn:F; [|discriminate]. destruct (dget "pyid_0" (made st)) as [x|] eqn:G; [|discriminate]. intros E. injection E as -> <- <-.
  destruct (from_json_grows _ _ _ _ F eq_refl) as [[S _] M]; [intros s N; destruct (N eq_refl)|]. assert (LN : forall memory, load classes (js st) memory = None).
  { intros memory. unfold load. cbn [from_json js]. destruct (dget "pyid_0"%string (js st)) as [d|] eqn:D; [|reflexivity]. now rewrite (S _ M d D). }
  split; [|auto]. intros Q. specialize (LN base). rewrite Q in LN. unfold load in LN. rewrite F, G in LN. discriminate LN.
Qed.
End Consumed.

(* A cyclic graph with sharing: a stream refers to its flash in a list and in a dict, the flash refers back *)
Definition ex_classes (s : string) : option klass :=
  if String.eqb s "Phase" then Some {| refs := Some ["result"; "parts"; "named"]%string; dropped := ["cache"%string]; recalculable := ["derived"%string]; version := VPrim (PInt 1) |}
  else if String.eqb s "Plain" then Some {| refs := None; dropped := []; recalculable := []; version := VPrim (PInt 1) |} else None.
Definition ex_heap : list obj := [
  {| o_class := "Phase"; o_attrs := [("T", VPrim (PInt 300)); ("result", VObj 1); ("parts", VList [VObj 1; VObj 0; VObj 1]); ("zs", VList [VPrim (PInt 1)]); ("cache", VObj 7); ("derived", VPrim (PInt 5))]%string |};
  {| o_class := "Phase"; o_attrs := [("vectorized", VPrim (PBool true)); ("result", VObj 0); ("named", VDict [("self", VObj 1)]); ("zs", VArr [VPrim (PInt 1); VPrim (PInt 2)]); ("kijs", VArr [VList [VPrim (PInt 0); VPrim (PInt 3)]; VList [VPrim (PInt 3); VPrim (PInt 0)]]); ("derived", VPrim (PInt 6))]%string |}].
Example C40_hypotheses_met : heap_ok ex_classes ex_heap.
Proof.
  intros o [<-|[<-|[]]]; eexists; (constructor; [reflexivity| | | | |]); cbn.
  - split; [repeat (constructor; [cbn; intuition discriminate|]); constructor|split; intuition discriminate].
  - repeat (constructor; [cbn; intuition discriminate|]); constructor.
  - reflexivity.
  - split; intuition discriminate.
  - intros n v [Q|[Q|[Q|[Q|[Q|[]]]]]]; injection Q as <- <-; cbn; (split; [|intuition lia]); try exact Logic.I. all: try (split; [reflexivity|intros [Q|[Q|[Q|[Q|[Q|[Q|[]]]]]]]; discriminate Q]). split; [intros [Q|[Q|[Q|[Q|[Q|[Q|[]]]]]]]; discriminate Q|]. intros v [<-|[<-|[<-|[]]]]; eexists; reflexivity.
  - split; [repeat (constructor; [cbn; intuition discriminate|]); constructor|split; intuition discriminate].
  - repeat (constructor; [cbn; intuition discriminate|]); constructor.
  - reflexivity.
  - split; intuition discriminate.
  - intros n v [Q|[Q|[Q|[Q|[Q|[Q|[]]]]]]]; injection Q as <- <-; cbn; (split; [|intuition lia]); try exact Logic.I; try (split; [reflexivity|intros _; exact Logic.I]). { intros k v [Q|[]]. injection Q as <- <-. eexists. reflexivity. }
    split; [reflexivity|]. intros _ y [<-|[]]. eexists. split; reflexivity.
Qed.
Example C40_example_loads : exists t H' t', serialize ex_classes ex_heap false 0 = Some t /\ load ex_classes t [] = Some (0, H', t') /\ List.length H' = 2 /\ keys t = ["pyid_0"; "pyid_1"]%string.
Proof. eexists _, _, _. split; [vm_compute; reflexivity|]. split; [vm_compute; reflexivity|]. split; reflexivity. Qed.

(* Text that looks like a reference, in an attribute that is searched, comes back as an object *)
Theorem C40_text_refuted : exists classes H t a' H' t', H = [{| o_class := "Plain"; o_attrs := [("name"%string, VStr "pyid_0")] |}] /\ serialize classes H false 0 = Some t /\ load classes t [] = Some (a', H', t') /\
  H' = [{| o_class := "Plain"; o_attrs := [("name"%string, VObj 0)] |}].
Proof. exists ex_classes. eexists _, _, _, _, _. split; [reflexivity|]. split; [vm_compute; reflexivity|]. split; [vm_compute; reflexivity|]. vm_compute. reflexivity. Qed.
(* A list of objects in a vectorized object is not restored: its references come back as an array of text *)
Theorem C40_vectorized_list_refuted : exists classes H t a' H' t' o, serialize classes H false 0 = Some t /\ load classes t [] = Some (a', H', t') /\
  nth_error H 0 = Some {| o_class := "Phase"; o_attrs := [("vectorized"%string, VPrim (PBool true)); ("parts"%string, VList [VObj 1])] |} /\
  nth_error H' a' = Some o /\ dget "parts"%string (o_attrs o) = Some (VArr [VStr "pyid_1"]).
Proof.
  exists ex_classes, [{| o_class := "Phase"; o_attrs := [("vectorized"%string, VPrim (PBool true)); ("parts"%string, VList [VObj 1])] |}; {| o_class := "Plain"; o_attrs := [] |}].
  eexists _, _, _, _, _. split; [vm_compute; reflexivity|]. split; [vm_compute; reflexivity|]. split; [reflexivity|]. split; [reflexivity|]. vm_compute. reflexivity.
Qed.
(* JSON_DROP_RECALCULABLE leaves the recalculable attributes of the objects referred to in the json *)
Theorem C40_recalculable_refuted : exists t d v, serialize ex_classes ex_heap true 0 = Some t /\ heap_ok ex_classes ex_heap /\ dget "pyid_1"%string t = Some d /\ dget "derived"%string d = Some v.
Proof. eexists _, _, _. split; [vm_compute; reflexivity|]. split; [apply C40_hypotheses_met|]. split; [vm_compute; reflexivity|]. vm_compute. reflexivity. Qed.
(* but not those of the object itself *)
Theorem C40_recalculable classes H a t : heap_ok classes H -> serialize classes H true a = Some t ->
  forall o k n d, nth_error H a = Some o -> classes (o_class o) = Some k -> In n (recalculable k) \/ In n (dropped k) -> n <> "py/object"%string -> n <> "json_version"%string -> dget "pyid_0"%string t = Some d -> dget n d = None.
Proof.
  intros HOK ES o k n d Eo K I N1 N2 D. assert (L : a < List.length H) by (apply nth_error_Some; congruence). destruct (serialize_ok classes H HOK true a L) as (t' & ids & ES' & IOK & GA & EN & KE). assert (t' = t) by congruence. subst t'.
  destruct (EN a _ GA) as [D' _]. rewrite Nat.eqb_refl in D'. unfold entry in D'. rewrite Eo, K in D'. cbn [andb] in D'. rewrite D in D'. injection D' as ->. unfold finish. rewrite !dget_dset. destruct (String.eqb_spec n "json_version"); [tauto|]. destruct (String.eqb_spec n "py/object"); [tauto|].
  assert (Z : dget n (encd ids k (kept true k o)) = None).
  { rewrite encd_gmap, dget_gmap. replace (dget n (kept true k o)) with (@None val); [reflexivity|]. unfold kept. symmetry. destruct I as [I|I]; [now apply ddel_gone|]. apply dget_none. intros J. apply ddel_keys in J. revert J. apply dget_none. now apply ddel_gone. }
  destruct (is_vectorized (o_attrs o)); [rewrite dget_on_dict|exact Z].
  change (dget n (encd ids k (ddel (recalculable k) (ddel (dropped k) (o_attrs o)))) = None) in Z. now rewrite Z.
Qed.
