(* C62: mixing one stream with another until a phase appears. *)
From Coq Require Import Reals List Bool Arith Lra Lia Sorted Permutation.
From Verif Require Import Base BaseFacts Model_incipient.
Import ListNotations.
Open Scope R_scope.

(* --- specification --- *)
Definition nonneg (l : list R) : Prop := forall x, In x l -> 0 <= x.
(* m and n are the same composition: proportional with a positive factor *)
Definition proportional (m n : list R) : Prop := exists c, 0 < c /\ m = map (fun x => c * x) n.
(* the amounts when t times `added` is mixed with zs *)
Definition amounts (zs added : list R) (t : R) : list R := map (fun p => fst p + t * snd p) (combine zs added).

(* --- sums --- *)
Lemma fold_plus l : forall a, fold_left Rplus l a = a + fold_left Rplus l 0.
Proof. induction l as [|x l IH]; intros a; cbn; [ring|]. rewrite IH, (IH (0 + x)). ring. Qed.
Lemma lsum_cons x l : lsum (x :: l) = x + lsum l.
Proof. unfold lsum. cbn. rewrite fold_plus. ring. Qed.
Lemma lsum_scal c l : lsum (map (fun x => c * x) l) = c * lsum l.
Proof. induction l as [|x l IH]; [cbn; unfold lsum; cbn; ring|]. cbn [map]. rewrite !lsum_cons, IH. ring. Qed.
Lemma lsum_nonneg l : nonneg l -> 0 <= lsum l.
Proof. induction l as [|x l IH]; intros H; [unfold lsum; cbn; lra|]. rewrite lsum_cons. specialize (H x (or_introl eq_refl)) as Hx. assert (nonneg l) by (intros y Hy; apply H; right; exact Hy). specialize (IH H0). lra. Qed.
Lemma lsum_zero l : nonneg l -> lsum l = 0 -> forall x, In x l -> x = 0.
Proof.
  induction l as [|y l IH]; intros H E x []; rewrite lsum_cons in E; pose proof (H y (or_introl eq_refl));
    assert (Hl : nonneg l) by (intros w Hw; apply H; right; exact Hw); pose proof (lsum_nonneg l Hl); [lra|apply IH; auto; lra].
Qed.
Lemma normalize_ret l m : normalize l = Ret m -> lsum l <> 0 /\ m = map (fun x => / lsum l * x) l.
Proof.
  unfold normalize. destruct (Reqb_spec (lsum l) 0); [discriminate|]. intros E. injection E. intros <-. split; [assumption|].
  apply map_ext. intros x. unfold Rdiv. ring.
Qed.

Lemma nth_amounts t zs : forall added i, length zs = length added -> (i < length zs)%nat -> nth i (amounts zs added t) 0 = nth i zs 0 + t * nth i added 0.
Proof. induction zs as [|z zs IH]; intros [|a added] [|i] Hl Hi; cbn in *; try lia; [reflexivity|]. apply IH; lia. Qed.

(* --- the factor --- *)
Definition feasible (l : list (R * R)) (t : R) : Prop := forall z a, In (z, a) l -> 0 <= z + t * a.
Lemma factor_loop_spec l : forall f, (forall z a, In (z, a) l -> 0 <= z /\ 0 <= a) ->
  match factor_loop l f with
  | None => f = None /\ forall z a, In (z, a) l -> a = 0
  | Some g => forall t, g <= t <-> (feasible l t /\ match f with None => True | Some f => f <= t end)
  end.
Proof.
  induction l as [|[z a] l IH]; intros f Hn; cbn.
  - destruct f; [|split; [reflexivity|intros ? ? []]]. intros t. split; [intros H; split; [intros ? ? []|exact H]|tauto].
  - assert (Hn' : forall z a, In (z, a) l -> 0 <= z /\ 0 <= a) by (intros ? ? H; apply Hn; right; exact H).
    destruct (Hn z a (or_introl eq_refl)) as [Hz Ha].
    assert (Hf : forall t, feasible ((z, a) :: l) t <-> (0 <= z + t * a) /\ feasible l t).
    { intros t. split.
      - intros H. split; [apply H; left; reflexivity|intros ? ? Hi; apply H; right; exact Hi].
      - intros [H1 H2] z' a' [E|Hi]; [injection E; intros <- <-; exact H1|apply H2, Hi]. }
    destruct (Rltb_spec 0 a) as [Hpos|Hle].
    + assert (Hq : forall t, - z / a <= t <-> 0 <= z + t * a).
      { intros t. split; intros H.
        - assert (- z / a * a <= t * a) by (apply Rmult_le_compat_r; lra). replace (- z / a * a) with (- z) in H0 by (field; lra). lra.
        - apply (Rmult_le_reg_r a); [exact Hpos|]. replace (- z / a * a) with (- z) by (field; lra). lra. }
      specialize (IH (match f with None => Some (- z / a) | Some f0 => if Rltb f0 (- z / a) then Some (- z / a) else f end) Hn').
      assert (Hc : forall t, (match (match f with None => Some (- z / a) | Some f0 => if Rltb f0 (- z / a) then Some (- z / a) else f end) with None => True | Some g => g <= t end)
               <-> (0 <= z + t * a) /\ match f with None => True | Some f => f <= t end).
      { intros t. destruct f as [f0|].
        - destruct (Rltb_spec f0 (- z / a)); rewrite <- Hq; split; intros H; repeat split; try tauto; lra.
        - rewrite <- Hq. tauto. }
      destruct (factor_loop l _) as [g|].
      * intros t. rewrite IH, Hc, Hf. tauto.
      * destruct IH as [IH _]. destruct f as [f0|]; [destruct (Rltb f0 (- z / a))|]; discriminate.
    + assert (a = 0) by lra. subst a. specialize (IH f Hn'). destruct (factor_loop l f) as [g|].
      * intros t. rewrite IH, Hf. assert (0 <= z + t * 0) by lra. tauto.
      * destruct IH as [-> IH]. split; [reflexivity|]. intros z' a' [E|Hi]; [injection E; auto|apply (IH z' a' Hi)].
Qed.

(* C62: the factor is the least multiple of the added stream whose addition leaves no negative amount *)
Theorem C62_factor zs added : nonneg zs -> nonneg added ->
  (exists z a, In (z, a) (combine zs added) /\ 0 < a) ->
  forall t, (forall z a, In (z, a) (combine zs added) -> 0 <= z + t * a) <-> minimum_factor zs added <= t.
Proof.
  intros Hz Ha [z0 [a0 [Hin Hpos]]] t.
  assert (Hn : forall z a, In (z, a) (combine zs added) -> 0 <= z /\ 0 <= a).
  { intros z a H. split; [apply Hz, (in_combine_l _ _ _ _ H)|apply Ha, (in_combine_r _ _ _ _ H)]. }
  pose proof (factor_loop_spec (combine zs added) None Hn) as S. unfold minimum_factor.
  destruct (existsb _ _) eqn:Ex.
  - apply existsb_exists in Ex as [[z a] [Hi E]]. cbn in E. apply andb_true_iff in E as [E1 E2].
    destruct (Rltb_spec 0 a); [|discriminate]. destruct (Reqb_spec z 0); [|discriminate]. subst z. split.
    + intros H. specialize (H 0 a Hi). assert (0 <= t * a) by lra. destruct (Rle_or_lt 0 t); [assumption|]. assert (t * a < 0) by nra. lra.
    + intros H z a' Hi'. destruct (Hn z a' Hi'). nra.
  - destruct (factor_loop (combine zs added) None) as [g|].
    + rewrite (S t). unfold feasible. tauto.
    + destruct S as [_ S]. rewrite (S z0 a0 Hin) in Hpos. lra.
Qed.
Theorem C62_factor_range zs added : nonneg zs -> nonneg added -> minimum_factor zs added <= 0.
Proof.
  intros Hz Ha.
  assert (Hn : forall z a, In (z, a) (combine zs added) -> 0 <= z /\ 0 <= a).
  { intros z a H. split; [apply Hz, (in_combine_l _ _ _ _ H)|apply Ha, (in_combine_r _ _ _ _ H)]. }
  pose proof (factor_loop_spec (combine zs added) None Hn) as S. unfold minimum_factor. destruct (existsb _ _); [lra|].
  destruct (factor_loop (combine zs added) None) as [g|]; [|lra]. apply S. split; [|exact I]. intros z a H. destruct (Hn z a H). lra.
Qed.

(* what is returned: amounts that are not negative, add to 1, and in which a component of the added stream is missing *)
Theorem C62_removed zs added new : nonneg zs -> nonneg added -> length zs = length added ->
  (exists a, In a added /\ 0 < a) -> remove_overlap zs added = Ret new ->
  nonneg new /\ lsum new = 1 /\ length new = length zs /\ exists i, (i < length zs)%nat /\ 0 < nth i added 0 /\ nth i new 0 = 0.
Proof.
  intros Hz Ha Hl [a0 [Hin0 Hpos0]] H. unfold remove_overlap in H. fold (amounts zs added (minimum_factor zs added)) in H.
  destruct (normalize_ret _ _ H) as [Hn ->]. set (f := minimum_factor zs added) in *.
  assert (Hex : exists z a, In (z, a) (combine zs added) /\ 0 < a).
  { apply (In_nth _ _ 0) in Hin0 as [i [Hi E]]. exists (nth i zs 0), a0. split; [|exact Hpos0]. rewrite <- E, <- combine_nth by exact Hl.
    apply nth_In. rewrite combine_length. lia. }
  pose proof (C62_factor zs added Hz Ha Hex) as F.
  assert (Hnn : nonneg (amounts zs added f)).
  { intros x Hx. unfold amounts in Hx. apply in_map_iff in Hx as [[z a] [<- Hi]]. cbn. apply (proj2 (F f) (Rle_refl f) z a Hi). }
  assert (Hs : 0 < lsum (amounts zs added f)) by (pose proof (lsum_nonneg _ Hnn) as Hge; destruct (Rle_lt_or_eq_dec _ _ Hge); [assumption|congruence]).
  assert (Hlen : length (amounts zs added f) = length zs) by (unfold amounts; rewrite map_length, combine_length; lia).
  splits.
  - intros x Hx. apply in_map_iff in Hx as [y [<- Hy]]. apply Rmult_le_pos; [left; apply Rinv_0_lt_compat, Hs|apply Hnn, Hy].
  - rewrite lsum_scal. field. lra.
  - rewrite map_length. exact Hlen.
  - (* otherwise a smaller factor would do *)
    destruct (existsb (fun i => Rltb 0 (nth i added 0) && Reqb (nth i (amounts zs added f) 0) 0) (seq 0 (length zs))) eqn:Ex.
    + apply existsb_exists in Ex as [i [Hi E]]. apply in_seq in Hi. apply andb_true_iff in E as [E1 E2].
      destruct (Rltb_spec 0 (nth i added 0)); [|discriminate]. destruct (Reqb_spec (nth i (amounts zs added f) 0) 0) as [E0|]; [|discriminate].
      exists i. splits; auto; [lia|]. rewrite (nth_indep _ 0 (/ lsum (amounts zs added f) * 0)) by (rewrite map_length, Hlen; lia).
      rewrite (map_nth (fun x => / lsum (amounts zs added f) * x)), E0. ring.
    + exfalso.
      assert (Hpos : forall z a, In (z, a) (combine zs added) -> 0 < a -> 0 < z + f * a).
      { intros z a Hi Hp. apply (In_nth _ _ (0, 0)) in Hi as [i [Hi E]]. rewrite combine_length in Hi. rewrite combine_nth in E by exact Hl. injection E. intros E2 E1.
        assert (Hge : 0 <= z + f * a).
        { apply (proj2 (F f) (Rle_refl f) z a). rewrite <- E1, <- E2, <- combine_nth by exact Hl. apply nth_In. rewrite combine_length. lia. }
        destruct (Req_dec (z + f * a) 0) as [E0|]; [|lra]. exfalso.
        apply Bool.not_true_iff_false in Ex. apply Ex. apply existsb_exists. exists i. split; [apply in_seq; lia|]. apply andb_true_iff. split.
        - rewrite E2. destruct (Rltb_spec 0 a); [reflexivity|lra].
        - rewrite nth_amounts by (auto; lia). rewrite E1, E2, E0. destruct (Reqb_spec 0 0); [reflexivity|lra]. }
      (* the margin *)
      assert (Hm : exists e, 0 < e /\ forall z a, In (z, a) (combine zs added) -> 0 <= z + (f - e) * a).
      { clear F Hn H Hlen Hs Hnn Ex. revert Hpos. assert (Hnn : forall z a, In (z, a) (combine zs added) -> 0 <= z /\ 0 <= a).
        { intros z a Hi. split; [apply Hz, (in_combine_l _ _ _ _ Hi)|apply Ha, (in_combine_r _ _ _ _ Hi)]. }
        revert Hnn. generalize f. clear. intros f. induction (combine zs added) as [|[z a] l IH]; intros Hnn Hpos.
        - exists 1. split; [lra|intros ? ? []].
        - destruct IH as [e [He H]]; [intros ? ? Hi; apply Hnn; right; exact Hi|intros ? ? Hi; apply Hpos; right; exact Hi|].
          destruct (Hnn z a (or_introl eq_refl)) as [Hz Ha]. destruct (Rle_lt_or_eq_dec 0 a Ha) as [Hap|Hap].
          + specialize (Hpos z a (or_introl eq_refl) Hap). exists (Rmin e ((z + f * a) / a)). split; [apply Rmin_glb_lt; [exact He|apply Rdiv_lt_0_compat; assumption]|].
            intros z' a' [E|Hi].
            * injection E. intros <- <-. pose proof (Rmin_r e ((z + f * a) / a)) as Hr. set (m := Rmin e ((z + f * a) / a)) in *.
              assert (m * a <= (z + f * a) / a * a) by (apply Rmult_le_compat_r; lra). replace ((z + f * a) / a * a) with (z + f * a) in H0 by (field; lra). lra.
            * pose proof (Rmin_l e ((z + f * a) / a)) as Hr. set (m := Rmin e ((z + f * a) / a)) in *. specialize (H z' a' Hi).
              destruct (Hnn z' a' (or_intror Hi)) as [_ Ha']. nra.
          + exists e. split; [exact He|]. intros z' a' [E|Hi]; [injection E; intros <- <-; subst a; lra|apply H, Hi]. }
      destruct Hm as [e [He Hm]]. apply (F (f - e)) in Hm. fold f in Hm. lra.
Qed.

(* no mixture is lost: what mixing zs with any amount of the added stream gives is also given by the new composition *)
Theorem C62_same_mixtures zs added new t m : nonneg zs -> nonneg added -> length zs = length added -> (exists a, In a added /\ 0 < a) ->
  remove_overlap zs added = Ret new -> 0 <= t -> mixture zs added t = Ret m -> exists s, 0 <= s /\ mixture new added s = Ret m.
Proof.
  intros Hz Ha Hl Hex H Ht Hm. unfold remove_overlap in H. fold (amounts zs added (minimum_factor zs added)) in H.
  pose proof (C62_factor_range zs added Hz Ha) as Hf.
  destruct (normalize_ret _ _ H) as [Hn Enew]. set (f := minimum_factor zs added) in *. set (S := lsum (amounts zs added f)) in *.
  assert (HS : 0 < S).
  { assert (Hnn : nonneg (amounts zs added f)).
    { destruct Hex as [a0 [Hin0 Hpos0]]. assert (Hex : exists z a, In (z, a) (combine zs added) /\ 0 < a).
      { apply (In_nth _ _ 0) in Hin0 as [i [Hi E]]. exists (nth i zs 0), a0. split; [|exact Hpos0]. rewrite <- E, <- combine_nth by exact Hl.
        apply nth_In. rewrite combine_length. lia. }
      intros x Hx. unfold amounts in Hx. apply in_map_iff in Hx as [[z a] [<- Hi]]. cbn. apply (proj2 (C62_factor zs added Hz Ha Hex f) (Rle_refl f) z a Hi). }
    pose proof (lsum_nonneg _ Hnn) as Hge. fold S in Hge. destruct (Rle_lt_or_eq_dec _ _ Hge); [assumption|congruence]. }
  exists ((t - f) / S). split; [apply Rmult_le_pos; [lra|left; apply Rinv_0_lt_compat, HS]|].
  assert (E : amounts new added ((t - f) / S) = map (fun x => / S * x) (amounts zs added t)).
  { rewrite Enew. unfold amounts. rewrite map_map. clearbody S f. clear - HS Hl. fold (amounts zs added f). unfold amounts. revert added Hl. induction zs as [|z zs IH]; intros [|a added] Hl; cbn in *; try reflexivity; try discriminate.
    f_equal; [field; lra|]. apply IH. lia. }
  unfold mixture in *. fold (amounts zs added t) in Hm. fold (amounts new added ((t - f) / S)). rewrite E.
  destruct (normalize_ret _ _ Hm) as [Hn2 ->]. unfold normalize. rewrite lsum_scal.
  assert (HSi : / S <> 0) by (apply Rinv_neq_0_compat; lra).
  destruct (Reqb_spec (/ S * lsum (amounts zs added t)) 0) as [E0|_]; [exfalso; apply Rmult_integral in E0; tauto|].
  f_equal. rewrite map_map. apply map_ext. intros x. field. split; [exact Hn2|lra].
Qed.

(* Claimed: a composition is returned. Refuted: when the two streams have the same composition everything is removed. *)
Theorem C62_same_composition_refuted zs : nonneg zs -> lsum zs = 1 -> remove_overlap zs zs = Exn ZeroDivision.
Proof.
  intros Hz Hs. unfold remove_overlap.
  assert (Hc : forall z a, In (z, a) (combine zs zs) -> z = a).
  { clear. induction zs as [|x l IH]; cbn; [intros ? ? []|]. intros z a [E|H]; [injection E; intros <- <-; reflexivity|apply IH, H]. }
  assert (Hex : exists z a, In (z, a) (combine zs zs) /\ 0 < a).
  { destruct (existsb (fun z => Rltb 0 z) zs) eqn:E.
    - apply existsb_exists in E as [z [Hi E]]. destruct (Rltb_spec 0 z); [|discriminate]. exists z, z. split; [|assumption].
      apply (In_nth _ _ 0) in Hi as [i [Hi Ei]]. rewrite <- Ei, <- combine_nth by reflexivity. apply nth_In. rewrite combine_length. lia.
    - exfalso. assert (E0 : lsum zs = 0); [|lra]. assert (Hall : forall z, In z zs -> z = 0).
      { intros z Hi. destruct (Rltb_spec 0 z) as [Hp|Hp]; [|specialize (Hz z Hi); lra]. exfalso. apply Bool.not_true_iff_false in E. apply E.
        apply existsb_exists. exists z. split; [exact Hi|]. destruct (Rltb_spec 0 z); [reflexivity|lra]. }
      clear - Hall. induction zs as [|x l IH]; [reflexivity|]. rewrite lsum_cons, (Hall x (or_introl eq_refl)), IH by (intros z Hi; apply Hall; right; exact Hi). ring. }
  pose proof (C62_factor zs zs Hz Hz Hex) as F. destruct Hex as [z0 [a0 [Hi0 Hp0]]].
  assert (Ef : minimum_factor zs zs = -1).
  { apply Rle_antisym.
    - apply F. intros z a Hi. rewrite (Hc z a Hi). lra.
    - assert (Hi := proj2 (F (minimum_factor zs zs)) (Rle_refl _) z0 a0 Hi0). rewrite (Hc z0 a0 Hi0) in Hi. nra. }
  rewrite Ef. unfold normalize.
  assert (E : map (fun p => fst p + -1 * snd p) (combine zs zs) = map (fun _ => 0) zs).
  { clear. induction zs as [|x l IH]; [reflexivity|]. cbn. rewrite IH. f_equal. ring. }
  rewrite E. assert (E0 : lsum (map (fun _ : R => 0) zs) = 0).
  { clear. induction zs as [|x l IH]; [reflexivity|]. cbn [map]. rewrite lsum_cons, IH. ring. }
  rewrite E0. destruct (Reqb_spec 0 0); [reflexivity|lra].
Qed.
Example C62_removed_hypotheses_met : exists new, remove_overlap [1/2; 1/2] [1/4; 3/4] = Ret new /\ new = [1; 0].
Proof.
  unfold remove_overlap, minimum_factor. cbn [combine existsb fst snd].
  destruct (Reqb_spec (1/2) 0); [lra|]. rewrite !andb_false_r. cbn [orb]. cbn [factor_loop].
  destruct (Rltb_spec 0 (1/4)); [|lra]. destruct (Rltb_spec 0 (3/4)); [|lra]. destruct (Rltb_spec (- (1/2) / (1/4)) (- (1/2) / (3/4))); [|lra].
  cbn [map fst snd]. unfold normalize. rewrite !lsum_cons. unfold lsum. cbn [fold_left].
  destruct (Reqb_spec (1/2 + - (1/2) / (3/4) * (1/4) + (1/2 + - (1/2) / (3/4) * (3/4) + 0)) 0); [lra|].
  eexists. split; [reflexivity|]. cbn. f_equal; [field|f_equal; field].
Qed.

(* --- results of the stability test without repetitions --- *)
Definition near (tol : R) (N : nat) (a b : stab) : Prop :=
  mean_difference (s_xs a) (s_xs b) N <= tol /\ mean_difference (s_ys a) (s_ys b) N <= tol.
Definition key_lt (a b : stab) : Prop := hd 0 (s_xs a) < hd 0 (s_xs b) \/ (hd 0 (s_xs a) = hd 0 (s_xs b) /\ snd a <= snd b).
Lemma key_le_spec a b : key_le a b = true <-> key_lt a b.
Proof.
  unfold key_le, key_lt. destruct (Rltb_spec (hd 0 (s_xs a)) (hd 0 (s_xs b))); cbn; [tauto|].
  destruct (Reqb_spec (hd 0 (s_xs a)) (hd 0 (s_xs b))); cbn; [|split; [discriminate|intros [?|[? ?]]; tauto]].
  destruct (Rleb_spec (snd a) (snd b)); split; auto; [discriminate|intros [?|[? ?]]; tauto].
Qed.
Lemma key_le_false a b : key_le a b = false -> key_lt b a.
Proof.
  intros H. assert (~ key_lt a b) by (intros K; apply key_le_spec in K; congruence). unfold key_lt in *.
  destruct (Rtotal_order (hd 0 (s_xs b)) (hd 0 (s_xs a))) as [?|[?|?]]; [left; assumption| |exfalso; apply H0; left; assumption].
  right. split; [assumption|]. destruct (Rle_or_lt (snd b) (snd a)); [assumption|]. exfalso. apply H0. right. split; [auto|lra].
Qed.
Lemma key_trans a b c : key_lt a b -> key_lt b c -> key_lt a c.
Proof. unfold key_lt. intros [?|[? ?]] [?|[? ?]]; [left; lra|left; lra|left; lra|right; lra]. Qed.
Lemma insert_perm x l : Permutation (x :: l) (insert x l).
Proof. induction l as [|y l IH]; cbn; [apply Permutation_refl|]. destruct (key_le x y); [apply Permutation_refl|]. etransitivity; [apply perm_swap|]. apply perm_skip, IH. Qed.
Lemma sort_perm l : Permutation l (sort l).
Proof. induction l as [|x l IH]; cbn; [apply perm_nil|]. etransitivity; [apply perm_skip, IH|apply insert_perm]. Qed.
Lemma insert_sorted x l : StronglySorted key_lt l -> StronglySorted key_lt (insert x l).
Proof.
  induction l as [|y l IH]; intros H; cbn; [constructor; [constructor|constructor]|].
  apply StronglySorted_inv in H as [Hs Hf]. destruct (key_le x y) eqn:E.
  - apply key_le_spec in E. constructor; [constructor; assumption|]. constructor; [exact E|]. eapply Forall_impl; [|exact Hf]. intros z. apply key_trans, E.
  - apply key_le_false in E. constructor; [apply IH, Hs|]. rewrite Forall_forall in *. intros z Hz. apply (Permutation_in _ (Permutation_sym (insert_perm x l))) in Hz as [<-|Hz]; [exact E|apply Hf, Hz].
Qed.
Lemma sort_sorted l : StronglySorted key_lt (sort l).
Proof. induction l as [|x l IH]; cbn; [constructor|apply insert_sorted, IH]. Qed.
Inductive sublist {A} : list A -> list A -> Prop :=
| sub_nil l : sublist [] l
| sub_keep x l m : sublist l m -> sublist (x :: l) (x :: m)
| sub_drop x l m : sublist l m -> sublist l (x :: m).
Lemma dedup_loop_sub tol N l : forall last, sublist (dedup_loop tol N l last) l.
Proof. induction l as [|t l IH]; intros last; cbn; [constructor|]. destruct (differs tol N t last); constructor; apply IH. Qed.
Lemma differs_false tol N t last : differs tol N t last = false -> near tol N t last.
Proof.
  unfold differs, near. intros H. apply orb_false_iff in H as [H1 H2].
  destruct (Rltb_spec tol (mean_difference (s_xs t) (s_xs last) N)); [discriminate|]. destruct (Rltb_spec tol (mean_difference (s_ys t) (s_ys last) N)); [discriminate|]. lra.
Qed.
Lemma dedup_loop_cover tol N l : forall last t, In t l -> In t (dedup_loop tol N l last) \/ exists k, In k (last :: dedup_loop tol N l last) /\ near tol N t k.
Proof.
  induction l as [|x l IH]; intros last t []; cbn.
  - subst x. destruct (differs tol N t last) eqn:E; [left; left; reflexivity|right]. exists last. split; [left; reflexivity|apply differs_false, E].
  - destruct (differs tol N x last).
    + destruct (IH x t H) as [H1|[k [H1 H2]]]; [left; right; exact H1|right]. exists k. split; [right; exact H1|exact H2].
    + apply IH, H.
Qed.
Fixpoint adjacent_differ (tol : R) (N : nat) (last : stab) (l : list stab) : Prop :=
  match l with [] => True | t :: l => ~ near tol N t last /\ adjacent_differ tol N t l end.
Lemma differs_true tol N t last : differs tol N t last = true -> ~ near tol N t last.
Proof.
  unfold differs, near. intros H [H1 H2]. apply orb_true_iff in H as [H|H];
  [destruct (Rltb_spec tol (mean_difference (s_xs t) (s_xs last) N))|destruct (Rltb_spec tol (mean_difference (s_ys t) (s_ys last) N))]; try discriminate; lra.
Qed.
Lemma dedup_loop_adjacent tol N l : forall last, adjacent_differ tol N last (dedup_loop tol N l last).
Proof. induction l as [|t l IH]; intros last; cbn; [exact I|]. destruct (differs tol N t last) eqn:E; [|apply IH]. cbn. split; [apply differs_true, E|apply IH]. Qed.

(* the results kept are results, in order of the first mole fraction and the phase fraction; neighbours differ; every result is kept or near
   one that is *)
Theorem C62_deduplicated tol r0 results : let N := length (s_xs r0) in let kept := deduplicate tol (r0 :: results) in
  (exists sorted, Permutation (r0 :: results) sorted /\ StronglySorted key_lt sorted /\ sublist kept sorted) /\
  (forall t, In t (r0 :: results) -> In t kept \/ exists k, In k kept /\ near tol N t k) /\
  match kept with [] => False | k :: l => adjacent_differ tol N k l end.
Proof.
  cbv zeta. unfold deduplicate. pose proof (sort_perm (r0 :: results)) as P. pose proof (sort_sorted (r0 :: results)) as S.
  destruct (sort (r0 :: results)) as [|r l]; [apply Permutation_sym, Permutation_nil in P; discriminate|].
  splits.
  - exists (r :: l). splits; auto. constructor. apply dedup_loop_sub.
  - intros t Ht. apply (Permutation_in _ P) in Ht as [<-|Ht]; [left; left; reflexivity|].
    destruct (dedup_loop_cover tol (length (s_xs r0)) l r t Ht) as [H|H]; [left; right; exact H|right; exact H].
  - apply dedup_loop_adjacent.
Qed.
(* Claimed: no two results kept are (nearly) the same. Refuted: only neighbours in the order are compared. *)
Definition ex_a : stab := ([1/10; 9/10], [9/10; 1/10], 0).
Definition ex_b : stab := ([1/10; 9/10], [8/10; 2/10], 1/10).
Definition ex_c : stab := ([1/10; 9/10], [9/10; 1/10], 2/10).
Theorem C62_duplicates_refuted : deduplicate (5 / 1000) [ex_a; ex_b; ex_c] = [ex_a; ex_b; ex_c] /\ s_xs ex_a = s_xs ex_c /\ s_ys ex_a = s_ys ex_c.
Proof.
  splits; try reflexivity.
  assert (K1 : key_le ex_b ex_c = true) by (apply key_le_spec; right; cbn; lra).
  assert (K2 : key_le ex_a ex_b = true) by (apply key_le_spec; right; cbn; lra).
  assert (D1 : differs (5 / 1000) 2 ex_b ex_a = true /\ differs (5 / 1000) 2 ex_c ex_b = true).
  2:{ destruct D1 as [D1 D2]. unfold deduplicate. change (length (s_xs ex_a)) with 2%nat. cbn [sort insert]. rewrite K1. cbn [insert]. rewrite K2. cbn [dedup_loop]. rewrite D1, D2. reflexivity. }
  unfold differs, mean_difference, s_xs, s_ys, ex_a, ex_b, ex_c. cbn [fst snd combine map length]. rewrite !lsum_cons. unfold lsum. cbn [fold_left INR].
  destruct (Rltb_spec (5/1000) ((Rabs (8/10 - 9/10) + (Rabs (2/10 - 1/10) + 0)) / (1 + 1))) as [_|H].
  2:{ exfalso. apply H. rewrite (Rabs_left (8/10 - 9/10)), (Rabs_pos_eq (2/10 - 1/10)) by lra. lra. }
  rewrite orb_true_r.
  destruct (Rltb_spec (5/1000) ((Rabs (9/10 - 8/10) + (Rabs (1/10 - 2/10) + 0)) / (1 + 1))) as [_|H].
  2:{ exfalso. apply H. rewrite (Rabs_left (1/10 - 2/10)), (Rabs_pos_eq (9/10 - 8/10)) by lra. lra. }
  rewrite orb_true_r. split; reflexivity.
Qed.

(* --- the checks of a result --- *)
Ltac checks s := destruct s as [g l n b v f]; destruct g; cbn [e_gas e_liquids e_solids andb];
  repeat match goal with
  | |- context [(?a =? ?b)%nat] => destruct (Nat.eqb_spec a b)
  | |- context [(?a <=? ?b)%nat] => destruct (Nat.leb_spec a b)
  | |- context [(?a <? ?b)%nat] => destruct (Nat.ltb_spec a b)
  end; cbn [andb]; split; intros Hyp; repeat match goal with H : _ /\ _ |- _ => destruct H end; try (exfalso; lra); try discriminate; try (exfalso; lia);
  repeat split; try reflexivity; try lia.
Theorem C62_check_VL s : VL_check s = 1 <-> e_gas s = true /\ e_liquids s = 1%nat /\ e_solids s = 0%nat.
Proof. unfold VL_check, phase_count. checks s. Qed.
Theorem C62_check_LL s : LL_check s = 1 <-> e_gas s = false /\ e_liquids s = 2%nat /\ e_solids s = 0%nat.
Proof. unfold LL_check, phase_count. checks s. Qed.
Theorem C62_check_VLL s : VLL_check s = 1 <-> e_gas s = true /\ e_liquids s = 2%nat /\ e_solids s = 0%nat.
Proof. unfold VLL_check, phase_count. checks s. Qed.
Theorem C62_check_VLN_or_LN s : VLN_or_LN_check s = 1 <-> e_solids s = 0%nat /\ (2 <= (if e_gas s then 1 else 0) + e_liquids s)%nat.
Proof. unfold VLN_or_LN_check, phase_count. checks s. Qed.
(* Claimed (documentation): 1 if at least two liquids and no solid are present. Refuted: exactly two are asked for. *)
Theorem C62_check_VLL_or_LL_refuted s : VLL_or_LL_check s = 1 <-> e_liquids s = 2%nat /\ e_solids s = 0%nat.
Proof. unfold VLL_or_LL_check, phase_count. checks s. Qed.
(* every check is 1 or -1 *)
Theorem C62_check_values s : forall c, In c [VL_check s; LL_check s; VLL_check s; VLN_or_LN_check s; VLL_or_LL_check s] -> c = 1 \/ c = -1.
Proof.
  intros c H. unfold VL_check, LL_check, VLL_check, VLN_or_LN_check, VLL_or_LL_check in H.
  repeat (destruct H as [<-|H]; [match goal with |- context [if ?b then _ else _] => destruct b end; auto|]). destruct H.
Qed.
(* the one sided errors: the amount of the phase when gas and liquid are present, -1 otherwise *)
Theorem C62_one_sided s : (e_gas s = true /\ (1 <= e_liquids s)%nat -> dew_err s = e_LF s /\ bubble_err s = e_VF s) /\
  (e_gas s = false \/ e_liquids s = 0%nat -> dew_err s = -1 /\ bubble_err s = -1 /\ sat_err s = -1).
Proof.
  unfold dew_err, bubble_err, sat_err, has_liquid. split.
  - intros [-> H]. destruct (Nat.eqb_spec (e_liquids s) 0); [lia|]. cbn. auto.
  - intros [-> | ->]; [auto|]. destruct (e_gas s); cbn; auto.
Qed.
Lemma fold_Rmin_le l : forall a, fold_left Rmin l a <= a /\ forall b, In b l -> fold_left Rmin l a <= b.
Proof.
  induction l as [|x l IH]; intros a; cbn; [split; [lra|intros ? []]|]. destruct (IH (Rmin a x)) as [H1 H2]. pose proof (Rmin_l a x). pose proof (Rmin_r a x).
  split; [lra|]. intros b [<-|Hb]; [lra|apply H2, Hb].
Qed.
Lemma fold_Rmin_in l : forall a, In (fold_left Rmin l a) (a :: l).
Proof.
  induction l as [|x l IH]; intros a; cbn; [auto|]. destruct (IH (Rmin a x)) as [E|H]; [|auto].
  rewrite <- E. unfold Rmin. destruct (Rle_dec a x); auto.
Qed.
Theorem C62_saturation_error s : e_gas s = true -> (1 <= e_liquids s)%nat -> e_betas s <> [] ->
  In (sat_err s) (e_betas s) /\ forall b, In b (e_betas s) -> sat_err s <= b.
Proof.
  intros Hg Hl Hb. unfold sat_err, has_liquid. rewrite Hg. destruct (Nat.eqb_spec (e_liquids s) 0); [lia|]. cbn.
  destruct (e_betas s) as [|x l]; [destruct (Hb eq_refl)|]. cbn. destruct (fold_Rmin_le l x) as [H1 H2]. split; [exact (fold_Rmin_in l x)|].
  intros b [<-|H]; [exact H1|apply H2, H].
Qed.
(* the bubble and dew checks: the smaller of the two fractions in the two phase region, -1 in the one phase region next to it *)
Theorem C62_bubble_check s : (e_gas s = true /\ (1 <= e_liquids s)%nat /\ e_solids s = 0%nat -> VLN_bubble_check s = Rmin (e_LF s) (e_VF s)) /\
  (e_gas s = false /\ e_liquids s = 1%nat /\ e_solids s = 0%nat -> VLN_bubble_check s = -1).
Proof.
  unfold VLN_bubble_check, phase_count. split; intros [-> [H1 H2]]; rewrite H2; cbn [andb Nat.eqb].
  - destruct (Nat.leb_spec 2 (1 + e_liquids s + 0)); [reflexivity|lia].
  - rewrite H1. reflexivity.
Qed.
Theorem C62_dew_check s : (e_gas s = true /\ e_liquids s = 1%nat /\ e_solids s = 0%nat -> VL_dew_check s = Rmin (e_LF s) (e_VF s)) /\
  (e_gas s = true /\ e_liquids s = 0%nat /\ e_solids s = 0%nat -> VL_dew_check s = -1) /\
  (e_gas s = false -> VL_dew_check s = -10000).
Proof. unfold VL_dew_check, phase_count. splits; [intros [-> [-> ->]]|intros [-> [-> ->]]|intros ->]; reflexivity. Qed.

(* --- the bounds --- *)
Section Bounds.
  Variable Res : Type.
  Variables (status : R -> option Res) (check : Res -> R).
  Definition tried_ok (tried : list R) (s : option (R * Res) * option (R * Res)) : Prop :=
    (match fst s with None => forall f r, In f tried -> status f = Some r -> check r <> -1 | Some (f, r) => In f tried /\ status f = Some r /\ check r = -1 end) /\
    (match snd s with None => forall f r, In f tried -> status f = Some r -> check r <> 1 | Some (f, r) => In f tried /\ status f = Some r /\ check r = 1 end).
  Lemma note_ok tried s f r : status f = Some r -> tried_ok tried s -> tried_ok (tried ++ [f]) (note Res check s f r).
  Proof.
    intros Hf [H1 H2]. assert (Hin : forall g, In g tried -> In g (tried ++ [f])) by (intros; apply in_or_app; auto).
    assert (Hlast : In f (tried ++ [f])) by (apply in_or_app; right; left; reflexivity).
    assert (Hother : forall (P : R -> Prop), ~ P (check r) -> (forall g q, In g tried -> status g = Some q -> ~ P (check q)) -> forall g q, In g (tried ++ [f]) -> status g = Some q -> ~ P (check q)).
    { intros P Hr Hall g q Hg Hq. apply in_app_or in Hg as [Hg|[<-|[]]]; [apply (Hall g q Hg Hq)|]. congruence. }
    unfold note. destruct (Reqb_spec (check r) (-1)) as [E|E]; [|destruct (Reqb_spec (check r) 1) as [E'|E']].
    - split; cbn; [auto|]. destruct (snd s) as [[g q]|]; [destruct H2 as [? [? ?]]; auto|].
      apply (Hother (fun c => c = 1)); [rewrite E; lra|exact H2].
    - split; cbn; [|auto]. destruct (fst s) as [[g q]|]; [destruct H1 as [? [? ?]]; auto|]. apply (Hother (fun c => c = -1)); [exact E|exact H1].
    - split.
      + destruct (fst s) as [[g q]|]; [destruct H1 as [? [? ?]]; auto|]. apply (Hother (fun c => c = -1)); [exact E|exact H1].
      + destruct (snd s) as [[g q]|]; [destruct H2 as [? [? ?]]; auto|]. apply (Hother (fun c => c = 1)); [exact E'|exact H2].
  Qed.
  Definition bounds_ok (all : list R) (r : res (answer Res)) : Prop :=
    match r with
    | Ret (nf, pf, nr, pr, k) => (k <= length all)%nat /\ In nf (firstn k all) /\ status nf = Some nr /\ check nr = -1 /\ In pf (firstn k all) /\ status pf = Some pr /\ check pr = 1
    | Exn Unbounded => (forall f r, In f all -> status f = Some r -> check r <> -1) \/ (forall f r, In f all -> status f = Some r -> check r <> 1)
    | Exn FlashError => exists f, In f all /\ status f = None
    | Exn _ => False
    end.
  Lemma both_none tried s k : tried_ok tried s -> both Res s k = None ->
    (forall f r, In f tried -> status f = Some r -> check r <> -1) \/ (forall f r, In f tried -> status f = Some r -> check r <> 1).
  Proof. destruct s as [[[? ?]|] [[? ?]|]]; intros [H1 H2] H; cbn in *; auto; discriminate. Qed.
  Lemma both_some tried rest s a : tried_ok tried s -> both Res s (length tried) = Some a -> bounds_ok (tried ++ rest) (Ret a).
  Proof.
    destruct s as [[[nf nr]|] [[pf pr]|]]; cbn; try discriminate. intros [[A1 [A2 A3]] [B1 [B2 B3]]] E. injection E. intros <-.
    rewrite firstn_app, Nat.sub_diag, firstn_all. cbn. rewrite app_nil_r, app_length. splits; auto; lia.
  Qed.
  Lemma bounds_loop_ok l : forall tried s, tried_ok tried s -> both Res s (length tried) = None -> bounds_ok (tried ++ l) (bounds_loop Res status check l (length tried) s).
  Proof.
    induction l as [|f l IH]; intros tried s Hs Hb; cbn [bounds_loop].
    - rewrite app_nil_r. exact (both_none _ _ _ Hs Hb).
    - destruct (status f) as [r|] eqn:Ef; [|exists f; split; [apply in_or_app; right; left; reflexivity|exact Ef]].
      pose proof (note_ok tried s f r Ef Hs) as Hn. replace (S (length tried)) with (length (tried ++ [f])) by (rewrite app_length; cbn; lia).
      replace (tried ++ f :: l) with ((tried ++ [f]) ++ l) by (rewrite <- app_assoc; reflexivity).
      destruct (both Res (note Res check s f r) (length (tried ++ [f]))) eqn:Eb; [apply (both_some _ _ _ _ Hn Eb)|apply IH; assumption].
  Qed.
  (* an answer is a ratio tried without and a ratio tried with the phase, with their flashes; "Failed to bound" is raised only if all the
     ratios tried are without, or all with it; an exception of a flash is passed on *)
  Theorem C62_bounds factors : bounds_ok (0 :: 1 :: factors) (generate_incipient Res status check factors).
  Proof.
    unfold generate_incipient. destruct (status 0) as [r0|] eqn:E0; [|exists 0; split; [left; reflexivity|exact E0]].
    assert (H0 : tried_ok [] (None, None)) by (split; cbn; intros ? ? []).
    pose proof (note_ok [] _ 0 r0 E0 H0) as N0. cbn [app] in N0.
    destruct (status 1) as [r1|] eqn:E1; [|exists 1; split; [right; left; reflexivity|exact E1]].
    pose proof (note_ok [0] _ 1 r1 E1 N0) as N1. cbn [app] in N1.
    destruct (both Res _ 2) eqn:Eb; [apply (both_some [0; 1] factors _ _ N1 Eb)|]. apply (bounds_loop_ok factors [0; 1] _ N1 Eb).
  Qed.

  (* the result returned is the last one evaluated that has the phase *)
  Lemma pick_found l x m v : (forall y, In y l -> check y <> 1) -> check x = 1 -> pick Res check (l ++ x :: m) v = Ret x.
  Proof.
    revert v. induction l as [|y l IH]; intros v Hl Hx; cbn.
    - destruct (Reqb_spec (check x) 1); [reflexivity|tauto].
    - destruct (Reqb_spec (check y) 1) as [E|_]; [destruct (Hl y (or_introl eq_refl) E)|]. apply IH; [intros z Hz; apply Hl; right; exact Hz|exact Hx].
  Qed.
  Theorem C62_last_matching store x later : check x = 1 -> (forall y, In y later -> check y <> 1) -> last_matching Res check (store ++ x :: later) = Ret x.
  Proof.
    intros Hx Hl. unfold last_matching. rewrite rev_app_distr. cbn [rev]. rewrite <- app_assoc. cbn [app].
    apply pick_found; [|exact Hx]. intros y Hy. apply Hl, in_rev, Hy.
  Qed.
  (* Claimed (comment): the value returned meets the criterion. Refuted: if no evaluation had the phase the first evaluation is returned. *)
  Theorem C62_criterion_refuted x store : (forall y, In y (x :: store) -> check y <> 1) -> last_matching Res check (x :: store) = Ret x.
  Proof.
    intros H. unfold last_matching. cbn [rev].
    assert (G : forall l v, (forall y, In y l -> check y <> 1) -> check x <> 1 -> pick Res check (l ++ [x]) v = Ret x).
    { induction l as [|y l IH]; intros v Hl Hx; cbn.
      - destruct (Reqb_spec (check x) 1); [tauto|reflexivity].
      - destruct (Reqb_spec (check y) 1) as [E|_]; [destruct (Hl y (or_introl eq_refl) E)|]. apply IH; [intros z Hz; apply Hl; right; exact Hz|exact Hx]. }
    apply G; [intros y Hy; apply H; right; apply in_rev, Hy|apply H; left; reflexivity].
  Qed.

  (* Claimed: the secant starts from the flash of the existing stream. Refuted: when that is the flash with the phase, the flash of the other
     bound is taken. It is right in the other cases, given that a bound with the composition of the stream is its flash. *)
  Theorem C62_start_refuted (neg pos existing : Res) : start_of Res false false true neg pos (Some existing) = Some neg.
  Proof. reflexivity. Qed.
  Theorem C62_start (removed neg_eq pos_eq : bool) (neg pos existing : Res) : (neg_eq = true -> neg = existing) ->
    removed = true \/ neg_eq = true \/ pos_eq = false -> start_of Res removed neg_eq pos_eq neg pos (Some existing) = Some existing.
  Proof. intros Hn H. unfold start_of. destruct removed; [reflexivity|]. destruct neg_eq; [rewrite Hn; reflexivity|]. destruct pos_eq; [destruct H as [?|[?|?]]; discriminate|reflexivity]. Qed.

  (* the boundary VL is solved by the one sided secant, all others by bisection *)
  Theorem C62_method run b : mixing_phase_boundary Res run (Some b) = run (match b with CVL => OneSidedSecant | _ => BoundedNaive end) b.
  Proof. destruct b; reflexivity. Qed.
  (* Claimed (by the list of methods): if a method fails the next is tried. Refuted: an exception is passed on and the others never run. *)
  Theorem C62_next_method_refuted e (x : Res) : mixing_phase_boundary Res (fun m _ => match m with OneSidedSecant => Exn e | _ => Ret x end) (Some CVL) = Exn e.
  Proof. reflexivity. Qed.
  Theorem C62_unrecognized run : mixing_phase_boundary Res run None = Exn Unrecognized.
  Proof. reflexivity. Qed.
End Bounds.
(* the secant only knows the fraction to drive to zero for VL and LL; for VL it is the one of the phase of which there is less *)
Theorem C62_mode v : mode_of CVL v = Some (if Rltb (1/2) v then LF else VF) /\ mode_of CLL v = Some LF0 /\ mode_of CVLL v = None /\ mode_of CVLN_LN v = None /\ mode_of CVLL_LL v = None.
Proof. splits; try reflexivity. cbn. replace 0.5 with (1/2) by lra. reflexivity. Qed.

(* Claimed: the fraction is that of the solution with the lowest change of the Gibbs energy. Refuted: the lowest change is never updated,
   the last solution is taken. *)
Theorem C62_lowest_refuted slns vf dG : dG < 10 ^ 100 -> pseudo_fraction (slns ++ [(vf, dG)]) = vf.
Proof.
  intros H. unfold pseudo_fraction.
  match goal with |- context [fold_left ?f _ _] => set (step := f) end.
  rewrite fold_left_app. cbn [fold_left].
  assert (G : forall l f, snd (fold_left step l (f, 10 ^ 100)) = 10 ^ 100).
  { induction l as [|[v d] l IH]; intros f; cbn [fold_left]; [reflexivity|]. unfold step at 2. destruct (Rltb d (10 ^ 100)); apply IH. }
  specialize (G slns (- / 10 ^ 10)). 
  destruct (fold_left step slns _) as [f lo]. cbn [snd] in G. subst lo.
  unfold step. destruct (Rltb_spec dG (10 ^ 100)); [reflexivity|tauto].
Qed.
Example C62_bounds_hypotheses_met : exists a, generate_incipient R (fun f => Some f) (fun f => if Rltb f 3 then -1 else 1) [2; 5] = Ret a.
Proof.
  unfold generate_incipient. cbn [bounds_loop]. unfold note, both.
  destruct (Rltb_spec 0 3); [|lra]. destruct (Rltb_spec 1 3); [|lra]. destruct (Rltb_spec 2 3); [|lra]. destruct (Rltb_spec 5 3); [lra|].
  destruct (Reqb_spec (-1) (-1)); [|lra]. destruct (Reqb_spec 1 (-1)); [lra|]. destruct (Reqb_spec 1 1); [|lra]. eexists. reflexivity.
Qed.
