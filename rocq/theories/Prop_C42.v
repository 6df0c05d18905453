(* C42: ion balances. *)
From Coq Require Import Reals Lra Lia List Bool Arith.
From Verif Require Import Base BaseFacts Model_ions Spec_ions.
Import ListNotations.
Open Scope R_scope.

(* ---- lists ---- *)
Lemma lsum_app a b : lsum (a ++ b) = lsum a + lsum b.
Proof. unfold lsum. induction a as [|x a IH]; cbn; [lra|]. rewrite IH. lra. Qed.
Lemma lsum_cons x l : lsum (x :: l) = x + lsum l.
Proof. reflexivity. Qed.
Lemma lsum_total l : lsum l = total l.
Proof. unfold lsum. induction l as [|x l IH]; cbn; auto. Qed.
Lemma filter_notin k l : ~ In k l -> filter (fun i => negb (i =? k)%nat) l = l.
Proof. induction l as [|y l IH]; cbn; auto. intros H. destruct (Nat.eqb_spec y k) as [->|]; [exfalso; auto|]. cbn. rewrite IH; auto. Qed.
Lemma lsum_pick (f : nat -> R) l k : NoDup l -> In k l -> lsum (map f l) = lsum (map f (filter (fun i => negb (i =? k)%nat) l)) + f k.
Proof.
  intros HN. induction HN as [|x l HX HN IH]; intros HI; [contradiction|]; destruct HI as [->|HI]; cbn [map filter]; rewrite lsum_cons.
  - rewrite Nat.eqb_refl. cbn [negb]. rewrite filter_notin by auto. lra.
  - destruct (Nat.eqb_spec x k) as [->|E]; [contradiction|]. cbn [negb map]. rewrite lsum_cons, IH; auto. lra.
Qed.
Lemma seq_map_nth (l : list R) : map (fun i => nth i l 0) (seq 0 (length l)) = l.
Proof. induction l as [|x l IH]; cbn; auto. f_equal. rewrite <- seq_shift, map_map. exact IH. Qed.
Lemma products_seq zs cs : length zs = length cs -> products zs cs = map (fun i => nth i zs 0 * nth i cs 0) (seq 0 (length cs)).
Proof.
  revert cs. induction zs as [|z zs IH]; intros [|c cs] H; try discriminate; auto. unfold products in *. cbn. f_equal. rewrite IH by (cbn in H; lia). now rewrite <- seq_shift, map_map.
Qed.
Lemma replace_length k v l : length (replace k v l) = length l.
Proof. revert k. induction l; intros [|k]; cbn; auto. Qed.
Lemma replace_nth k v l i : (k < length l)%nat -> nth i (replace k v l) 0 = if (i =? k)%nat then v else nth i l 0.
Proof. revert k i. induction l as [|x l IH]; intros [|k] [|i] H; cbn in *; try lia; auto. apply IH. lia. Qed.
Lemma products_app a b c d : length a = length c -> products (a ++ b) (c ++ d) = products a c ++ products b d.
Proof. unfold products. revert c. induction a as [|x a IH]; intros [|y c] H; try discriminate; cbn; auto. now rewrite IH by (cbn in H; lia). Qed.
Lemma products_charge ions zs : length zs = length ions -> lsum (products zs (map i_charge ions)) = charge_of ions zs.
Proof. unfold products. revert zs. induction ions as [|i ions IH]; intros [|z zs] H; try discriminate; cbn [combine map charge_of]; auto. rewrite lsum_cons, IH by (cbn in H; lia). cbn [fst snd]. lra. Qed.
Lemma firstn_app_exact {X} (a b : list X) n : length a = n -> firstn n (a ++ b) = a.
Proof. intros <-. rewrite firstn_app, Nat.sub_diag, firstn_all, app_nil_r. reflexivity. Qed.
Lemma skipn_app_exact {X} (a b : list X) n : length a = n -> skipn n (a ++ b) = b.
Proof. intros <-. rewrite skipn_app, Nat.sub_diag, skipn_all. reflexivity. Qed.
Lemma split3 (zs : list R) n m : length zs = (n + m + 1)%nat -> exists a b w, zs = a ++ b ++ [w] /\ length a = n /\ length b = m.
Proof.
  intros H. exists (firstn n zs), (firstn m (skipn n zs)), (last zs 0). splits.
  - rewrite <- (firstn_skipn n zs) at 1. f_equal. rewrite <- (firstn_skipn m (skipn n zs)) at 1. f_equal. assert (L : length (skipn m (skipn n zs)) = 1%nat) by (rewrite !skipn_length; lia).
    rewrite <- (firstn_skipn n zs) at 2. rewrite <- (firstn_skipn m (skipn n zs)) at 2. destruct (skipn m (skipn n zs)) as [|y [|]]; cbn in L; try lia. rewrite app_assoc. now rewrite last_last.
  - rewrite firstn_length. lia.
  - rewrite firstn_length, skipn_length. lia.
Qed.
Definition all_charges (an cat : list ion) := map i_charge an ++ map i_charge cat ++ [0].
Lemma total_charge an cat az cz w : length az = length an -> length cz = length cat -> lsum (products (az ++ cz ++ [w]) (all_charges an cat)) = net_charge an cat az cz.
Proof.
  intros H1 H2. unfold all_charges. rewrite products_app by (now rewrite map_length). rewrite products_app by (now rewrite map_length). rewrite !lsum_app, !products_charge by auto. unfold net_charge. cbn. lra.
Qed.

(* ---- adjusting one ion ---- *)
Lemma adjust_core an cat az cz w k r : length az = length an -> length cz = length cat ->
  ion_balance_adjust_one (all_charges an cat) (az ++ cz ++ [w]) (length an) (length cat) k = IOk r ->
  exists az' cz' zw, r = (az', cz', zw) /\ length az' = length an /\ length cz' = length cat /\ net_charge an cat az' cz' = 0 /\ total az' + total cz' + zw = 1 /\
   (k < length an + length cat)%nat /\ nth k (all_charges an cat) 0 <> 0 /\ same_except (eq k) (az ++ cz) (az' ++ cz') /\ 0 <= nth k (az' ++ cz') 0 /\
   nth k (az' ++ cz') 0 = nth k (az ++ cz) 0 - net_charge an cat az cz / nth k (all_charges an cat) 0.
Proof.
  intros H1 H2. unfold ion_balance_adjust_one. set (cs := all_charges an cat). set (zs := az ++ cz ++ [w]).
  assert (LC : length cs = (length an + length cat + 1)%nat) by (unfold cs, all_charges; rewrite !app_length, !map_length; cbn; lia).
  assert (LZ : length zs = (length an + length cat + 1)%nat) by (unfold zs; rewrite !app_length; cbn; lia).
  destruct (Reqb_spec (nth k cs 0) 0) as [E|E]; [discriminate|].
  assert (HK : (k < length an + length cat)%nat).
  { destruct (Nat.lt_ge_cases k (length an + length cat)) as [L|L]; auto. exfalso. apply E. destruct (Nat.eq_dec k (length an + length cat)) as [->|N]; [|apply nth_overflow; lia].
    unfold cs, all_charges. rewrite app_nth2 by (rewrite map_length; lia). rewrite app_nth2 by (rewrite !map_length; lia). rewrite !map_length. replace (_ - _ - _)%nat with 0%nat by lia. reflexivity. }
  set (m := lsum _). set (z := - m / nth k cs 0). destruct (Rltb_spec z 0) as [F|F]; [discriminate|]. intros [= <-].
  assert (ME : lsum (products zs cs) = m + nth k zs 0 * nth k cs 0). { rewrite products_seq by lia. unfold m. apply (lsum_pick (fun i => nth i zs 0 * nth i cs 0)). apply seq_NoDup. apply in_seq. lia. }
  destruct (split3 (replace k z zs) (length an) (length cat)) as (a & b & w' & E1 & L1 & L2); [rewrite replace_length; lia|]. rewrite E1.
  assert (M0 : lsum (products (a ++ b ++ [w']) cs) = 0).
  { rewrite <- E1. rewrite products_seq by (rewrite replace_length; lia). rewrite (lsum_pick (fun i => nth i (replace k z zs) 0 * nth i cs 0) (seq 0 (length cs)) k) by (try apply seq_NoDup; apply in_seq; lia).
    rewrite replace_nth, Nat.eqb_refl by lia. replace (lsum _) with m. unfold z. field. exact E. unfold m. f_equal. apply map_ext_in. intros i Hi. apply filter_In in Hi. destruct Hi as [_ Hi]. rewrite replace_nth by lia. destruct (i =? k)%nat; [discriminate|reflexivity]. }
  unfold cs in M0. rewrite total_charge in M0 by lia.
  assert (NR : forall i, (i < length an + length cat)%nat -> nth i (a ++ b) 0 = if (i =? k)%nat then z else nth i (az ++ cz) 0).
  { intros i Hi. transitivity (nth i (a ++ b ++ [w']) 0). { rewrite app_assoc. symmetry. apply app_nth1. rewrite app_length. lia. } rewrite <- E1, replace_nth by lia. destruct (i =? k)%nat; auto. unfold zs. rewrite app_assoc. apply app_nth1. rewrite app_length. lia. }
  exists a, b, (1 - lsum (a ++ b)). splits; auto.
  - rewrite (firstn_app_exact a) by auto. rewrite (skipn_app_exact a), (firstn_app_exact b) by auto. do 2 f_equal. f_equal. replace (length (a ++ b ++ [w']) - 1)%nat with (length (a ++ b)) by (rewrite !app_length; cbn; lia). rewrite app_assoc. now rewrite firstn_app_exact.
  - rewrite lsum_app, (lsum_total a), (lsum_total b). ring.
  - split; [rewrite !app_length; lia|]. intros i Hi. destruct (Nat.lt_ge_cases i (length an + length cat)) as [L|L].
    + rewrite NR by auto. destruct (Nat.eqb_spec i k); [congruence|auto].
    + rewrite !nth_overflow by (rewrite app_length; lia). reflexivity.
  - rewrite NR, Nat.eqb_refl by auto. lra.
  - rewrite NR, Nat.eqb_refl by auto. assert (TC : lsum (products zs cs) = net_charge an cat az cz) by (apply total_charge; auto). rewrite TC in ME. assert (NK : nth k zs 0 = nth k (az ++ cz) 0) by (unfold zs; rewrite app_assoc; apply app_nth1; rewrite app_length; lia). rewrite NK in ME. unfold z. rewrite ME. field. exact E.
Qed.

(* ---- proportional adjustments ---- *)
Lemma charge_scale m ions zs : charge_of ions (map (fun z => z * m) zs) = m * charge_of ions zs.
Proof. revert zs. induction ions as [|i ions IH]; intros [|z zs]; cbn; try lra. rewrite IH. lra. Qed.
Lemma proportional_core an cat az cz w be me r : length az = length an -> length cz = length cat ->
  ion_balance_proportional (map i_charge an) (map i_charge cat) (az ++ cz ++ [w]) (length an) (length cat) be me = IOk r ->
  exists az' cz' zw, r = (az', cz', zw) /\ net_charge an cat az' cz' = 0 /\ total az' + total cz' + zw = 1 /\
   ((az' = az /\ charge_of cat cz <> 0 /\ scaled_by (- charge_of an az / charge_of cat cz) cz cz' /\ (me = Insufficient_increase /\ be < 0 \/ me = Excess_decrease /\ 0 <= be \/ me = Cation_adjustment)) \/
    (cz' = cz /\ charge_of an az <> 0 /\ scaled_by (- charge_of cat cz / charge_of an az) az az' /\ (me = Insufficient_increase /\ 0 <= be \/ me = Excess_decrease /\ be < 0 \/ me = Anion_adjustment))).
Proof.
  intros H1 H2. unfold ion_balance_proportional. rewrite (firstn_app_exact az), (skipn_app_exact az), (firstn_app_exact cz) by auto. rewrite !products_charge by auto.
  assert (W : forall a b, total a + total b + (1 - lsum a - lsum b) = 1) by (intros a b; rewrite (lsum_total a), (lsum_total b); ring).
  set (ca := charge_of an az). set (cc := charge_of cat cz). unfold scale.
  assert (C1 : cc <> 0 -> net_charge an cat az (map (fun i => i * (- ca / cc)) cz) = 0) by (intros E; unfold net_charge; rewrite charge_scale; fold ca cc; field; exact E).
  assert (C2 : ca <> 0 -> net_charge an cat (map (fun i => i * (- cc / ca)) az) cz = 0) by (intros E; unfold net_charge; rewrite charge_scale; fold ca cc; field; exact E).
  destruct me; try discriminate; try (destruct (Rltb_spec be 0)); (destruct (Reqb_spec cc 0) as [?|E] || idtac); try discriminate; (destruct (Reqb_spec ca 0) as [?|F] || idtac); try discriminate; intros [= <-]; do 3 eexists; (split; [reflexivity|]); (split; [auto|]); (split; [apply W|]); unfold scaled_by;
   first [left; splits; auto; fail | right; splits; auto; fail | left; splits; auto; right; left; split; auto; lra | right; splits; auto; left; split; auto; lra].
Qed.

(* ---- extreme contributions ---- *)
Lemma lmax_spec l : l <> [] -> In (lmax l) l /\ forall x, In x l -> x <= lmax l.
Proof.
  destruct l as [|x l]; [congruence|]. intros _. cbn. revert x. induction l as [|y l IH]; intros x; cbn.
  - split; auto. intros ? [<-|[]]. lra.
  - destruct (IH (if Rltb x y then y else x)) as [H1 H2]. destruct (Rltb_spec x y) as [E|E].
    + split. destruct H1 as [H1|H1]; auto. intros z [<-|[<-|Hz]]; [|apply H2; left; reflexivity|apply H2; right; auto]. apply Rle_trans with y; [lra|apply H2; left; reflexivity].
    + split. destruct H1 as [H1|H1]; auto. intros z [<-|[<-|Hz]]; [apply H2; left; reflexivity| |apply H2; right; auto]. apply Rle_trans with x; [lra|apply H2; left; reflexivity].
Qed.
Lemma lmin_spec l : l <> [] -> In (lmin l) l /\ forall x, In x l -> lmin l <= x.
Proof.
  destruct l as [|x l]; [congruence|]. intros _. cbn. revert x. induction l as [|y l IH]; intros x; cbn.
  - split; auto. intros ? [<-|[]]. lra.
  - destruct (IH (if Rltb y x then y else x)) as [H1 H2]. destruct (Rltb_spec y x) as [E|E].
    + split. destruct H1 as [H1|H1]; auto. intros z [<-|[<-|Hz]]; [|apply H2; left; reflexivity|apply H2; right; auto]. apply Rle_trans with y; [apply H2; left; reflexivity|lra].
    + split. destruct H1 as [H1|H1]; auto. intros z [<-|[<-|Hz]]; [apply H2; left; reflexivity| |apply H2; right; auto]. apply Rle_trans with x; [apply H2; left; reflexivity|lra].
Qed.
Lemma lindex_spec x l : In x l -> (lindex x l < length l)%nat /\ nth (lindex x l) l 0 = x.
Proof.
  induction l as [|y l IH]; intros []; cbn.
  - subst. rewrite Reqb_true by reflexivity. split; [lia|reflexivity].
  - destruct (Reqb_spec y x); [split; [lia|auto]|]. destruct (IH H). split; [lia|auto].
Qed.
(* charge contribution of the k-th ion, anions first *)
Definition contribution an cat az cz (k : nat) : R := nth k (map i_charge an ++ map i_charge cat) 0 * nth k (az ++ cz) 0.
Lemma impact an cat az cz w k : length az = length an -> length cz = length cat -> (k < length an + length cat)%nat -> nth k (products (az ++ cz ++ [w]) (all_charges an cat)) 0 = contribution an cat az cz k.
Proof.
  intros H1 H2 H. rewrite products_seq by (unfold all_charges; rewrite !app_length, !map_length; cbn; lia). rewrite nth_indep with (d' := (fun i => nth i (az ++ cz ++ [w]) 0 * nth i (all_charges an cat) 0) 0%nat) by (rewrite map_length, seq_length; unfold all_charges; rewrite !app_length, !map_length; cbn; lia).
  rewrite (map_nth (fun i => nth i (az ++ cz ++ [w]) 0 * nth i (all_charges an cat) 0)), seq_nth by (unfold all_charges; rewrite !app_length, !map_length; cbn; lia). cbn [plus]. unfold contribution, all_charges. rewrite !app_assoc. rewrite (app_nth1 (az ++ cz) [w]), (app_nth1 (map i_charge an ++ map i_charge cat) [0]) by (rewrite app_length, ?map_length; lia). ring.
Qed.
Lemma charge_nth an cat k : (k < length an + length cat)%nat -> nth k (all_charges an cat) 0 = nth k (map i_charge an ++ map i_charge cat) 0.
Proof. intros H. unfold all_charges. rewrite app_assoc, app_nth1; auto. rewrite app_length, !map_length. lia. Qed.
(* signs of the contributions of a measured composition *)
Lemma nth_map_charge l k : (k < length l)%nat -> exists i, In i l /\ nth k (map i_charge l) 0 = i_charge i.
Proof. intros H. destruct l as [|x l]; [cbn in H; lia|]. exists (nth k (x :: l) x). split; [now apply nth_In|]. rewrite nth_indep with (d' := i_charge x) by (now rewrite map_length). now rewrite map_nth. Qed.
Lemma signs an cat az cz k : measured an cat az cz -> (k < length an + length cat)%nat ->
  ((k < length an)%nat /\ nth k (map i_charge an ++ map i_charge cat) 0 < 0 \/ (length an <= k)%nat /\ 0 < nth k (map i_charge an ++ map i_charge cat) 0) /\ 0 <= nth k (az ++ cz) 0.
Proof.
  intros (H1 & H2 & H3 & H4 & H5 & H6) H. split.
  - destruct (Nat.lt_ge_cases k (length an)) as [L|L]; [left|right]; split; auto.
    + rewrite app_nth1 by (now rewrite map_length). destruct (nth_map_charge an k L) as [i [Hi ->]]. auto.
    + rewrite app_nth2 by (now rewrite map_length). rewrite map_length. destruct (nth_map_charge cat (k - length an)) as [i [Hi ->]]; [lia|auto].
  - assert (Hn : In (nth k (az ++ cz) 0) (az ++ cz)) by (apply nth_In; rewrite app_length; lia). apply in_app_or in Hn. destruct Hn; auto.
Qed.

(* ---- adjusting a selected ion ---- *)
Lemma same_split P az cz az' cz' : length az' = length az -> same_except P (az ++ cz) (az' ++ cz') ->
  (forall i, (i < length az)%nat -> ~ P i -> nth i az' 0 = nth i az 0) /\ (forall i, ~ P (length az + i)%nat -> nth i cz' 0 = nth i cz 0).
Proof.
  intros L [L2 H]. split.
  - intros i Hi HP. specialize (H i HP). now rewrite !app_nth1 in H by lia.
  - intros i HP. specialize (H _ HP). rewrite !app_nth2 in H by lia. now replace (length az + i - length az')%nat with i in H by lia; replace (length az + i - length az)%nat with i in H by lia.
Qed.
Lemma fraction_nth x ions zs : length zs = length ions -> fraction_of x ions zs = nth (position x ions) zs 0.
Proof. revert zs. induction ions as [|i ions IH]; intros [|z zs] H; try discriminate; cbn; auto. destruct (_ =? _)%nat; auto. Qed.
Lemma position_in x l : mem x l = true -> (position x l < length l)%nat.
Proof. induction l as [|y l IH]; cbn; [discriminate|]. destruct (_ =? _)%nat; [lia|]. cbn. intros H. specialize (IH H). lia. Qed.
Lemma position_out x l : mem x l = false -> position x l = length l.
Proof. induction l as [|y l IH]; cbn; auto. destruct (_ =? _)%nat; [discriminate|]. cbn. intros H. now rewrite IH. Qed.
Lemma position_le x l : (position x l <= length l)%nat.
Proof. destruct (mem x l) eqn:E; [apply position_in in E; lia|rewrite position_out; auto]. Qed.
Lemma position_same x y l : mem y l = true -> position x l = position y l -> i_id x = i_id y.
Proof. induction l as [|z l IH]; cbn; [discriminate|]. destruct (Nat.eqb_spec (i_id z) (i_id y)), (Nat.eqb_spec (i_id z) (i_id x)); cbn; intros H E; try discriminate; try congruence. apply IH; auto. Qed.
Lemma position_app x s l : i_id x <> i_id s -> position x (l ++ [s]) = if mem x l then position x l else S (length l).
Proof. intros N. induction l as [|z l IH]; cbn. - destruct (Nat.eqb_spec (i_id s) (i_id x)); [congruence|reflexivity]. - destruct (_ =? _)%nat; cbn; auto. rewrite IH. fold (mem x l). now destruct (mem x l). Qed.
Lemma position_new s l : mem s l = false -> position s (l ++ [s]) = length l.
Proof. induction l as [|z l IH]; cbn; [now rewrite Nat.eqb_refl|]. destruct (_ =? _)%nat; [discriminate|]. cbn. intros H. now rewrite IH. Qed.
Lemma insert_exact a v b n : length a = n -> insert_at n v (a ++ b) = a ++ v :: b.
Proof. intros H. unfold insert_at. now rewrite firstn_app_exact, skipn_app_exact. Qed.
Lemma fraction_app x s ions zs zs' : length zs = length ions -> length zs' = S (length ions) -> i_id x <> i_id s -> (forall i, (i < length ions)%nat -> nth i zs' 0 = nth i zs 0) -> fraction_of x (ions ++ [s]) zs' = fraction_of x ions zs.
Proof.
  intros L1 L2 N H. rewrite !fraction_nth by (auto; rewrite app_length; cbn; lia). rewrite position_app by auto. destruct (mem x ions) eqn:M; [apply H; now apply position_in|]. rewrite (position_out _ _ M). rewrite !nth_overflow by lia. reflexivity.
Qed.
Lemma insert_charge_anion an cat s : insert_at (length an) (i_charge s) (all_charges an cat) = all_charges (an ++ [s]) cat.
Proof. unfold all_charges. rewrite insert_exact by (now rewrite map_length). rewrite map_app. cbn. now rewrite <- app_assoc. Qed.
Lemma insert_charge_cation an cat s : insert_at (length (all_charges an cat) - 1) (i_charge s) (all_charges an cat) = all_charges an (cat ++ [s]).
Proof. unfold all_charges. rewrite (app_assoc (map i_charge an)). rewrite insert_exact by (rewrite !app_length; cbn; lia). rewrite map_app. cbn. now rewrite <- !app_assoc. Qed.
Lemma wrapper_core an cat az cz w s inc an' cat' az' cz' zw : length az = length an -> length cz = length cat ->
  ion_balance_adjust_wrapper (all_charges an cat) (az ++ cz ++ [w]) an cat s inc = IOk (an', cat', (az', cz', zw)) ->
  net_charge an' cat' az' cz' = 0 /\ total az' + total cz' + zw = 1 /\ length az' = length an' /\ length cz' = length cat' /\
  ((mem s an || mem s cat = true /\ an' = an /\ cat' = cat) \/ (mem s an = false /\ mem s cat = false /\ (i_charge s < 0 /\ an' = an ++ [s] /\ cat' = cat \/ 0 < i_charge s /\ an' = an /\ cat' = cat ++ [s]))) /\
  (forall x, i_id x <> i_id s -> fraction_of x an' az' = fraction_of x an az /\ fraction_of x cat' cz' = fraction_of x cat cz) /\
  (i_charge s < 0 -> fraction_of s cat' cz' = fraction_of s cat cz /\ 0 <= fraction_of s an' az' /\ (inc = Some true -> fraction_of s an az <= fraction_of s an' az') /\ (inc = Some false -> fraction_of s an' az' <= fraction_of s an az)) /\
  (0 < i_charge s -> fraction_of s an' az' = fraction_of s an az /\ 0 <= fraction_of s cat' cz' /\ (inc = Some true -> fraction_of s cat cz <= fraction_of s cat' cz') /\ (inc = Some false -> fraction_of s cat' cz' <= fraction_of s cat cz)).
Proof.
  intros H1 H2. unfold ion_balance_adjust_wrapper. destruct (Reqb_spec (i_charge s) 0) as [E|E]; [discriminate|].
  destruct (mem s an) eqn:MA; [|destruct (mem s cat) eqn:MC]; cbn [negb andb orb].
  - pose proof (position_in _ _ MA) as PA.
    destruct (ion_balance_adjust_one _ _ _ _ _) as [[[a b] q]|] eqn:EA; [|discriminate]. destruct (Rltb_spec 0 (i_charge s)) as [F|F]; cbn [option_map]; [discriminate|].
    destruct (match inc with Some true => _ | Some false => _ | None => _ end) eqn:D; [discriminate|]. intros [= <- <- <- <- <-].
    apply adjust_core in EA; auto. destruct EA as (a0 & b0 & q0 & [= <- <- <-] & L1 & L2 & N & T & K & C & S & Z & V). apply same_split in S; [|lia]. destruct S as [S1 S2]. rewrite (app_nth1 a b) in Z by lia.
    splits; auto.
    + intros x Hx. rewrite !fraction_nth by auto. split; [|apply S2; lia]. destruct (mem x an) eqn:MX.
      * apply S1; [rewrite H1; now apply position_in|]. intros Hp. apply Hx. apply (position_same x s an MA). now symmetry.
      * rewrite (position_out x an MX). rewrite !nth_overflow by lia. reflexivity.
    + intros _. rewrite !fraction_nth by auto. splits; auto; [apply S2; lia| |]; intros ->.
      * rewrite (app_nth1 az) in D by lia. destruct (Rltb_spec (nth (position s an) a 0) (nth (position s an) az 0)); [discriminate|lra].
      * rewrite (app_nth1 az) in D by lia. destruct (Rltb_spec (nth (position s an) az 0) (nth (position s an) a 0)); [discriminate|lra].
    + intros. lra.
  - pose proof (position_in _ _ MC) as PC.
    destruct (ion_balance_adjust_one _ _ _ _ _) as [[[a b] q]|] eqn:EA; [|discriminate]. destruct (Rltb_spec 0 (i_charge s)) as [F|F]; cbn [option_map]; [|discriminate].
    destruct (match inc with Some true => _ | Some false => _ | None => _ end) eqn:D; [discriminate|]. intros [= <- <- <- <- <-].
    apply adjust_core in EA; auto. destruct EA as (a0 & b0 & q0 & [= <- <- <-] & L1 & L2 & N & T & K & C & S & Z & V). apply same_split in S; [|lia]. destruct S as [S1 S2]. rewrite (app_nth2 a b) in Z by lia. replace (length an + position s cat - length a)%nat with (position s cat) in Z by lia.
    assert (O : nth (length an + position s cat) (az ++ cz ++ [w]) 0 = nth (position s cat) cz 0) by (rewrite app_nth2 by lia; replace (length an + position s cat - length az)%nat with (position s cat) by lia; apply app_nth1; lia). rewrite O in D.
    splits; auto.
    + intros x Hx. rewrite !fraction_nth by auto. split.
      * destruct (Nat.lt_ge_cases (position x an) (length an)) as [L|L]; [apply S1; lia|rewrite !nth_overflow by lia; reflexivity].
      * apply S2. intros Hp. apply Hx. apply (position_same x s cat MC). lia.
    + intros. lra.
    + intros _. rewrite !fraction_nth by auto. splits; auto.
      * rewrite (position_out s an MA). rewrite !nth_overflow by lia. reflexivity.
      * intros ->. destruct (Rltb_spec (nth (position s cat) b 0) (nth (position s cat) cz 0)); [discriminate|lra].
      * intros ->. destruct (Rltb_spec (nth (position s cat) cz 0) (nth (position s cat) b 0)); [discriminate|lra].
  - destruct (Rltb_spec (i_charge s) 0) as [F|F].
    + rewrite insert_charge_anion. rewrite insert_exact by auto. replace (az ++ 0 :: cz ++ [w]) with ((az ++ [0]) ++ cz ++ [w]) by (now rewrite <- app_assoc).
      destruct (ion_balance_adjust_one _ _ _ _ _) as [[[a b] q]|] eqn:EA; [|discriminate]. rewrite (Rltb_false 0 (i_charge s)) by lra. cbn [option_map].
      destruct (match inc with Some true => _ | Some false => _ | None => _ end) eqn:D; [discriminate|]. intros [= <- <- <- <- <-].
      apply adjust_core in EA; auto; [|rewrite !app_length; cbn; lia]. destruct EA as (a0 & b0 & q0 & [= <- <- <-] & L1 & L2 & N & T & K & C & S & Z & V). rewrite app_length in L1. cbn in L1. apply same_split in S; [|rewrite app_length; cbn; lia]. destruct S as [S1 S2]. rewrite app_length in S1, S2. cbn in S1, S2. rewrite (app_nth1 a b) in Z by lia.
      assert (ZS : fraction_of s an az = 0) by (rewrite fraction_nth, (position_out s an MA), nth_overflow by lia; reflexivity).
      assert (ZN : fraction_of s (an ++ [s]) a = nth (length an) a 0) by (rewrite fraction_nth by (rewrite app_length; cbn; lia); now rewrite (position_new s an MA)).
      splits; auto; try (rewrite app_length; cbn; lia).
      * right. splits; auto.
      * intros x Hx. split.
        -- apply fraction_app; auto; [lia|]. intros i Hi. rewrite S1 by lia. apply app_nth1. lia.
        -- rewrite !fraction_nth by auto. apply S2. lia.
      * intros _. rewrite ZS, ZN. splits; auto.
        -- rewrite !fraction_nth by auto. apply S2. lia.
        -- intros ->. destruct (Rltb_spec 0 (nth (length an) a 0)); [discriminate|lra].
      * intros. lra.
    + rewrite insert_charge_cation. replace (length (az ++ cz ++ [w]) - 1)%nat with (length (az ++ cz)) by (rewrite !app_length; cbn; lia). rewrite (app_assoc az cz [w]). rewrite insert_exact by auto. replace ((az ++ cz) ++ 0 :: [w]) with (az ++ (cz ++ [0]) ++ [w]) by (now rewrite <- !app_assoc).
      destruct (ion_balance_adjust_one _ _ _ _ _) as [[[a b] q]|] eqn:EA; [|discriminate]. rewrite (Rltb_true 0 (i_charge s)) by lra. cbn [option_map].
      destruct (match inc with Some true => _ | Some false => _ | None => _ end) eqn:D; [discriminate|]. intros [= <- <- <- <- <-].
      apply adjust_core in EA; auto; [|rewrite !app_length; cbn; lia]. destruct EA as (a0 & b0 & q0 & [= <- <- <-] & L1 & L2 & N & T & K & C & S & Z & V). rewrite app_length in L2. cbn in L2. apply same_split in S; [|lia]. destruct S as [S1 S2]. rewrite (app_nth2 a b) in Z by lia. replace (length an + length cat - length a)%nat with (length cat) in Z by lia.
      assert (ZS : fraction_of s cat cz = 0) by (rewrite fraction_nth, (position_out s cat MC), nth_overflow by lia; reflexivity).
      assert (ZN : fraction_of s (cat ++ [s]) b = nth (length cat) b 0) by (rewrite fraction_nth by (rewrite app_length; cbn; lia); now rewrite (position_new s cat MC)).
      splits; auto; try (rewrite app_length; cbn; lia).
      * right. splits; auto. right. splits; auto. lra.
      * intros x Hx. split.
        -- rewrite !fraction_nth by auto. destruct (Nat.lt_ge_cases (position x an) (length an)) as [L|L]; [apply S1; lia|rewrite !nth_overflow by lia; reflexivity].
        -- apply fraction_app; auto; [lia|]. intros i Hi. rewrite S2 by lia. apply app_nth1. lia.
      * intros. lra.
      * intros _. rewrite ZS, ZN. splits; auto.
        -- rewrite !fraction_nth by auto. rewrite (position_out s an MA), !nth_overflow by lia. reflexivity.
        -- intros ->. destruct (Rltb_spec 0 (nth (length cat) b 0)); [discriminate|lra].
Qed.

(* ---- the whole function, for given mole fractions ---- *)
Section Balance.
Variables (Na Cl : ion) (an cat : list ion) (az cz : list R) (rho : R).
Hypothesis (La : length az = length an) (Lc : length cz = length cat).
Let call := balance_ions Na Cl an cat (Some az) (Some cz) None None rho.
Let w := 1 - lsum (az ++ cz).
Let net := net_charge an cat az cz.
Lemma balance_eq m sel mk : call m sel mk =
  if Rltb (Rabs net) (1 / 10 ^ 7) then IOk (an, cat, (az, cz, w)) else
  let zs := az ++ cz ++ [w] in let keep r := match r with IErr e => IErr e | IOk t => IOk (an, cat, t) end in
  let wrap ion increase := match ion with None => IErr No_ion | Some i => ion_balance_adjust_wrapper (all_charges an cat) zs an cat i increase end in
  match m with
  | Dominant | Decrease_dominant | Increase_dominant | Other_dominant => keep (ion_balance_dominant (products zs (all_charges an cat)) net (all_charges an cat) zs (length an) (length cat) m)
  | Insufficient_increase | Excess_decrease | Cation_adjustment | Anion_adjustment | Other_proportional => keep (ion_balance_proportional (map i_charge an) (map i_charge cat) zs (length an) (length cat) net m)
  | NaCl_increase => wrap (Some (if Rltb net 0 then Na else Cl)) (Some true)
  | NaCl_decrease => wrap (Some (if Rltb 0 net then Na else Cl)) (Some false)
  | Adjust => wrap sel None | Increase => wrap sel (Some true) | Decrease => wrap sel (Some false)
  | Makeup => wrap (option_map (fun p => if Rltb net 0 then snd p else fst p) mk) (Some true)
  | Unrecognized => IErr Bad_method end.
Proof.
  unfold call, balance_ions, ion_fractions. cbv zeta. fold w. rewrite <- app_assoc. fold (all_charges an cat). rewrite (total_charge an cat az cz w La Lc). fold net.
  rewrite (firstn_app_exact az), (skipn_app_exact az), (firstn_app_exact cz) by auto. rewrite app_assoc, last_last. reflexivity.
Qed.
Lemma dominant_unfold m r : ion_balance_dominant (products (az ++ cz ++ [w]) (all_charges an cat)) net (all_charges an cat) (az ++ cz ++ [w]) (length an) (length cat) m = IOk r ->
  exists k, ion_balance_adjust_one (all_charges an cat) (az ++ cz ++ [w]) (length an) (length cat) k = IOk r /\
    let im := products (az ++ cz ++ [w]) (all_charges an cat) in
    (k < length im)%nat /\ 
    ((m = Dominant /\ (lmax im < Rabs (lmin im) /\ nth k im 0 = lmin im \/ Rabs (lmin im) <= lmax im /\ nth k im 0 = lmax im)) \/ (m = Decrease_dominant /\ (net < 0 /\ nth k im 0 = lmin im \/ 0 <= net /\ nth k im 0 = lmax im)) \/ (m = Increase_dominant /\ (net < 0 /\ nth k im 0 = lmax im \/ 0 <= net /\ nth k im 0 = lmin im))).
Proof.
  unfold ion_balance_dominant. set (im := products _ _). assert (NE : im <> []). { unfold im, products, all_charges. destruct az, an; cbn in La; try lia; cbn; try discriminate. destruct cz, cat; cbn in Lc; try lia; cbn; discriminate. }
  destruct (lmax_spec im NE) as [X1 X2]. destruct (lmin_spec im NE) as [Y1 Y2]. apply lindex_spec in X1, Y1.
  destruct m; try discriminate; [destruct (Rltb_spec (lmax im) (Rabs (lmin im)))|destruct (Rltb_spec net 0)|destruct (Rltb_spec net 0)]; intros H; eexists; (split; [exact H|]); cbv zeta; split; try apply X1; try apply Y1;
   [left; split; auto; left|left; split; auto; right|right; left; split; auto; left|right; left; split; auto; right|right; right; split; auto; left|right; right; split; auto; right]; split; try apply X1; try apply Y1; lra.
Qed.
(* Whatever the method, a returned composition sums to one and is electrically neutral, unless the measured one already was to within 1e-7: then it is returned unchanged. *)
Theorem C42_electroneutral m sel mk an' cat' az' cz' zw : call m sel mk = IOk (an', cat', (az', cz', zw)) ->
  total az' + total cz' + zw = 1 /\ length az' = length an' /\ length cz' = length cat' /\
  ((1 / 10 ^ 7 <= Rabs net /\ net_charge an' cat' az' cz' = 0) \/ (Rabs net < 1 / 10 ^ 7 /\ an' = an /\ cat' = cat /\ az' = az /\ cz' = cz)).
Proof.
  rewrite balance_eq. cbv zeta. destruct (Rltb_spec (Rabs net) (1 / 10 ^ 7)) as [E|E].
  - intros [= <- <- <- <- <-]. split; [unfold w; rewrite lsum_app, (lsum_total az), (lsum_total cz); ring|]. split; [auto|]. split; [auto|]. right. splits; auto.
  - assert (E0 := Rnot_lt_le _ _ E). clear E. rename E0 into E.
    assert (KW : forall o inc, match o with None => IErr No_ion | Some i => ion_balance_adjust_wrapper (all_charges an cat) (az ++ cz ++ [w]) an cat i inc end = IOk (an', cat', (az', cz', zw)) -> net_charge an' cat' az' cz' = 0 /\ total az' + total cz' + zw = 1 /\ length az' = length an' /\ length cz' = length cat').
    { intros [i|] inc; [|discriminate]. intros H. apply wrapper_core in H; auto. tauto. }
    assert (KD : forall r, match r with IErr e => IErr e | IOk t => IOk (an, cat, t) end = IOk (an', cat', (az', cz', zw)) -> r = IOk (az', cz', zw) /\ an' = an /\ cat' = cat) by (intros [t|]; [intros [= <- <- ->]; auto|discriminate]).
    assert (KP : forall m, ion_balance_proportional (map i_charge an) (map i_charge cat) (az ++ cz ++ [w]) (length an) (length cat) net m = IOk (az', cz', zw) -> net_charge an cat az' cz' = 0 /\ total az' + total cz' + zw = 1 /\ length az' = length an /\ length cz' = length cat).
    { intros m0 H. apply proportional_core in H; auto. destruct H as (a & b & q & [= <- <- <-] & H1 & H2 & H3). splits; auto; destruct H3 as [(E1 & _ & E2 & _)|(E1 & _ & E2 & _)]; rewrite ?E1; auto; rewrite E2, map_length; auto. }
    assert (KM : forall m, ion_balance_dominant (products (az ++ cz ++ [w]) (all_charges an cat)) net (all_charges an cat) (az ++ cz ++ [w]) (length an) (length cat) m = IOk (az', cz', zw) -> net_charge an cat az' cz' = 0 /\ total az' + total cz' + zw = 1 /\ length az' = length an /\ length cz' = length cat).
    { intros m0 H. apply dominant_unfold in H. destruct H as (k & H & _). apply adjust_core in H; auto. destruct H as (a & b & q & [= <- <- <-] & H). tauto. }
    destruct m; intros H; try discriminate; try (apply KD in H; destruct H as (H & -> & ->)); (apply KM in H || apply KP in H || apply KW in H || apply (KW (Some _)) in H); splits; try tauto; left; split; try tauto.
Qed.
(* the dominant methods change one ion only: the one with the largest charge contribution (of its type) *)
Definition larger_share (k j : nat) : Prop := Rabs (contribution an cat az cz j) <= Rabs (contribution an cat az cz k).
Theorem C42_dominant m sel mk an' cat' az' cz' zw : measured an cat az cz -> m = Dominant \/ m = Decrease_dominant \/ m = Increase_dominant -> 1 / 10 ^ 7 <= Rabs net ->
  call m sel mk = IOk (an', cat', (az', cz', zw)) ->
  an' = an /\ cat' = cat /\ exists k, (k < length an + length cat)%nat /\ same_except (eq k) (az ++ cz) (az' ++ cz') /\ 0 <= nth k (az' ++ cz') 0 /\
  (m = Dominant -> forall j, (j < length an + length cat)%nat -> larger_share k j) /\
  (m = Decrease_dominant -> nth k (az' ++ cz') 0 <= nth k (az ++ cz) 0 /\ ((k < length an)%nat <-> net < 0) /\ forall j, (j < length an + length cat)%nat -> ((j < length an)%nat <-> (k < length an)%nat) -> larger_share k j) /\
  (m = Increase_dominant -> nth k (az ++ cz) 0 <= nth k (az' ++ cz') 0 /\ ((k < length an)%nat <-> 0 < net) /\ forall j, (j < length an + length cat)%nat -> ((j < length an)%nat <-> (k < length an)%nat) -> larger_share k j).
Proof.
  intros HM HMe HN H. rewrite balance_eq in H. cbv zeta in H. rewrite Rltb_false in H by lra.
  assert (KD : ion_balance_dominant (products (az ++ cz ++ [w]) (all_charges an cat)) net (all_charges an cat) (az ++ cz ++ [w]) (length an) (length cat) m = IOk (az', cz', zw) /\ an' = an /\ cat' = cat).
  { destruct HMe as [->|[->| ->]]; destruct (ion_balance_dominant _ _ _ _ _ _ _); try discriminate; injection H as <- <- ->; auto. }
  clear H. destruct KD as (H & -> & ->). splits; auto. apply dominant_unfold in H. cbv zeta in H. set (im := products (az ++ cz ++ [w]) (all_charges an cat)) in *. destruct H as (k & H & KL & HC). exists k.
  apply adjust_core in H; auto. destruct H as (a & b & q & [= <- <- <-] & L1 & L2 & N & T & K & C & S & Z & V). rewrite (charge_nth an cat k K) in C, V. fold net in V.
  assert (LI : length im = (length an + length cat + 1)%nat) by (unfold im; rewrite products_seq by (unfold all_charges; rewrite !app_length, !map_length; cbn; lia); rewrite map_length, seq_length; unfold all_charges; rewrite !app_length, !map_length; cbn; lia).
  assert (NE : im <> []) by (intros E; rewrite E in LI; cbn in LI; lia). destruct (lmax_spec im NE) as [_ X]. destruct (lmin_spec im NE) as [_ Y].
  assert (IM : forall j, (j < length an + length cat)%nat -> nth j im 0 = contribution an cat az cz j) by (intros j Hj; apply impact; auto).
  assert (B : forall j, (j < length an + length cat)%nat -> lmin im <= contribution an cat az cz j <= lmax im). { intros j Hj. rewrite <- IM by auto. split; [apply Y|apply X]; apply nth_In; lia. }
  rewrite (IM k K) in HC.
  assert (SG : forall j, (j < length an + length cat)%nat -> ((j < length an)%nat /\ contribution an cat az cz j <= 0) \/ ((length an <= j)%nat /\ 0 <= contribution an cat az cz j)).
  { intros j Hj. destruct (signs an cat az cz j HM Hj) as [[[J1 J2]|[J1 J2]] J3]; [left|right]; split; auto; unfold contribution; nra. }
  assert (W0 : lmin im <= 0 <= lmax im). { assert (W : nth (length an + length cat) im 0 = 0). { unfold im. rewrite products_seq by (unfold all_charges; rewrite !app_length, !map_length; cbn; lia). set (f := fun i => _). rewrite nth_indep with (d' := f 0%nat) by (rewrite map_length, seq_length; unfold all_charges; rewrite !app_length, !map_length; cbn; lia). rewrite map_nth, seq_nth by (unfold all_charges; rewrite !app_length, !map_length; cbn; lia). unfold f, all_charges. cbn [plus]. rewrite (app_nth2 (map i_charge an)) by (rewrite map_length; lia). rewrite (app_nth2 (map i_charge cat)) by (rewrite !map_length; lia). rewrite !map_length. replace (_ - _ - _)%nat with 0%nat by lia. cbn. ring. }
    rewrite <- W. split; [apply Y|apply X]; apply nth_In; lia. }
  destruct (signs an cat az cz k HM K) as [SK ZK].
  assert (DV : forall c, c <> 0 -> (0 < net / c <-> 0 < net * c) /\ (net / c < 0 <-> net * c < 0)).
  { intros c Hc. assert (E : net * c = net / c * (c * c)) by (field; auto). assert (0 < c * c) by nra. split; split; intros; rewrite ?E in *; nra. }
  destruct (DV _ C) as [DV1 DV2]. set (ck := nth k (map i_charge an ++ map i_charge cat) 0) in *. assert (NZ : net <> 0) by (intros E; rewrite E, Rabs_R0 in HN; assert (0 < 1 / 10 ^ 7) by (apply Rdiv_lt_0_compat; lra); lra).
  splits; auto.
  - intros ->. intros j Hj. unfold larger_share. specialize (B j Hj). destruct HC as [[_ HC]|[[? _]|[? _]]]; try discriminate. unfold Rabs in *. destruct HC as [[HC1 HC2]|[HC1 HC2]]; rewrite HC2; repeat destruct (Rcase_abs _); lra.
  - intros ->. destruct HC as [[? _]|[[_ HC]|[? _]]]; try discriminate.
    assert (SC : (net < 0 /\ (k < length an)%nat /\ ck < 0) \/ (0 < net /\ (length an <= k)%nat /\ 0 < ck)).
    { destruct HC as [[HC1 HC2]|[HC1 HC2]]; destruct SK as [[J1 J2]|[J1 J2]].
      - left; auto.
      - exfalso. (* net < 0 but the chosen one is a cation: all contributions would be >= 0 *) assert (0 <= net); [|lra]. unfold net. rewrite <- (total_charge an cat az cz w La Lc). fold im. assert (G : forall l, (forall x, In x l -> 0 <= x) -> 0 <= lsum l) by (induction l as [|x l IHl]; cbn; intros Hl; [lra|]; pose proof (Hl x (or_introl eq_refl)); specialize (IHl (fun y Hy => Hl y (or_intror Hy))); unfold lsum in *; lra). apply G. intros x Hx. apply Y in Hx. rewrite <- HC2 in Hx. destruct (SG k K) as [[? ?]|[? ?]]; [lia|lra].
      - exfalso. assert (0 >= net); [|lra]. unfold net. rewrite <- (total_charge an cat az cz w La Lc). fold im. assert (G : forall l, (forall x, In x l -> x <= 0) -> lsum l <= 0) by (induction l as [|x l IHl]; cbn; intros Hl; [lra|]; pose proof (Hl x (or_introl eq_refl)); specialize (IHl (fun y Hy => Hl y (or_intror Hy))); unfold lsum in *; lra). apply Rle_ge, G. intros x Hx. apply X in Hx. rewrite <- HC2 in Hx. destruct (SG k K) as [[? ?]|[? ?]]; [lra|lia].
      - right. splits; auto. lra. }
    split; [|split].
    + assert (0 < net / ck) by (apply DV1; destruct SC as [(? & _ & ?)|(? & _ & ?)]; nra). lra.
    + destruct SC as [(? & ? & ?)|(? & ? & ?)]; split; intros; auto; try lra; lia.
    + intros j Hj Hjk. unfold larger_share. specialize (B j Hj). pose proof (SG j Hj). pose proof (SG k K). destruct HC as [[HC1 HC2]|[HC1 HC2]]; destruct SC as [(? & ? & ?)|(? & ? & ?)]; try lra.
      * rewrite !Rabs_left1 by (intuition (lia || lra)). lra.
      * rewrite !Rabs_pos_eq by (intuition (lia || lra)). lra.
  - intros ->. destruct HC as [[? _]|[[? _]|[_ HC]]]; try discriminate.
    assert (SC : (net < 0 /\ (length an <= k)%nat /\ 0 < ck) \/ (0 < net /\ (k < length an)%nat /\ ck < 0)).
    { assert (ZC : contribution an cat az cz k = 0 -> 0 < net / ck -> False). { unfold contribution. fold ck. intros HZ HP. assert (nth k (az ++ cz) 0 = 0) by (apply Rmult_integral in HZ; destruct HZ; [contradiction|auto]). lra. }
      destruct HC as [[HC1 HC2]|[HC1 HC2]]; destruct SK as [[J1 J2]|[J1 J2]].
      - exfalso. apply ZC; [destruct (SG k K) as [[? ?]|[? ?]]; [lra|lia]|apply DV1; nra].
      - left; auto.
      - right. splits; auto. lra.
      - exfalso. apply ZC; [destruct (SG k K) as [[? ?]|[? ?]]; [lia|lra]|apply DV1; nra]. }
    split; [|split].
    + assert (net / ck < 0) by (apply DV2; destruct SC as [(? & _ & ?)|(? & _ & ?)]; nra). lra.
    + destruct SC as [(? & ? & ?)|(? & ? & ?)]; split; intros; auto; try lra; lia.
    + intros j Hj Hjk. unfold larger_share. specialize (B j Hj). pose proof (SG j Hj). pose proof (SG k K). destruct HC as [[HC1 HC2]|[HC1 HC2]]; destruct SC as [(? & ? & ?)|(? & ? & ?)]; try lra.
      * rewrite !Rabs_pos_eq by (intuition (lia || lra)). lra.
      * rewrite !Rabs_left1 by (intuition (lia || lra)). lra.
Qed.
(* the proportional methods scale all ions of one type by one nonnegative factor and leave the others *)
Lemma charge_sign ions zs : (forall i, In i ions -> 0 < i_charge i) -> (forall z, In z zs -> 0 <= z) -> 0 <= charge_of ions zs.
Proof. revert zs. induction ions as [|i ions IH]; intros [|z zs] H1 H2; cbn; try lra. pose proof (H1 i (or_introl eq_refl)). pose proof (H2 z (or_introl eq_refl)). specialize (IH zs (fun x Hx => H1 x (or_intror Hx)) (fun x Hx => H2 x (or_intror Hx))). nra. Qed.
Lemma charge_sign' ions zs : (forall i, In i ions -> i_charge i < 0) -> (forall z, In z zs -> 0 <= z) -> charge_of ions zs <= 0.
Proof. revert zs. induction ions as [|i ions IH]; intros [|z zs] H1 H2; cbn; try lra. pose proof (H1 i (or_introl eq_refl)). pose proof (H2 z (or_introl eq_refl)). specialize (IH zs (fun x Hx => H1 x (or_intror Hx)) (fun x Hx => H2 x (or_intror Hx))). nra. Qed.
Definition proportional m := m = Insufficient_increase \/ m = Excess_decrease \/ m = Cation_adjustment \/ m = Anion_adjustment.
Theorem C42_proportional m sel mk an' cat' az' cz' zw : measured an cat az cz -> proportional m -> 1 / 10 ^ 7 <= Rabs net -> call m sel mk = IOk (an', cat', (az', cz', zw)) ->
  an' = an /\ cat' = cat /\ exists f, 0 <= f /\ (az' = az /\ scaled_by f cz cz' /\ m <> Anion_adjustment \/ cz' = cz /\ scaled_by f az az' /\ m <> Cation_adjustment) /\ (m = Insufficient_increase -> 1 < f) /\ (m = Excess_decrease -> f < 1) /\
   (m = Insufficient_increase -> net < 0 -> az' = az) /\ (m = Insufficient_increase -> 0 < net -> cz' = cz) /\ (m = Excess_decrease -> net < 0 -> cz' = cz) /\ (m = Excess_decrease -> 0 < net -> az' = az).
Proof.
  intros (_ & _ & M1 & M2 & M3 & M4) HM HN H. rewrite balance_eq in H. cbv zeta in H. rewrite Rltb_false in H by lra.
  assert (NZ : net <> 0) by (intros E; rewrite E, Rabs_R0 in HN; assert (0 < 1 / 10 ^ 7) by (apply Rdiv_lt_0_compat; lra); lra).
  assert (KD : ion_balance_proportional (map i_charge an) (map i_charge cat) (az ++ cz ++ [w]) (length an) (length cat) net m = IOk (az', cz', zw) /\ an' = an /\ cat' = cat).
  { destruct HM as [->|[->|[->| ->]]]; destruct (ion_balance_proportional _ _ _ _ _ _ _); try discriminate; injection H as <- <- ->; auto. }
  clear H. destruct KD as (H & -> & ->). splits; auto. apply proportional_core in H; auto. destruct H as (a & b & q & [= <- <- <-] & H1 & H2 & H3).
  pose proof (charge_sign cat cz M2 M4) as S2. pose proof (charge_sign' an az M1 M3) as S1. assert (NE : net = charge_of an az + charge_of cat cz) by reflexivity. set (ca := charge_of an az) in *. set (cc := charge_of cat cz) in *.
  destruct H3 as [(E1 & E2 & E3 & E4)|(E1 & E2 & E3 & E4)].
  - exists (- ca / cc). assert (P : 0 < cc) by lra. assert (Q : forall x, (- ca / cc - x) = (- ca - x * cc) / cc) by (intros; field; auto). assert (I : 0 < / cc) by (now apply Rinv_0_lt_compat).
    splits.
    + apply Rmult_le_pos; lra.
    + left. splits; auto. intros ->. intuition congruence.
    + intros ->. assert (net < 0) by intuition congruence. assert (0 < - ca / cc - 1); [rewrite Q; apply Rdiv_lt_0_compat; lra|lra].
    + intros ->. assert (0 < net) by (intuition (congruence || lra)). assert (0 < 1 - - ca / cc); [|lra]. replace (1 - - ca / cc) with (net / cc) by (rewrite NE; field; auto). now apply Rdiv_lt_0_compat.
    + auto.
    + intros ->. intros. intuition (congruence || lra).
    + intros ->. intros. intuition (congruence || lra).
    + auto.
  - exists (- cc / ca). assert (P : ca < 0) by lra. assert (I : 0 < / - ca) by (apply Rinv_0_lt_compat; lra). assert (F : - cc / ca = cc / - ca) by (field; auto).
    splits.
    + rewrite F. apply Rmult_le_pos; lra.
    + right. splits; auto. intros ->. intuition congruence.
    + intros ->. assert (0 < net) by (intuition (congruence || lra)). assert (0 < - cc / ca - 1); [|lra]. replace (- cc / ca - 1) with (net / - ca) by (rewrite NE; field; auto). apply Rdiv_lt_0_compat; lra.
    + intros ->. assert (net < 0) by (intuition (congruence || lra)). assert (0 < 1 - - cc / ca); [|lra]. replace (1 - - cc / ca) with (- net / - ca) by (rewrite NE; field; auto). apply Rdiv_lt_0_compat; lra.
    + intros ->. intros. intuition (congruence || lra).
    + auto.
    + auto.
    + intros ->. intros. intuition (congruence || lra).
Qed.
(* the methods adjusting one named ion: which ion, and in which direction (None: either) *)
Definition selected_by (m : ion_method) (sel : option ion) (mk : option (ion * ion)) (s : ion) (dir : option bool) : Prop :=
  match m with
  | Adjust => sel = Some s /\ dir = None
  | Increase => sel = Some s /\ dir = Some true
  | Decrease => sel = Some s /\ dir = Some false
  | Makeup => dir = Some true /\ exists a c, mk = Some (a, c) /\ (net < 0 -> s = c) /\ (0 < net -> s = a)
  | NaCl_increase => dir = Some true /\ (net < 0 -> s = Na) /\ (0 < net -> s = Cl)
  | NaCl_decrease => dir = Some false /\ (net < 0 -> s = Cl) /\ (0 < net -> s = Na)
  | _ => False
  end.
Theorem C42_selected_ion m sel mk an' cat' az' cz' zw : m = Adjust \/ m = Increase \/ m = Decrease \/ m = Makeup \/ m = NaCl_increase \/ m = NaCl_decrease -> 1 / 10 ^ 7 <= Rabs net -> call m sel mk = IOk (an', cat', (az', cz', zw)) ->
  exists s dir, selected_by m sel mk s dir /\
  (* the ion is appended to its list when it was not there *)
  ((mem s an || mem s cat = true /\ an' = an /\ cat' = cat) \/ (mem s an = false /\ mem s cat = false /\ (i_charge s < 0 /\ an' = an ++ [s] /\ cat' = cat \/ 0 < i_charge s /\ an' = an /\ cat' = cat ++ [s]))) /\
  (* every other ion keeps its fraction *)
  (forall x, i_id x <> i_id s -> fraction_of x an' az' = fraction_of x an az /\ fraction_of x cat' cz' = fraction_of x cat cz) /\
  (* and the selected one changes in the promised direction *)
  (i_charge s < 0 -> 0 <= fraction_of s an' az' /\ (dir = Some true -> fraction_of s an az <= fraction_of s an' az') /\ (dir = Some false -> fraction_of s an' az' <= fraction_of s an az)) /\
  (0 < i_charge s -> 0 <= fraction_of s cat' cz' /\ (dir = Some true -> fraction_of s cat cz <= fraction_of s cat' cz') /\ (dir = Some false -> fraction_of s cat' cz' <= fraction_of s cat cz)).
Proof.
  intros HM HN H. rewrite balance_eq in H. cbv zeta in H. rewrite Rltb_false in H by lra.
  assert (K : exists s dir, selected_by m sel mk s dir /\ ion_balance_adjust_wrapper (all_charges an cat) (az ++ cz ++ [w]) an cat s dir = IOk (an', cat', (az', cz', zw))).
  { destruct HM as [->|[->|[->|[->|[->| ->]]]]]; cbn [selected_by].
    - destruct sel as [s|]; [|discriminate]. eauto.
    - destruct sel as [s|]; [|discriminate]. eauto.
    - destruct sel as [s|]; [|discriminate]. eauto.
    - destruct mk as [[a c]|]; [|discriminate]. cbn in H. eexists. eexists. split; [|exact H]. split; auto. exists a, c. destruct (Rltb_spec net 0); splits; auto; intros; lra.
    - eexists. eexists. split; [|exact H]. destruct (Rltb_spec net 0); splits; auto; intros; lra.
    - eexists. eexists. split; [|exact H]. destruct (Rltb_spec 0 net); splits; auto; intros; lra. }
  destruct K as (s & dir & K1 & K2). exists s, dir. apply wrapper_core in K2; auto. destruct K2 as (_ & _ & _ & _ & K3 & K4 & K5 & K6). splits; auto; intros X; [apply K5 in X|apply K6 in X]; tauto.
Qed.
End Balance.

(* ---- when the selected ion can balance the solution ---- *)
Lemma adjust_total an cat az cz w k : length az = length an -> length cz = length cat -> (k < length an + length cat)%nat -> nth k (all_charges an cat) 0 <> 0 ->
  let z := nth k (az ++ cz) 0 - net_charge an cat az cz / nth k (all_charges an cat) 0 in
  (0 <= z -> exists r, ion_balance_adjust_one (all_charges an cat) (az ++ cz ++ [w]) (length an) (length cat) k = IOk r) /\
  (z < 0 -> ion_balance_adjust_one (all_charges an cat) (az ++ cz ++ [w]) (length an) (length cat) k = IErr Negative_fraction).
Proof.
  intros H1 H2 HK HC. cbv zeta. unfold ion_balance_adjust_one. set (cs := all_charges an cat) in *. set (zs := az ++ cz ++ [w]).
  assert (LC : length cs = (length an + length cat + 1)%nat) by (unfold cs, all_charges; rewrite !app_length, !map_length; cbn; lia).
  assert (LZ : length zs = (length an + length cat + 1)%nat) by (unfold zs; rewrite !app_length; cbn; lia).
  rewrite Reqb_false by exact HC. set (m := lsum _).
  assert (ME : lsum (products zs cs) = m + nth k zs 0 * nth k cs 0). { rewrite products_seq by lia. unfold m. apply (lsum_pick (fun i => nth i zs 0 * nth i cs 0)). apply seq_NoDup. apply in_seq. lia. }
  assert (TC : lsum (products zs cs) = net_charge an cat az cz) by (apply total_charge; auto). rewrite TC in ME.
  assert (NK : nth k zs 0 = nth k (az ++ cz) 0) by (unfold zs; rewrite app_assoc; apply app_nth1; rewrite app_length; lia). rewrite NK in ME.
  replace (nth k (az ++ cz) 0 - net_charge an cat az cz / nth k cs 0) with (- m / nth k cs 0) by (rewrite ME; field; exact HC).
  split; intros Z; [rewrite Rltb_false by lra; eauto|rewrite Rltb_true by lra; reflexivity].
Qed.
Lemma mem_in s l : mem s l = true -> (forall x y, In x (s :: l) -> In y (s :: l) -> i_id x = i_id y -> x = y) -> In s l /\ nth (position s l) (map i_charge l) 0 = i_charge s.
Proof.
  intros M U. assert (K : exists x, In x l /\ i_id x = i_id s /\ nth (position s l) (map i_charge l) 0 = i_charge x).
  { clear U. induction l as [|y l IH]; cbn in *; [discriminate|]. destruct (Nat.eqb_spec (i_id y) (i_id s)) as [E|E]; cbn in *; [exists y; auto|]. destruct (IH M) as (x & X1 & X2 & X3). exists x; auto. }
  destruct K as (x & X1 & X2 & X3). assert (x = s) as -> by (apply U; cbn; auto). auto.
Qed.
(* With 'adjust', the call succeeds exactly when the fraction the selected ion would need is not negative. *)
Theorem C42_adjust_succeeds Na Cl an cat az cz rho s mk : measured an cat az cz -> i_charge s <> 0 ->
  (forall x y, In x (s :: an ++ cat) -> In y (s :: an ++ cat) -> i_id x = i_id y -> x = y) -> 1 / 10 ^ 7 <= Rabs (net_charge an cat az cz) ->
  let old := if Rltb (i_charge s) 0 then fraction_of s an az else fraction_of s cat cz in
  let need := old - net_charge an cat az cz / i_charge s in
  (0 <= need -> exists r, balance_ions Na Cl an cat (Some az) (Some cz) None None rho Adjust (Some s) mk = IOk r) /\
  (need < 0 -> balance_ions Na Cl an cat (Some az) (Some cz) None None rho Adjust (Some s) mk = IErr Negative_fraction).
Proof.
  intros (La & Lc & M1 & M2 & M3 & M4) HS HU HN. cbv zeta. rewrite balance_eq by auto. cbv zeta. rewrite (Rltb_false (Rabs (net_charge an cat az cz)) (1 / 10 ^ 7)) by lra. set (w := 1 - lsum (az ++ cz)).
  unfold ion_balance_adjust_wrapper. rewrite Reqb_false by exact HS.
  destruct (mem s an) eqn:MA; [|destruct (mem s cat) eqn:MC]; cbn [negb andb orb].
  - destruct (mem_in s an MA) as [IA NA]. { intros x y Hx Hy. apply HU; cbn in *; rewrite in_app_iff; tauto. } pose proof (position_in _ _ MA) as PA.
    rewrite (Rltb_true (i_charge s) 0) by auto. rewrite (Rltb_false 0 (i_charge s)) by (apply Rlt_le; auto).
    assert (CN : nth (position s an) (all_charges an cat) 0 = i_charge s) by (unfold all_charges; rewrite app_nth1 by (now rewrite map_length); exact NA).
    destruct (adjust_total an cat az cz w (position s an) La Lc) as [A1 A2]; [lia|now rewrite CN|]. rewrite CN in A1, A2. rewrite app_nth1 in A1, A2 by lia. rewrite fraction_nth by auto. split; intros Z; [destruct (A1 Z) as [[[a b] q] ->]; cbn; eauto|rewrite (A2 Z); reflexivity].
  - destruct (mem_in s cat MC) as [IA NA]. { intros x y Hx Hy. apply HU; cbn in *; rewrite in_app_iff; tauto. } pose proof (position_in _ _ MC) as PA.
    rewrite (Rltb_false (i_charge s) 0) by (apply Rlt_le; auto). rewrite (Rltb_true 0 (i_charge s)) by auto.
    assert (CN : nth (length an + position s cat) (all_charges an cat) 0 = i_charge s) by (unfold all_charges; rewrite app_nth2 by (rewrite map_length; lia); rewrite map_length, app_nth1 by (rewrite map_length; lia); replace (_ - _)%nat with (position s cat) by lia; exact NA).
    destruct (adjust_total an cat az cz w (length an + position s cat) La Lc) as [A1 A2]; [lia|now rewrite CN|]. rewrite CN in A1, A2. rewrite app_nth2 in A1, A2 by lia. replace (length an + position s cat - length az)%nat with (position s cat) in A1, A2 by lia. rewrite fraction_nth by auto. split; intros Z; [destruct (A1 Z) as [[[a b] q] ->]; cbn; eauto|rewrite (A2 Z); reflexivity].
  - destruct (Rltb_spec (i_charge s) 0) as [F|F].
    + rewrite insert_charge_anion. rewrite insert_exact by auto. replace (az ++ 0 :: cz ++ [w]) with ((az ++ [0]) ++ cz ++ [w]) by (now rewrite <- app_assoc). rewrite (Rltb_false 0 (i_charge s)) by lra.
      assert (CN : nth (length an) (all_charges (an ++ [s]) cat) 0 = i_charge s) by (unfold all_charges; rewrite app_nth1 by (rewrite map_length, app_length; cbn; lia); rewrite map_app, app_nth2 by (rewrite map_length; lia); rewrite map_length, Nat.sub_diag; reflexivity).
      assert (NT : net_charge (an ++ [s]) cat (az ++ [0]) cz = net_charge an cat az cz). { unfold net_charge. f_equal. clear - La. revert az La. induction an as [|i l IH]; intros [|z zs] L; try discriminate; cbn; [ring|]. rewrite IH by (cbn in L; lia). reflexivity. }
      destruct (adjust_total (an ++ [s]) cat (az ++ [0]) cz w (length an)) as [A1 A2]; [rewrite !app_length; cbn; lia|auto|rewrite app_length; cbn; lia|now rewrite CN|]. rewrite CN, NT in A1, A2. rewrite (app_nth1 (az ++ [0])), app_nth2 in A1, A2 by (rewrite ?app_length; cbn; lia). replace (length an - length az)%nat with 0%nat in A1, A2 by lia. cbn [nth] in A1, A2.
      rewrite fraction_nth, (position_out s an MA), nth_overflow by lia. split; intros Z; [destruct (A1 Z) as [[[a b] q] ->]; cbn; eauto|rewrite (A2 Z); reflexivity].
    + rewrite insert_charge_cation. replace (length (az ++ cz ++ [w]) - 1)%nat with (length (az ++ cz)) by (rewrite !app_length; cbn; lia). rewrite (app_assoc az cz [w]). rewrite insert_exact by auto. replace ((az ++ cz) ++ 0 :: [w]) with (az ++ (cz ++ [0]) ++ [w]) by (now rewrite <- !app_assoc). rewrite (Rltb_true 0 (i_charge s)) by lra.
      assert (CN : nth (length an + length cat) (all_charges an (cat ++ [s])) 0 = i_charge s) by (unfold all_charges; rewrite app_nth2 by (rewrite map_length; lia); rewrite map_length, app_nth1 by (rewrite map_length, app_length; cbn; lia); rewrite map_app, app_nth2 by (rewrite map_length; lia); rewrite map_length; replace (_ - _)%nat with 0%nat by lia; reflexivity).
      assert (NT : net_charge an (cat ++ [s]) az (cz ++ [0]) = net_charge an cat az cz). { unfold net_charge. f_equal. clear - Lc. revert cz Lc. induction cat as [|i l IH]; intros [|z zs] L; try discriminate; cbn; [ring|]. rewrite IH by (cbn in L; lia). reflexivity. }
      destruct (adjust_total an (cat ++ [s]) az (cz ++ [0]) w (length an + length cat)) as [A1 A2]; [auto|rewrite !app_length; cbn; lia|rewrite app_length; cbn; lia|now rewrite CN|]. rewrite CN, NT in A1, A2. rewrite (app_nth2 az), app_nth2 in A1, A2 by lia. replace (length an + length cat - length az - length cz)%nat with 0%nat in A1, A2 by lia. cbn [nth] in A1, A2.
      rewrite fraction_nth, (position_out s cat MC), nth_overflow by lia. split; intros Z; [destruct (A1 Z) as [[[a b] q] ->]; cbn; eauto|rewrite (A2 Z); reflexivity].
Qed.

(* ---- concentrations ---- *)
Lemma lsum_scale m l : lsum (map (fun x => x * m) l) = lsum l * m.
Proof. induction l as [|x l IH]; cbn [map]; [cbn; ring|]. rewrite !lsum_cons, IH. ring. Qed.
Theorem C42_concentrations Na Cl an cat azo czo ac cc rho m sel mk : length ac = length an -> length cc = length cat -> rho <> 0 -> (forall i, In i (an ++ cat) -> i_MW i <> 0) ->
  let moles := total (ion_moles an ac) + total (ion_moles cat cc) + water_moles ac cc rho in moles <> 0 ->
  balance_ions Na Cl an cat azo czo (Some ac) (Some cc) rho m sel mk =
  balance_ions Na Cl an cat (Some (map (fun n => n / moles) (ion_moles an ac))) (Some (map (fun n => n / moles) (ion_moles cat cc))) None None rho m sel mk.
Proof.
  intros H1 H2 HR HW moles HM. unfold balance_ions, ion_fractions. cbv zeta.
  set (ws := map (fun i => i * (1 / 1000000) / (rho * (1 / 1000)))).
  assert (WM : forall ions cs, length cs = length ions -> (forall i, In i ions -> i_MW i <> 0) -> map (fun p => fst p / snd p) (combine (ws cs) (map i_MW ions)) = map (fun n => n * / rho) (ion_moles ions cs)).
  { clear -HR. unfold ws, ion_moles. induction ions as [|i ions IH]; intros [|c cs] L HW; try discriminate; cbn; auto. f_equal; [field; split; auto; apply HW; left; auto|]. apply IH; [cbn in L; lia|intros; apply HW; right; auto]. }
  assert (WS : forall cs, lsum (ws cs) = total cs / 1000 / rho). { clear -HR. unfold ws. induction cs as [|c cs IH]; cbn [map total]; [cbn; field; auto|]. rewrite lsum_cons, IH. field. auto. }
  assert (E : ws_to_zs (ws ac ++ ws cc ++ [1 - lsum (ws ac) - lsum (ws cc)]) (map i_MW an ++ map i_MW cat ++ [18.01528]) =
     (map (fun n => n / moles) (ion_moles an ac) ++ map (fun n => n / moles) (ion_moles cat cc)) ++ [1 - lsum (map (fun n => n / moles) (ion_moles an ac) ++ map (fun n => n / moles) (ion_moles cat cc))]).
  { unfold ws_to_zs. cbv zeta.
    assert (L : map (fun p => fst p / snd p) (combine (ws ac ++ ws cc ++ [1 - lsum (ws ac) - lsum (ws cc)]) (map i_MW an ++ map i_MW cat ++ [18.01528])) = map (fun n => n * / rho) (ion_moles an ac ++ ion_moles cat cc ++ [water_moles ac cc rho])).
    { assert (CA : forall (a b c d : list R), length a = length c -> combine (a ++ b) (c ++ d) = combine a c ++ combine b d) by (clear; induction a as [|x a IH]; intros b [|y c] d H; try discriminate; cbn; auto; rewrite IH; auto).
      rewrite CA by (unfold ws; now rewrite !map_length). rewrite CA by (unfold ws; now rewrite !map_length). rewrite !map_app, !WM by (auto; intros; apply HW, in_or_app; auto). do 2 f_equal. cbn. f_equal. rewrite !WS. unfold water_moles. field. split; auto; lra. }
    rewrite L, lsum_scale, map_map. assert (SM : lsum (ion_moles an ac ++ ion_moles cat cc ++ [water_moles ac cc rho]) = moles) by (rewrite !lsum_app, (lsum_total (ion_moles an ac)), (lsum_total (ion_moles cat cc)); unfold moles; cbn; ring). rewrite SM.
    rewrite (map_ext _ (fun n => n / moles)) by (intros x; field; auto). rewrite !map_app, <- app_assoc. do 2 f_equal. cbn [map]. f_equal. rewrite lsum_app, !(lsum_scale (/ moles)). rewrite (lsum_total (ion_moles an ac)), (lsum_total (ion_moles cat cc)). unfold moles in *. field. exact HM. }
  rewrite E. reflexivity.
Qed.

(* ---- limits of the claim ---- *)
Definition mkion k c : ion := Build_ion k c 20.
Definition sodium := mkion 0 1.
Definition chloride := mkion 1 (-1).
Definition magnesium := mkion 2 2.
(* an imbalance below 1e-7 is not corrected *)
Theorem C42_tolerance_refuted : exists an cat az cz m r, measured an cat az cz /\ balance_ions sodium chloride an cat (Some az) (Some cz) None None 997 m None None = IOk (an, cat, (az, cz, r)) /\ net_charge an cat az cz <> 0.
Proof.
  exists [chloride], [sodium], [/ 100], [/ 100 + / 10 ^ 8], Dominant, (1 - lsum ([/ 100] ++ [/ 100 + / 10 ^ 8])). assert (P : 0 < / 10 ^ 8) by (apply Rinv_0_lt_compat; lra).
  assert (N : net_charge [chloride] [sodium] [/ 100] [/ 100 + / 10 ^ 8] = / 10 ^ 8) by (unfold net_charge; cbn [charge_of chloride sodium mkion i_charge]; ring). splits.
  - unfold measured. splits; auto; intros ? [<-|[]]; cbn [chloride sodium mkion i_charge]; lra.
  - rewrite balance_eq by reflexivity. rewrite N, Rabs_pos_eq by lra. rewrite Rltb_true; [reflexivity|]. lra.
  - rewrite N. lra.
Qed.
Ltac dec_all := repeat match goal with |- context[Rltb ?a ?b] => first [rewrite (Rltb_true a b) by lra|rewrite (Rltb_false a b) by lra] | |- context[Reqb ?a ?b] => first [rewrite (Reqb_true a b) by lra|rewrite (Reqb_false a b) by lra] end.
(* 'dominant' adjusts the ion with the largest charge contribution, not the one with the largest mole fraction (as documented) *)
Theorem C42_dominant_largest_fraction_refuted : exists an cat az cz az' cz' zw, measured an cat az cz /\ 1 / 10 ^ 7 <= Rabs (net_charge an cat az cz) /\
  balance_ions sodium chloride an cat (Some az) (Some cz) None None 997 Dominant None None = IOk (an, cat, (az', cz', zw)) /\ exists k j, nth k (az' ++ cz') 0 <> nth k (az ++ cz) 0 /\ nth k (az ++ cz) 0 < nth j (az ++ cz) 0.
Proof.
  exists [chloride], [sodium; magnesium], [1/10], [1/100; 6/100], [1/10], [1/100; 45/1000]. eexists.
  assert (N : net_charge [chloride] [sodium; magnesium] [1/10] [1/100; 6/100] = 3/100) by (unfold net_charge; cbn [charge_of chloride sodium magnesium mkion i_charge]; lra). splits.
  - unfold measured. splits; auto; cbn [In]; intros ? HI; repeat (destruct HI as [<-|HI]; [cbn [chloride sodium magnesium mkion i_charge]; lra|]); destruct HI.
  - rewrite N, Rabs_pos_eq; lra.
  - rewrite balance_eq by reflexivity. cbv zeta. rewrite N, Rabs_pos_eq, Rltb_false by lra. unfold ion_balance_dominant, ion_balance_adjust_one, products, all_charges, lmin, lmax. cbn [chloride sodium magnesium mkion i_charge map app combine fst snd fold_left length].
    dec_all. rewrite Rabs_left by lra. dec_all. unfold lindex. dec_all. cbn [nth seq Nat.add filter Nat.eqb negb map lsum fold_right replace firstn skipn]. dec_all.
    match goal with |- IOk (_, _, (_, [_; ?x], _)) = _ => replace x with (45/1000) by lra end. reflexivity.
  - exists 2%nat, 0%nat. cbn [nth app]. split; lra.
Qed.

Example C42_hypotheses_met : measured [chloride] [sodium; magnesium] [1/10] [1/100; 6/100] /\ 1 / 10 ^ 7 <= Rabs (net_charge [chloride] [sodium; magnesium] [1/10] [1/100; 6/100]) /\
  (exists r, balance_ions sodium chloride [chloride] [sodium; magnesium] (Some [1/10]) (Some [1/100; 6/100]) None None 997 Adjust (Some chloride) None = IOk r) /\
  (exists r, balance_ions sodium chloride [chloride] [sodium; magnesium] (Some [1/10]) (Some [1/100; 6/100]) None None 997 Anion_adjustment None None = IOk r).
Proof.
  assert (N : net_charge [chloride] [sodium; magnesium] [1/10] [1/100; 6/100] = 3/100) by (unfold net_charge; cbn [charge_of chloride sodium magnesium mkion i_charge]; lra).
  assert (M : measured [chloride] [sodium; magnesium] [1/10] [1/100; 6/100]) by (unfold measured; splits; auto; cbn [In]; intros ? HI; repeat (destruct HI as [<-|HI]; [cbn [chloride sodium magnesium mkion i_charge]; lra|]); destruct HI).
  splits; auto.
  - rewrite N, Rabs_pos_eq; lra.
  - apply (C42_adjust_succeeds sodium chloride [chloride] [sodium; magnesium] [1/10] [1/100; 6/100] 997 chloride None M).
    + cbn; lra.
    + intros x y Hx Hy; cbn in Hx, Hy; intuition; subst; auto; discriminate.
    + rewrite N, Rabs_pos_eq; lra.
    + rewrite N. cbn [chloride mkion i_charge]. rewrite Rltb_true by lra. cbn. lra.
  - rewrite balance_eq by reflexivity. cbv zeta. rewrite N, Rabs_pos_eq, Rltb_false by lra. unfold ion_balance_proportional. cbn [chloride sodium magnesium mkion i_charge map app firstn skipn length products combine fst snd lsum fold_right].
    rewrite Reqb_false by lra. eauto.
Qed.
