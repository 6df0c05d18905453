(* Closed forms of the UNIFAC routines: the entries of the arrays their loops fill. *)
From Coq Require Import Reals Lra Lia Arith Bool FunctionalExtensionality.
From Verif Require Import Base BaseFacts MixFacts MixDeriv NrtlFacts Gen_unifac.
Open Scope R_scope.

(* step k of a loop sets an observation, the other steps leave it *)
Lemma loop_keep {S A} n (step : nat -> S -> S) (pr : S -> A) s : (forall i s, (i < n)%nat -> pr (step i s) = pr s) -> pr (loop n step s) = pr s.
Proof. intros H. induction n; auto. cbn [loop]. rewrite H by lia. apply IHn. intros; apply H; lia. Qed.
Lemma loop_set {S A} n (step : nat -> S -> S) (pr : S -> A) k v s : (k < n)%nat -> (forall s, pr (step k s) = v) -> (forall i s, (i < n)%nat -> i <> k -> pr (step i s) = pr s) -> pr (loop n step s) = v.
Proof.
  intros Hk H1 H2. induction n; [lia|]. cbn [loop]. destruct (Nat.eq_dec k n) as [->|Hn]; [apply H1|].
  rewrite H2 by lia. apply IHn; [lia|]. intros; apply H2; lia.
Qed.
Lemma loop_updm_rect {A} n m (f : nat -> nat -> A) o k l : (k < n)%nat -> (l < m)%nat -> loop n (fun i o => loop m (fun j o => updm o i j (f i j)) o) o k l = f k l.
Proof. intros. rewrite loop_updm, !ltb_lt' by auto. reflexivity. Qed.
Lemma upd_eq {A} (a : nat -> A) i v : upd a i v i = v. Proof. unfold upd. now rewrite Nat.eqb_refl. Qed.
Lemma updm_eq {A} (a : nat -> nat -> A) i j v : updm a i j v i j = v. Proof. unfold updm. now rewrite !Nat.eqb_refl. Qed.
Lemma updt_eq {A} (a : nat -> nat -> nat -> A) i j k v : updt a i j k v i j k = v. Proof. unfold updt. now rewrite !Nat.eqb_refl. Qed.
Lemma updq_eq {A} (a : nat -> nat -> nat -> nat -> A) i j k l v : updq a i j k l v i j k l = v. Proof. unfold updq. now rewrite !Nat.eqb_refl. Qed.
Lemma upd_ne {A} (a : nat -> A) i v p : i <> p -> upd a i v p = a p.
Proof. intros H. unfold upd. destruct (Nat.eqb_spec p i); auto. congruence. Qed.
Lemma updm_ne {A} (a : nat -> nat -> A) i j v p q : i <> p \/ j <> q -> updm a i j v p q = a p q.
Proof. intros H. unfold updm. destruct (Nat.eqb_spec p i), (Nat.eqb_spec q j); auto. subst. destruct H; congruence. Qed.
Lemma updt_ne {A} (a : nat -> nat -> nat -> A) i j k v p q r : i <> p \/ j <> q \/ k <> r -> updt a i j k v p q r = a p q r.
Proof. intros H. unfold updt. destruct (Nat.eqb_spec p i), (Nat.eqb_spec q j), (Nat.eqb_spec r k); auto. subst. destruct H as [H|[H|H]]; congruence. Qed.
Lemma updq_ne {A} (a : nat -> nat -> nat -> nat -> A) i j k l v p q r s : i <> p \/ j <> q \/ k <> r \/ l <> s -> updq a i j k l v p q r s = a p q r s.
Proof. intros H. unfold updq. destruct (Nat.eqb_spec p i), (Nat.eqb_spec q j), (Nat.eqb_spec r k), (Nat.eqb_spec s l); auto. subst. destruct H as [H|[H|[H|H]]]; congruence. Qed.
Ltac une := first [rewrite upd_ne by auto | rewrite updm_ne by auto | rewrite updt_ne by auto | rewrite updq_ne by auto].
Lemma loop_updt_rect {A} n m l (f : nat -> nat -> nat -> A) o i j k : (i < n)%nat -> (j < m)%nat -> (k < l)%nat ->
  loop n (fun i o => loop m (fun j o => loop l (fun k o => updt o i j k (f i j k)) o) o) o i j k = f i j k.
Proof.
  intros Hi Hj Hk. apply (loop_set n _ (fun o => o i j k) i (f i j k) o Hi).
  - intros o1. apply (loop_set m _ (fun o => o i j k) j (f i j k) o1 Hj).
    + intros o2. apply (loop_set l _ (fun o => o i j k) k (f i j k) o2 Hk). intros; apply updt_eq. intros; apply updt_ne; auto.
    + intros j' o2 _ Hne. apply (loop_keep l _ (fun o => o i j k) o2). intros; apply updt_ne; auto.
  - intros i' o1 _ Hne. apply (loop_keep m _ (fun o => o i j k) o1). intros j' o2 _. apply (loop_keep l _ (fun o => o i j k) o2). intros; apply updt_ne; auto.
Qed.
Lemma loop_updq_rect {A} n (f : nat -> nat -> nat -> nat -> A) o i j k p : (i < n)%nat -> (j < n)%nat -> (k < n)%nat -> (p < n)%nat ->
  loop n (fun i o => loop n (fun j o => loop n (fun k o => loop n (fun p o => updq o i j k p (f i j k p)) o) o) o) o i j k p = f i j k p.
Proof.
  intros Hi Hj Hk Hp. apply (loop_set n _ (fun o => o i j k p) i (f i j k p) o Hi).
  - intros o1. apply (loop_set n _ (fun o => o i j k p) j (f i j k p) o1 Hj).
    + intros o2. apply (loop_set n _ (fun o => o i j k p) k (f i j k p) o2 Hk).
      * intros o3. apply (loop_set n _ (fun o => o i j k p) p (f i j k p) o3 Hp). intros; apply updq_eq. intros; apply updq_ne; auto.
      * intros k' o3 _ Hne. apply (loop_keep n _ (fun o => o i j k p) o3). intros; apply updq_ne; auto.
    + intros j' o2 _ Hne. apply (loop_keep n _ (fun o => o i j k p) o2). intros k' o3 _. apply (loop_keep n _ (fun o => o i j k p) o3). intros; apply updq_ne; auto.
  - intros i' o1 _ Hne. apply (loop_keep n _ (fun o => o i j k p) o1). intros j' o2 _. apply (loop_keep n _ (fun o => o i j k p) o2). intros k' o3 _. apply (loop_keep n _ (fun o => o i j k p) o3). intros; apply updq_ne; auto.
Qed.
Ltac ents :=
  cbv beta zeta;
  repeat match goal with
  | |- context [loop ?n (fun x_ o => loop ?n (fun y_ o' => loop ?n (fun z_ o'' => loop ?n (fun w_ o''' => updq o''' x_ y_ z_ w_ (@?f x_ y_ z_ w_)) o'') o') o) ?u ?a ?b ?c ?d] =>
      rewrite (loop_updq_rect n f u a b c d) by auto; cbv beta
  | |- context [loop ?n (fun x_ o => loop ?m (fun y_ o' => loop ?l (fun z_ o'' => updt o'' x_ y_ z_ (@?f x_ y_ z_)) o') o) ?w ?a ?b ?c] =>
      rewrite (loop_updt_rect n m l f w a b c) by auto; cbv beta
  | |- context [loop ?n (fun x_ o => loop ?m (fun y_ o' => updm o' x_ y_ (@?f x_ y_)) o) ?w ?a ?b] =>
      rewrite (loop_updm_rect n m f w a b) by auto; cbv beta
  | |- context [loop ?n (fun x_ o => upd o x_ (@?f x_)) ?w ?a] => rewrite (loop_upd_lt n f w a) by auto; cbv beta
  | |- context [loop ?n (fun x_ o => o + @?f x_) ?w] => rewrite (loop_rsum n f w); cbv beta
  | |- context [loop ?n (fun x_ o => o - @?f x_) ?w] => rewrite (loop_rsub n f w); cbv beta
  end; rewrite ?Rplus_0_l, ?Rminus_0_l.

Section Forms.
Context (N g : nat).
Implicit Types (i j k : nat).

Definition lyngby (version : nat) : bool := (version =? 4)%nat || (version =? 5)%nat.
Lemma psis_form T version a b c o i j : (i < g)%nat -> (j < g)%nat -> unifac_psis T g version a b c o i j =
  if lyngby version then exp (- 1 / T * (a i j + b i j * (T - 5963 / 20) + c i j * (T * ln (5963 / 20 / T) + T - 5963 / 20))) else exp (a i j * (- 1 / T) - b i j - c i j * T).
Proof. intros Hi Hj. unfold unifac_psis, lyngby. destruct (_ || _); ents; reflexivity. Qed.
Lemma dpsis_form T version a b c p o i j : (i < g)%nat -> (j < g)%nat -> unifac_dpsis_dT T g version a b c p o i j =
  if lyngby version then p i j * ((- 1 / T + (T - 5963 / 20) * (- 1 / T * (- 1 / T))) * b i j + c i j * (ln (5963 / 20 / T) * (- 1 / T) + (T * ln (5963 / 20 / T) + T - 5963 / 20) * (- 1 / T * (- 1 / T))) + a i j * (- 1 / T * (- 1 / T)))
  else p i j * (a i j * (1 / (T * T)) - c i j).
Proof. intros Hi Hj. unfold unifac_dpsis_dT, lyngby. destruct (_ || _); ents; reflexivity. Qed.
Lemma d2psis_form T version a b c p o i j : (i < g)%nat -> (j < g)%nat -> unifac_d2psis_dT2 T g version a b c p o i j =
  if lyngby version then let tf2 := a i j + b i j * (T - 5963 / 20) + c i j * (T * ln (5963 / 20 / T) + T - 5963 / 20) in let tf3 := b i j + c i j * ln (5963 / 20 / T) in
    1 / T * (1 / T) * p i j * (c i j + 2 * tf3 + (tf3 - tf2 * (1 / T)) * (tf3 - tf2 * (1 / T)) - 2 * tf2 * (1 / T))
  else ((c i j + - 1 / (T * T) * a i j) * (c i j + - 1 / (T * T) * a i j) + - 2 / (T * T * T) * a i j) * p i j.
Proof. intros Hi Hj. unfold unifac_d2psis_dT2, lyngby. destruct (_ || _); ents; reflexivity. Qed.
Lemma d3psis_form T version a b c p o i j : (i < g)%nat -> (j < g)%nat -> unifac_d3psis_dT3 T g version a b c p o i j =
  if lyngby version then let tf2 := a i j + b i j * (T - 5963 / 20) + c i j * (T * ln (5963 / 20 / T) + T - 5963 / 20) in let tf3 := b i j + c i j * ln (5963 / 20 / T) in let x6 := tf2 * (1 / T) in let x5 := tf3 - x6 in
    - (1 / T) * (1 / T) * (1 / T) * p i j * (4 * c i j + 6 * tf3 + x5 * x5 * x5 + 3 * x5 * (c i j + tf3 + tf3 - 2 * x6) - 6 * x6)
  else let x0 := c i j + - 1 / (T * T) * a i j in (x0 * (6 / (T * T * T) * a i j - x0 * x0) + 6 / (T * T * T * T) * a i j) * p i j.
Proof. intros Hi Hj. unfold unifac_d3psis_dT3, lyngby. destruct (_ || _); ents; reflexivity. Qed.

Lemma Vis_form r x o : snd (unifac_Vis r x N o) = 1 / rsum N (fun i => r i * x i) /\ forall i, (i < N)%nat -> fst (unifac_Vis r x N o) i = r i * (1 / rsum N (fun i => r i * x i)).
Proof. unfold unifac_Vis. ents. split; [reflexivity|]. intros i Hi. cbn [fst]. ents. reflexivity. Qed.
Lemma dVis_form r z o i j : (i < N)%nat -> (j < N)%nat -> unifac_dVis_dxs r z N o i j = r i * (- z * z) * r j.
Proof. intros. unfold unifac_dVis_dxs. ents. reflexivity. Qed.
Lemma d2Vis_form r z o i j k : (i < N)%nat -> (j < N)%nat -> (k < N)%nat -> unifac_d2Vis_dxixjs r z N o i j k = r i * (2 * z * z * z) * r j * r k.
Proof. intros. unfold unifac_d2Vis_dxixjs. ents. reflexivity. Qed.
Lemma d3Vis_form r z o i j k l : (i < N)%nat -> (j < N)%nat -> (k < N)%nat -> (l < N)%nat -> unifac_d3Vis_dxixjxks r z N o i j k l = r i * (- 6 * z * z * z * z) * r j * r k * r l.
Proof. intros. unfold unifac_d3Vis_dxixjxks. ents. reflexivity. Qed.

Lemma loop_upd_scale (a : R) : forall n o k, (k < n)%nat -> loop n (fun i (X : nat -> R) => upd X i (X i * a)) o k = o k * a.
Proof.
  assert (K : forall n o k, (n <= k)%nat -> loop n (fun i (X : nat -> R) => upd X i (X i * a)) o k = o k).
  { intros n o k Hk. apply (loop_keep n _ (fun X => X k) o). intros; apply upd_ne; lia. }
  induction n; intros; [lia|]. cbn [loop]. destruct (Nat.eq_dec k n) as [->|Hn]. rewrite upd_eq, K by lia. reflexivity.
  rewrite upd_ne by lia. apply IHn. lia.
Qed.
Lemma Xs_form x vs o : let W k := rsum N (fun j => vs k j * x j) in
  snd (unifac_Xs N g x vs o) = 1 / rsum g W /\ forall k, (k < g)%nat -> fst (unifac_Xs N g x vs o) k = W k * (1 / rsum g W).
Proof.
  intros W. unfold unifac_Xs. cbv zeta.
  rewrite (loop_ext g _ (fun i st => let '(b, a) := st in (upd b i (W i), a + W i))).
  2:{ intros i [a b] _. rewrite (loop_rsum N (fun j => vs i j * x j)), Rplus_0_l. reflexivity. }
  assert (E : loop g (fun i (st : (nat -> R) * R) => let '(b, a) := st in (upd b i (W i), a + W i)) (o, 0) = (loop g (fun i b => upd b i (W i)) o, loop g (fun i a => a + W i) 0)).
  { clear. generalize o, 0. induction g; intros; cbn [loop]; auto. rewrite IHn. reflexivity. }
  rewrite E. rewrite (loop_rsum g W), Rplus_0_l. cbn [fst snd]. split; [reflexivity|]. intros k Hk.
  rewrite loop_upd_scale by auto. rewrite (loop_upd_lt g W) by auto. reflexivity.
Qed.
Lemma Thetas_form X Q o : let S := rsum g (fun k => X k * Q k) in
  snd (unifac_Thetas g X Q o) = 1 / S /\ forall k, (k < g)%nat -> fst (unifac_Thetas g X Q o) k = Q k * X k * (1 / S).
Proof. intros S. unfold unifac_Thetas. ents. split; [reflexivity|]. intros i Hi. cbn [fst]. ents. reflexivity. Qed.
Lemma dThetas_form Q vs VS VX F G o o1 m i : (m < g)%nat -> (i < N)%nat -> unifac_dThetas_dxs g N Q vs VS VX F G o o1 m i =
  F * G * Q m * (VX m * (F * (G * (rsum g (fun k => Q k * VX k) * F * VS i + - rsum g (fun k => Q k * vs k i)) - VS i)) + vs m i).
Proof. intros. unfold unifac_dThetas_dxs. ents. reflexivity. Qed.
Lemma d2Thetas_form Q vs VS VX F G o o1 j k i : (j < N)%nat -> (k < N)%nat -> (i < g)%nat -> unifac_d2Thetas_dxixjs g N Q vs VS VX F G o o1 j k i =
  let I := 1 / rsum g (fun i => Q i * VX i) in
  let u j := rsum g (fun n => Q n * (- F * VS j * VX n + vs n j)) in
  let t := rsum g (fun n => Q n * (VS j * (- 2 * F * VS k * VX n + vs n k) + VS k * vs n j)) * F * I in
  (- F * (VS j * vs i k + VS k * vs i j) + VX i * t + 2 * F * F * VS j * VS k * VX i +
   I * (2 * I * VX i * u j * u k - vs i j * u k - vs i k * u j + F * VX i * (VS j * u k + VS k * u j))) * Q i * I.
Proof. intros. unfold unifac_d2Thetas_dxixjs. ents. reflexivity. Qed.
Lemma VSXS_form vs x o k : (k < g)%nat -> unifac_VSXS N g vs x o k = rsum N (fun j => vs k j * x j).
Proof. intros. unfold unifac_VSXS. ents. reflexivity. Qed.
Lemma TPS_form th psi o k : (k < g)%nat -> unifac_Theta_Psi_sums g th psi o k = rsum g (fun m => th m * psi m k).
Proof. intros. unfold unifac_Theta_Psi_sums. ents. reflexivity. Qed.
Lemma ws_form psi dth o k i : (k < g)%nat -> (i < N)%nat -> unifac_ws N g psi dth o k i = rsum g (fun m => psi m k * dth m i).
Proof. intros. unfold unifac_ws. ents. reflexivity. Qed.
Lemma TpPS_form psi th o i k : (i < N)%nat -> (k < g)%nat -> unifac_Theta_pure_Psi_sums N g psi th o i k = rsum g (fun m => th i m * psi m k).
Proof. intros. unfold unifac_Theta_pure_Psi_sums. ents. reflexivity. Qed.
Lemma lnG_form Q psi th U Z o k : (k < g)%nat -> unifac_lnGammas_subgroups g Q psi th U Z o k = Q k * (1 - rsum g (fun m => th m * Z m * psi k m) - ln (U k)).
Proof. intros. unfold unifac_lnGammas_subgroups. ents. reflexivity. Qed.
Lemma dlnG_dx_form Q W psi th Z dth o k i : (k < g)%nat -> (i < N)%nat -> unifac_dlnGammas_subgroups_dxs N g Q W psi th Z dth o k i =
  (- W k i * Z k - rsum g (fun m => psi k m * Z m * (dth m i - W m i * Z m * th m))) * Q k.
Proof. intros. unfold unifac_dlnGammas_subgroups_dxs. ents. reflexivity. Qed.
Lemma d2lnG_dTdx_form Q F Z W psi psi1 th dth o o1 o2 o3 k i : (k < g)%nat -> (i < N)%nat ->
  unifac_d2lnGammas_subgroups_dTdxs N g Q F Z W psi psi1 th dth o o1 o2 o3 k i =
  let W1 k i := rsum g (fun m => dth m i * psi1 m k) in
  - (Z k * (W1 k i - F k * W k i * Z k) + rsum g (fun m => dth m i * Z m * (psi1 k m - F m * Z m * psi k m) - Z m * Z m * th m * (W1 m i * psi k m + W m i * psi1 k m) + 2 * F m * (Z m * Z m) * Z m * th m * W m i * psi k m)) * Q k.
Proof.
  intros. unfold unifac_d2lnGammas_subgroups_dTdxs. cbv zeta.
  rewrite (loop_updm_rect g N (fun k i => _)) by auto. f_equal. f_equal.
  rewrite (loop_ext g _ (fun m v => v + (dth m i * Z m * (psi1 k m - F m * Z m * psi k m) - Z m * Z m * th m * (rsum g (fun n => dth n i * psi1 n m) * psi k m + W m i * psi1 k m) + 2 * F m * (Z m * Z m) * Z m * th m * W m i * psi k m))).
  2:{ intros m v Hm. ents. ring. }
  rewrite loop_rsum. f_equal. ents. reflexivity.
Qed.
Lemma d2lnG_dxx_form Q Z W psi th dth d2th o o1 i j k : (i < N)%nat -> (j < N)%nat -> (k < g)%nat ->
  unifac_d2lnGammas_subgroups_dxixjs N g Q Z W psi th dth d2th o o1 i j k =
  let W2 k := rsum g (fun m => psi m k * d2th i j m) in
  - (rsum g (fun m => (d2th i j m + Z m * ((2 * W m i * W m j * Z m - W2 m) * th m - (W m j * dth m i + W m i * dth m j))) * psi k m * Z m) + Z k * (W2 k - W k i * W k j * Z k)) * Q k.
Proof.
  intros Hi Hj Hk. unfold unifac_d2lnGammas_subgroups_dxixjs. cbv zeta.
  set (W2 := fun k => rsum g (fun m => psi m k * d2th i j m)).
  match goal with |- (let '(_, d) := ?L in d) _ _ _ = ?v => change (snd L i j k = v) end.
  match goal with |- snd (loop N ?st ?s0) i j k = ?v => apply (loop_set N st (fun s => snd s i j k) i v s0 Hi) end.
  - intros [v0 d0]. match goal with |- snd (let '(_, _) := ?L in _) i j k = ?v => change (snd (let '(a, b) := L in (a, b)) i j k = v); assert (E : snd L i j k = v) end.
    2:{ revert E. match goal with |- snd ?L i j k = _ -> _ => destruct L as [a b] end. auto. }
    match goal with |- snd (loop N ?st ?s0) i j k = ?v => apply (loop_set N st (fun s => snd s i j k) j v s0 Hj) end.
    + intros [v1 d1]. cbn [snd]. match goal with |- loop g ?st ?s0 i j k = ?v => apply (loop_set g st (fun s => s i j k) k v s0 Hk) end.
      * intros d2. rewrite updt_eq. f_equal. f_equal. ents. f_equal.
        apply rsum_ext. intros m Hm. ents. reflexivity.
      * intros k' d2 _ Hne. apply updt_ne; auto.
    + intros j' [v1 d1] _ Hne. cbn [snd]. apply (loop_keep g _ (fun s => s i j k) d1). intros; apply updt_ne; auto.
  - intros i' [v0 d0] _ Hne. match goal with |- snd (let '(_, _) := ?L in _) i j k = ?v => assert (E : snd L i j k = v) end.
    2:{ revert E. match goal with |- snd ?L i j k = _ -> _ => destruct L as [a b] end. auto. }
    match goal with |- snd (loop N ?st ?s0) i j k = ?v => apply (loop_keep N st (fun s => snd s i j k) s0) end.
    intros j' [v1 d1] _. cbn [snd]. apply (loop_keep g _ (fun s => s i j k) d1). intros; apply updt_ne; auto.
Qed.
Lemma dlnG_dT_form Q psi psi1 th Z F o k : (k < g)%nat -> unifac_dlnGammas_subgroups_dT g Q psi psi1 th Z F o k =
  Q k * (rsum g (fun j => (psi k j * F j * Z j - psi1 k j) * Z j * th j) - F k * Z k).
Proof. intros. unfold unifac_dlnGammas_subgroups_dT. ents. reflexivity. Qed.
Lemma d2lnG_dT_form Q psi psi1 psi2 th Z F G o o1 k : (k < g)%nat -> unifac_d2lnGammas_subgroups_dT2 g Q psi psi1 psi2 th Z F G o o1 k =
  Q k * (Z k * (F k * F k * Z k - G k) - rsum g (fun j => Z j * th j * (psi2 k j - (G j * psi k j + 2 * F j * psi1 k j) * Z j) + 2 * F j * F j * th j * Z j * Z j * Z j * psi k j)).
Proof.
  intros. unfold unifac_d2lnGammas_subgroups_dT2. cbv zeta. rewrite (loop_upd_lt g (fun k => _)) by auto. f_equal. f_equal.
  rewrite (loop_ext g _ (fun j v => v + (Z j * th j * (psi2 k j - (G j * psi k j + 2 * F j * psi1 k j) * Z j) + 2 * F j * F j * th j * Z j * Z j * Z j * psi k j))).
  2:{ intros m v Hm. ents. ring. }
  ents. reflexivity.
Qed.
Lemma d3lnG_dT_form Q psi psi1 psi2 psi3 th Z F G H3 o k : (k < g)%nat -> unifac_d3lnGammas_subgroups_dT3 g Q psi psi1 psi2 psi3 th Z F G H3 o k =
  Q k * (- H3 k * Z k - 2 * F k ^ 3 * Z k ^ 3 + 3 * F k * G k * Z k ^ 2 +
    rsum g (fun j => th j * (- Z j * psi3 k j + H3 j * Z j ^ 2 * psi k j - 6 * F j ^ 2 * psi1 k j * Z j ^ 3 + 3 * F j * psi2 k j * Z j ^ 2 + 3 * G j * psi1 k j * Z j ^ 2 + 6 * F j ^ 3 * psi k j * Z j ^ 4 - 6 * F j * G j * psi k j * Z j ^ 3))).
Proof.
  intros. unfold unifac_d3lnGammas_subgroups_dT3. cbv zeta. rewrite (loop_upd_lt g (fun k => _)) by auto. f_equal. f_equal.
  rewrite (loop_ext g _ (fun j v => v + th j * (- Z j * psi3 k j + H3 j * Z j ^ 2 * psi k j - 6 * F j ^ 2 * psi1 k j * Z j ^ 3 + 3 * F j * psi2 k j * Z j ^ 2 + 3 * G j * psi1 k j * Z j ^ 2 + 6 * F j ^ 3 * psi k j * Z j ^ 4 - 6 * F j * G j * psi k j * Z j ^ 3))).
  2:{ intros m v Hm. ring. }
  ents. reflexivity.
Qed.
Lemma Xs_pure_form vs ci o k i : (k < g)%nat -> (i < N)%nat -> unifac_Xs_pure N g vs ci o k i = vs k i * ci i.
Proof. intros. unfold unifac_Xs_pure. ents. reflexivity. Qed.
Lemma Thetas_pure_form X Q o i k : (i < N)%nat -> (k < g)%nat -> unifac_Thetas_pure N g X Q o i k = Q k * X k i * (1 / rsum g (fun j => Q j * X j i)).
Proof. intros. unfold unifac_Thetas_pure. ents. reflexivity. Qed.
(* loops over the groups of a compound, with a test *)
Lemma loop_test_rsum (t : nat -> bool) (f : nat -> R) n a : loop n (fun m v => if t m then v + f m else v) a = a + rsum n (fun m => if t m then f m else 0).
Proof. rewrite <- loop_rsum. apply loop_ext. intros m v _. destruct (t m); ring. Qed.
Lemma Reqb_neq x : x <> 0 -> negb (Reqb x 0) = true.
Proof. intros H. destruct (Reqb_spec x 0); auto. Qed.
Lemma lnGp_form Q th psi o vs k i : (k < g)%nat -> (i < N)%nat -> vs k i <> 0 -> (forall m, (m < g)%nat -> vs m i = 0 -> th i m = 0) ->
  unifac_lnGammas_subgroups_pure N g Q th psi o vs k i = Q k * (1 - ln (rsum g (fun m => th i m * psi m k)) - rsum g (fun m => th i m * psi k m / rsum g (fun n => th i n * psi n m))).
Proof.
  intros Hk Hi Hv Hz. unfold unifac_lnGammas_subgroups_pure. cbv zeta.
  assert (T : forall (f : nat -> R), (forall m, (m < g)%nat -> vs m i = 0 -> f m = 0) -> rsum g (fun m => if negb (Reqb (vs m i) 0) then f m else 0) = rsum g f).
  { intros f Hf. apply rsum_ext. intros m Hm. destruct (Reqb_spec (vs m i) 0) as [E|E]; auto. cbn. symmetry; auto. }
  match goal with |- loop g ?st ?s0 k i = ?v => apply (loop_set g st (fun s => s k i) k v s0 Hk) end.
  - intros s. match goal with |- loop N ?st ?s0 k i = ?v => apply (loop_set N st (fun s => s k i) i v s0 Hi) end.
    + intros s1. rewrite (Reqb_neq _ Hv), updm_eq. f_equal.
      rewrite (loop_test_rsum (fun m => negb (Reqb (vs m i) 0)) (fun m => th i m * psi m k)), T by (intros m Hm E; rewrite (Hz m Hm E); ring).
      rewrite (loop_ext g _ (fun m v => if negb (Reqb (vs m i) 0) then v + th i m * psi k m / rsum g (fun n => th i n * psi n m) else v)).
      2:{ intros m v Hm. ents. reflexivity. }
      rewrite (loop_test_rsum (fun m => negb (Reqb (vs m i) 0)) (fun m => th i m * psi k m / rsum g (fun n => th i n * psi n m))), T.
      2:{ intros m Hm E. rewrite (Hz m Hm E). unfold Rdiv. ring. }
      rewrite !Rplus_0_l. reflexivity.
    + intros i' s1 _ Hne. destruct (negb _); auto. apply updm_ne; auto.
  - intros k' s _ Hne. apply (loop_keep N _ (fun s => s k i) s). intros i' s1 _. destruct (negb _); auto. apply updm_ne; auto.
Qed.
Lemma fill_test (row : nat -> nat -> R) vs o k i : (k < g)%nat -> (i < N)%nat -> vs k i <> 0 ->
  loop N (fun m (d : nat -> nat -> R) => loop g (fun k d => if negb (Reqb (vs k m) 0) then updm d k m (row m k) else d) d) o k i = row i k.
Proof.
  intros Hk Hi Hv. match goal with |- loop N ?st ?s0 k i = ?v => apply (loop_set N st (fun s => s k i) i v s0 Hi) end.
  - intros s. match goal with |- loop g ?st ?s0 k i = ?v => apply (loop_set g st (fun s => s k i) k v s0 Hk) end.
    + intros s1. rewrite (Reqb_neq _ Hv), updm_eq. reflexivity.
    + intros k' s1 _ Hne. destruct (negb _); auto. apply updm_ne; auto.
  - intros i' s _ Hne. apply (loop_keep g _ (fun s => s k i) s). intros k' s1 _. destruct (negb _); auto. apply updm_ne; auto.
Qed.
Lemma dlnGp_form Q psi psi1 th Z F o o1 vs k i : (k < g)%nat -> (i < N)%nat -> vs k i <> 0 ->
  unifac_dlnGammas_subgroups_pure_dT N g Q psi psi1 th Z F o o1 vs k i = unifac_dlnGammas_subgroups_dT g Q psi psi1 (th i) (Z i) (F i) (fun _ => 0) k.
Proof.
  intros Hk Hi Hv. unfold unifac_dlnGammas_subgroups_pure_dT. cbv zeta.
  match goal with |- (let '(_, d) := ?L in d) _ _ = ?v => change (snd L k i = v) end.
  match goal with |- snd (loop N ?st ?s0) k i = ?v => apply (loop_set N st (fun s => snd s k i) i v s0 Hi) end.
  - intros [v0 s]. cbn [snd]. match goal with |- loop g ?st ?s0 k i = ?v => apply (loop_set g st (fun s => s k i) k v s0 Hk) end.
    + intros s1. rewrite (Reqb_neq _ Hv), updm_eq, !dlnG_dT_form by auto. reflexivity.
    + intros k' s1 _ Hne. destruct (negb _); auto. apply updm_ne; auto.
  - intros i' [v0 s] _ Hne. cbn [snd]. apply (loop_keep g _ (fun s => s k i) s). intros k' s1 _. destruct (negb _); auto. apply updm_ne; auto.
Qed.
Lemma d2lnGp_form Q psi psi1 psi2 th Z F G o o1 vs k i : (k < g)%nat -> (i < N)%nat -> vs k i <> 0 ->
  unifac_d2lnGammas_subgroups_pure_dT2 N g Q psi psi1 psi2 th Z F G o o1 vs k i = unifac_d2lnGammas_subgroups_dT2 g Q psi psi1 psi2 (th i) (Z i) (F i) (G i) (fun _ => 0) (fun _ => 0) k.
Proof. intros Hk Hi Hv. unfold unifac_d2lnGammas_subgroups_pure_dT2. cbv zeta. apply (fill_test (fun m k => unifac_d2lnGammas_subgroups_dT2 g Q psi psi1 psi2 (th m) (Z m) (F m) (G m) (fun _ => 0) (fun _ => 0) k)); auto. Qed.
Lemma d3lnGp_form Q psi psi1 psi2 psi3 th Z F G H3 o vs k i : (k < g)%nat -> (i < N)%nat -> vs k i <> 0 ->
  unifac_d3lnGammas_subgroups_pure_dT3 N g Q psi psi1 psi2 psi3 th Z F G H3 o vs k i = unifac_d3lnGammas_subgroups_dT3 g Q psi psi1 psi2 psi3 (th i) (Z i) (F i) (G i) (H3 i) (fun _ => 0) k.
Proof. intros Hk Hi Hv. unfold unifac_d3lnGammas_subgroups_pure_dT3. cbv zeta. apply (fill_test (fun m k => unifac_d3lnGammas_subgroups_dT3 g Q psi psi1 psi2 psi3 (th m) (Z m) (F m) (G m) (H3 m) (fun _ => 0) k)); auto. Qed.

Lemma lngr_form Gp G vs o i : (i < N)%nat -> unifac_lngammas_r N g Gp G vs o i = rsum g (fun k => vs k i * (G k - Gp k i)).
Proof. intros. unfold unifac_lngammas_r. ents. reflexivity. Qed.
Lemma dlngr_form vs G o i j : (i < N)%nat -> (j < N)%nat -> unifac_dlngammas_r_dxs N g vs G o i j = rsum g (fun m => vs m i * G m j).
Proof. intros. unfold unifac_dlngammas_r_dxs. ents. reflexivity. Qed.
Lemma d2lngr_form vs G o i j k : (i < N)%nat -> (j < N)%nat -> (k < N)%nat -> unifac_d2lngammas_r_dxixjs N g vs G o i j k = rsum g (fun m => vs m i * G j k m).
Proof. intros. unfold unifac_d2lngammas_r_dxixjs. ents. reflexivity. Qed.
Lemma GE_form T x r c : unifac_GE T x N r c = rsum N (fun i => x i * (c i + r i)) * (Rgas * T).
Proof. unfold unifac_GE. ents. reflexivity. Qed.
Lemma GE_sc_form T x r : unifac_GE_skip_comb T x N r = rsum N (fun i => x i * r i) * (Rgas * T).
Proof. unfold unifac_GE_skip_comb. ents. reflexivity. Qed.
Lemma dGEdx_form T x r dr c dc o i : (i < N)%nat -> unifac_dGE_dxs T x N r dr c dc o i = (r i + c i + rsum N (fun j => x j * (dc j i + dr j i))) * (Rgas * T).
Proof. intros. unfold unifac_dGE_dxs. ents. reflexivity. Qed.
Lemma dGEdx_sc_form T x r dr o i : (i < N)%nat -> unifac_dGE_dxs_skip_comb T x N r dr o i = (r i + rsum N (fun j => x j * dr j i)) * (Rgas * T).
Proof. intros. unfold unifac_dGE_dxs_skip_comb. ents. reflexivity. Qed.
Lemma d2GEdTdx_form T x r dr rT drT c dc o i : (i < N)%nat -> unifac_d2GE_dTdxs T x N r dr rT drT c dc o i =
  (r i + c i + T * rT i + rsum N (fun j => x j * (dc j i + dr j i) + T * x j * drT j i)) * Rgas.
Proof.
  intros. unfold unifac_d2GE_dTdxs. cbv zeta. rewrite (loop_upd_lt N (fun k => _)) by auto. f_equal.
  rewrite (loop_ext N _ (fun j v => v + (x j * (dc j i + dr j i) + T * x j * drT j i))) by (intros; ring). ents. reflexivity.
Qed.
Lemma d2GEdTdx_sc_form T x r dr rT drT o i : (i < N)%nat -> unifac_d2GE_dTdxs_skip_comb T x N r dr rT drT o i =
  (r i + T * rT i + rsum N (fun j => x j * (dr j i + T * drT j i))) * Rgas.
Proof. intros. unfold unifac_d2GE_dTdxs_skip_comb. ents. reflexivity. Qed.
Lemma d2GEdxx_form T x dr d2r dc d2c o i j : (i < N)%nat -> (j < N)%nat -> unifac_d2GE_dxixjs T x N dr d2r dc d2c o i j =
  (dc i j + dr i j + (dc j i + dr j i) + rsum N (fun k => x k * (d2c k i j + d2r k i j))) * (Rgas * T).
Proof. intros. unfold unifac_d2GE_dxixjs. ents. reflexivity. Qed.
Lemma d2GEdxx_sc_form T x dr d2r o i j : (i < N)%nat -> (j < N)%nat -> unifac_d2GE_dxixjs_skip_comb T x N dr d2r o i j =
  (dr i j + dr j i + rsum N (fun k => x k * d2r k i j)) * (Rgas * T).
Proof. intros. unfold unifac_d2GE_dxixjs_skip_comb. ents. reflexivity. Qed.
Lemma dGEdT_form T x r1 GE : unifac_dGE_dT N T x r1 GE = Rgas * T * rsum N (fun i => x i * r1 i) + GE / T.
Proof. unfold unifac_dGE_dT. ents. reflexivity. Qed.
Lemma loop_two n (f h : nat -> R) a b : loop n (fun i (st : R * R) => let '(u, v) := st in (u + f i, v + h i)) (a, b) = (a + rsum n f, b + rsum n h).
Proof. induction n; cbn [loop rsum]. now rewrite !Rplus_0_r. rewrite IHn. f_equal; ring. Qed.
Lemma d2GEdT_form T x r1 r2 : unifac_d2GE_dT2 N T x r1 r2 = Rgas * (T * rsum N (fun i => x i * r2 i) + 2 * rsum N (fun i => x i * r1 i)).
Proof. unfold unifac_d2GE_dT2. cbv zeta. rewrite (loop_two N (fun i => x i * r2 i) (fun i => x i * r1 i)), !Rplus_0_l. ring. Qed.
Lemma d3GEdT_form T x r2 r3 : unifac_d3GE_dT3 N T x r2 r3 = Rgas * (T * rsum N (fun i => x i * r3 i) + 3 * rsum N (fun i => x i * r2 i)).
Proof. unfold unifac_d3GE_dT3. cbv zeta. rewrite (loop_two N (fun i => x i * r3 i) (fun i => x i * r2 i)), !Rplus_0_l. ring. Qed.
Lemma gammas_form x r c o i : (i < N)%nat -> unifac_gammas N x r c o i = exp (r i + c i).
Proof. intros. unfold unifac_gammas. ents. reflexivity. Qed.
Lemma dgdx_form x ga dr dc o i j : (i < N)%nat -> (j < N)%nat -> unifac_dgammas_dxs N x ga dr dc o i j = (dr i j + dc i j) * ga i.
Proof. intros. unfold unifac_dgammas_dxs. ents. reflexivity. Qed.
Lemma dgdx_sc_form x ga dr o i j : (i < N)%nat -> (j < N)%nat -> unifac_dgammas_dxs_skip_comb N x ga dr o i j = dr i j * ga i.
Proof. intros. unfold unifac_dgammas_dxs_skip_comb. ents. reflexivity. Qed.
Lemma dgdn_form x dg o i j : (i < N)%nat -> (j < N)%nat -> unifac_dgammas_dns N x dg o i j = dg i j - rsum N (fun k => x k * dg i k).
Proof. intros. unfold unifac_dgammas_dns. ents. reflexivity. Qed.
Lemma lngc_form version q F V V' o i : (i < N)%nat -> unifac_lngammas_c N version q F V V' o i =
  if (version =? 4)%nat then ln (V' i) + 1 - V' i else 1 - V' i + ln (V' i) - 5 * q i * (1 - V i / F i + ln (V i / F i)).
Proof. intros. unfold unifac_lngammas_c. destruct (_ =? _)%nat; ents; reflexivity. Qed.
End Forms.
