From Coq Require Import Reals Lra Lia Arith Bool.
From Verif Require Import Base BaseFacts MixFacts MixDeriv NrtlFacts ActFacts Gen_activity Gen_alpha Gen_lnphi Gen_mix Gen_nrtl Gen_regular Gen_uniquac Gen_wilson Prop_C21.
Open Scope R_scope.
(* Two runs of the same loop from different starting contents. *)
Lemma loop_rel {A B} (Q : nat -> A -> B -> Prop) n f g a b : Q O a b -> (forall i u v, (i < n)%nat -> Q i u v -> Q (S i) (f i u) (g i v)) -> Q n (loop n f a) (loop n g b).
Proof. intros H0 HS. induction n; [exact H0|]. cbn. apply HS; [lia|]. apply IHn. intros; apply HS; auto; lia. Qed.
Lemma loop_fillx {A} n (f : nat -> (nat -> A) -> A) o k : (k < n)%nat -> (forall i u v, (i < n)%nat -> f i u = f i v) -> loop n (fun i o => upd o i (f i o)) o k = f k o.
Proof. intros Hk E. rewrite (loop_ext n _ (fun i o' => upd o' i (f i o))). - now rewrite (loop_upd_lt n (fun i => f i o)). - intros i s Hi. f_equal. now apply E. Qed.
(* the lists agree on the entries described by the predicate *)
Definition agV (P : nat -> Prop) (u v : nat -> R) := forall i, P i -> u i = v i.
Definition agM (P : nat -> nat -> Prop) (u v : nat -> nat -> R) := forall i j, P i j -> u i j = v i j.
Definition agT (P : nat -> nat -> nat -> Prop) (u v : nat -> nat -> nat -> R) := forall i j k, P i j k -> u i j k = v i j k.
Lemma agV_upd (P Q : nat -> Prop) u v i x y : agV P u v -> x = y -> (forall a, Q a -> P a \/ a = i) -> agV Q (upd u i x) (upd v i y).
Proof. intros H -> HQ a Ha. unfold upd. destruct (a =? i)%nat eqn:E; auto. apply H. destruct (HQ a Ha); auto. apply Nat.eqb_neq in E. contradiction. Qed.
Lemma agM_upd (P Q : nat -> nat -> Prop) u v i j x y : agM P u v -> x = y -> (forall a b, Q a b -> P a b \/ (a = i /\ b = j)) -> agM Q (updm u i j x) (updm v i j y).
Proof. intros H -> HQ a b Ha. unfold updm. destruct ((a =? i) && (b =? j))%nat eqn:E; auto. apply H. destruct (HQ a b Ha) as [|[-> ->]]; auto. rewrite !Nat.eqb_refl in E. discriminate. Qed.
Lemma agT_upd (P Q : nat -> nat -> nat -> Prop) u v i j k x y : agT P u v -> x = y -> (forall a b c, Q a b c -> P a b c \/ (a = i /\ b = j /\ c = k)) -> agT Q (updt u i j k x) (updt v i j k y).
Proof. intros H -> HQ a b c Ha. unfold updt. destruct ((a =? i) && ((b =? j) && (c =? k)))%nat eqn:E; auto. apply H. destruct (HQ a b c Ha) as [|[-> [-> ->]]]; auto. rewrite !Nat.eqb_refl in E. discriminate. Qed.
Lemma fill3 n (f : nat -> (nat -> R) * (nat -> R) * (nat -> R) -> (nat -> R) * (nat -> R) * (nat -> R)) a b c a' b' c' :
  (forall i, exists p q r, forall u v w, f i (u, v, w) = (upd u i p, upd v i q, upd w i r)) ->
  let s := loop n f (a, b, c) in let s' := loop n f (a', b', c') in
  forall i, (i < n)%nat -> fst (fst s) i = fst (fst s') i /\ snd (fst s) i = snd (fst s') i /\ snd s i = snd s' i.
Proof.
  intros F. cbv zeta.
  apply (loop_rel (fun m s s' => forall i, (i < m)%nat -> fst (fst s) i = fst (fst s') i /\ snd (fst s) i = snd (fst s') i /\ snd s i = snd s' i)); [intros; lia|].
  intros i [[u v] w] [[u' v'] w'] Hi H k Hk. destruct (F i) as [p [q [r E]]]. rewrite !E. cbn. unfold upd. destruct (k =? i)%nat eqn:K; auto. apply Nat.eqb_neq in K. apply (H k). lia.
Qed.
Ltac b1 := first [ rewrite !loop_updm_lt by assumption | rewrite !loop_updt_lt by assumption | rewrite !loop_updm_mirror by assumption | rewrite !loop_upd_lt by assumption ].
Lemma agM_mono (P Q : nat -> nat -> Prop) u v : agM P u v -> (forall a b, Q a b -> P a b) -> agM Q u v.
Proof. intros H K a b Hq. apply H, K, Hq. Qed.
Lemma agT_mono (P Q : nat -> nat -> nat -> Prop) u v : agT P u v -> (forall a b c, Q a b c -> P a b c) -> agT Q u v.
Proof. intros H K a b c Hq. apply H, K, Hq. Qed.
