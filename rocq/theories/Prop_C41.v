(* C41: parameter database lookups. *)
From Coq Require Import Reals String Ascii List Bool Arith ZArith Lia Permutation Sorted NArith.
From Verif Require Import Model_ipdb Spec_ipdb BaseFacts.
Import ListNotations.
Open Scope list_scope.
Open Scope nat_scope.

(* ---- the order on strings ---- *)
Lemma ascii_compare_trans a b c : Ascii.compare a b = Lt -> Ascii.compare b c = Lt -> Ascii.compare a c = Lt.
Proof. unfold Ascii.compare. rewrite !N.compare_lt_iff. lia. Qed.
Lemma string_compare_trans a : forall b c, String.compare a b = Lt -> String.compare b c = Lt -> String.compare a c = Lt.
Proof.
  induction a as [|x a IH]; intros [|y b] [|z c]; cbn; try discriminate; auto. intros H1 H2.
  destruct (Ascii.compare x y) eqn:E1; try discriminate; destruct (Ascii.compare y z) eqn:E2; try discriminate.
  - apply Ascii.compare_eq_iff in E1; apply Ascii.compare_eq_iff in E2. subst. unfold Ascii.compare at 1. rewrite N.compare_refl. eauto.
  - apply Ascii.compare_eq_iff in E1. subst. now rewrite E2.
  - apply Ascii.compare_eq_iff in E2. subst. now rewrite E1.
  - now rewrite (ascii_compare_trans _ _ _ E1 E2).
Qed.
Section C41.
Variables (cas_int : string -> Z) (check_CAS : string -> bool).
Notation cas_le := (cas_le cas_int).
Notation insert := (insert_cas cas_int).
Notation sortc := (sorted_CAS_key cas_int).
Lemma cas_le_total a b : cas_le a b = true \/ cas_le b a = true.
Proof. unfold Model_ipdb.cas_le. destruct (Z.ltb_spec (cas_int a) (cas_int b)); auto. destruct (Z.ltb_spec (cas_int b) (cas_int a)); auto. rewrite (String.compare_antisym b a). destruct (String.compare a b); auto. Qed.
Lemma cas_le_antisym a b : cas_le a b = true -> cas_le b a = true -> a = b.
Proof.
  unfold Model_ipdb.cas_le. destruct (Z.ltb_spec (cas_int a) (cas_int b)); destruct (Z.ltb_spec (cas_int b) (cas_int a)); try discriminate; try lia. rewrite (String.compare_antisym b a). destruct (String.compare a b) eqn:E; cbn; try discriminate. intros. now apply String.compare_eq_iff.
Qed.
Lemma cas_le_trans a b c : cas_le a b = true -> cas_le b c = true -> cas_le a c = true.
Proof.
  unfold Model_ipdb.cas_le. destruct (Z.ltb_spec (cas_int a) (cas_int b)), (Z.ltb_spec (cas_int b) (cas_int c)), (Z.ltb_spec (cas_int b) (cas_int a)), (Z.ltb_spec (cas_int c) (cas_int b)), (Z.ltb_spec (cas_int a) (cas_int c)), (Z.ltb_spec (cas_int c) (cas_int a)); try discriminate; try lia; auto.
  destruct (String.compare a b) eqn:E1; try discriminate; destruct (String.compare b c) eqn:E2; try discriminate; intros _ _.
  - apply String.compare_eq_iff in E1. subst. now rewrite E2.
  - apply String.compare_eq_iff in E1. subst. now rewrite E2.
  - apply String.compare_eq_iff in E2. subst. now rewrite E1.
  - now rewrite (string_compare_trans _ _ _ E1 E2).
Qed.
Definition increasing : list string -> Prop := StronglySorted (fun a b => cas_le a b = true).
Lemma insert_perm x l : Permutation (x :: l) (insert x l).
Proof. induction l as [|y l IH]; cbn; auto. destruct (cas_le x y); auto. rewrite perm_swap. now constructor. Qed.
Lemma insert_sorted x l : increasing l -> increasing (insert x l).
Proof.
  induction 1 as [|y l S IH F]; cbn; [repeat constructor|]. destruct (cas_le x y) eqn:E.
  - constructor; [constructor; auto|]. constructor; auto. eapply Forall_impl; [|exact F]. cbv beta. intros z Hz. eapply cas_le_trans; eauto.
  - constructor; auto. assert (cas_le y x = true) by (destruct (cas_le_total x y); congruence). rewrite <- insert_perm. constructor; auto.
Qed.
Lemma sort_perm l : Permutation l (sortc l).
Proof. induction l as [|x l IH]; cbn; auto. rewrite <- insert_perm. now constructor. Qed.
Lemma sort_sorted l : increasing (sortc l).
Proof. induction l as [|x l IH]; cbn; [constructor|now apply insert_sorted]. Qed.
Lemma sorted_unique l : increasing l -> forall l', increasing l' -> Permutation l l' -> l = l'.
Proof.
  induction 1 as [|x l S IH F]; intros l' S' P; [now apply Permutation_nil in P|].
  destruct S' as [|y l' S' F']; [symmetry in P; now apply Permutation_nil in P|].
  assert (x = y).
  { assert (I1 : In y (x :: l)) by (eapply Permutation_in; [symmetry; exact P|left; auto]). assert (I2 : In x (y :: l')) by (eapply Permutation_in; [exact P|left; auto]).
    destruct I1 as [|I1]; auto. destruct I2 as [|I2]; auto. rewrite Forall_forall in F, F'. apply cas_le_antisym; auto. }
  subst y. f_equal. apply IH; auto. now apply Permutation_cons_inv in P.
Qed.
Lemma sort_ext l l' : Permutation l l' -> sortc l = sortc l'.
Proof. intros P. apply sorted_unique; try apply sort_sorted. now rewrite <- !sort_perm. Qed.

(* ---- single lookups ---- *)
Notation get_ip := (get_ip_specific cas_int).
Notation has_ip := (has_ip_specific cas_int).
(* the lookup in a table for which the order of the components does not matter *)
Theorem C41_symmetric_order d name ip l l' : table_kind d name true -> Permutation l l' -> get_ip d name l ip = get_ip d name l' ip /\ has_ip d name l ip = has_ip d name l' ip.
Proof.
  intros (m & E & S) P. unfold get_ip_specific, has_ip_specific, get. rewrite E. cbn [bind]. unfold key_of. rewrite S. now rewrite (sort_ext _ _ P).
Qed.
Definition value_or_default (d : db) (name ip : string) (v : option pval) : lres pval :=
  match v with Some v => Ok v | None => match default d name ip with Some v => Ok v | None => Raise Key_error end end.
Lemma get_ip_eq d name CASs ip m : find name (metadata d) = Some m -> get_ip d name CASs ip = value_or_default d name ip (stored d name (key_of cas_int m CASs) ip).
Proof.
  intros E. unfold get_ip_specific, get, value_or_default, stored, default. rewrite E. cbn [bind]. destruct (find name (tables d)) as [t|]; cbn [bind]; auto. destruct (find (key_of cas_int m CASs) t) as [v|]; cbn [bind]; auto. destruct (find ip v); auto.
Qed.
(* what is looked up: the entry under the CAS numbers in increasing order, or in the given order *)
Theorem C41_lookup d name ip l : (table_kind d name false -> get_ip d name l ip = value_or_default d name ip (stored d name (join l) ip)) /\
  (table_kind d name true -> forall k, Permutation l k -> increasing k -> get_ip d name l ip = value_or_default d name ip (stored d name (join k) ip)).
Proof.
  split.
  - intros (m & E & S). rewrite (get_ip_eq _ _ _ _ m E). unfold key_of. now rewrite S.
  - intros (m & E & S) k P K. rewrite (get_ip_eq _ _ _ _ m E). unfold key_of. rewrite S. rewrite (sorted_unique (sortc l) (sort_sorted l) k K); auto. rewrite <- P. symmetry. apply sort_perm.
Qed.
(* has_ip_specific tells whether get_ip_specific finds an entry *)
Theorem C41_has d name ip l b : has_ip d name l ip = Ok b ->
  exists v, get_ip d name l ip = value_or_default d name ip v /\ (b = true <-> v <> None).
Proof.
  unfold has_ip_specific. unfold get at 1. destruct (find name (metadata d)) as [m|] eqn:E; cbn [bind]; [|discriminate]. unfold get. destruct (find name (tables d)) as [t|] eqn:E2; cbn [bind]; [|discriminate]. intros [= <-].
  exists (stored d name (key_of cas_int m l) ip). split; [now apply get_ip_eq|]. unfold stored. rewrite E2. destruct (find (key_of cas_int m l) t) as [v|]; [destruct (find ip v)|]; split; intros H; try discriminate; try congruence; auto.
Qed.

(* ---- loading ---- *)
Lemma find_store {A} k (v : A) d x : find x (store k v d) = if String.eqb k x then Some v else find x d.
Proof.
  induction d as [|[y u] d IH]; cbn [store find]; [reflexivity|]. destruct (String.eqb_spec y k) as [->|N]; cbn [find].
  - destruct (String.eqb k x); auto.
  - rewrite IH. destruct (String.eqb_spec y x) as [->|N2]; auto. destruct (String.eqb_spec k x); congruence.
Qed.
Theorem C41_load d data m name l ip : 
  (forall other, other <> name -> get_ip (load_json d data m name) other l ip = get_ip d other l ip) /\
  get_ip (load_json d data m name) name l ip = match find (key_of cas_int m l) data with Some values => match find ip values with Some v => Ok v | None => get ip (missing m) end | None => get ip (missing m) end.
Proof.
  split.
  - intros other H. unfold get_ip_specific, get, load_json. cbn [tables metadata]. rewrite !find_store. destruct (String.eqb_spec name other) as [->|N]; [congruence|]. reflexivity.
  - unfold get_ip_specific, get, load_json. cbn [tables metadata]. rewrite !find_store, String.eqb_refl. cbn [bind]. destruct (find (key_of cas_int m l) data) as [v|]; cbn [bind]; auto. destruct (find ip v); auto.
Qed.
Lemma loaded_both d name : loaded d -> (find name (metadata d) = None <-> find name (tables d) = None).
Proof. induction 1 as [|d data m k L IH]; cbn [load_json tables metadata empty_db find]; [tauto|]. rewrite !find_store. destruct (String.eqb k name); auto. split; discriminate. Qed.
(* a lookup fails only when the table is unknown or has neither the entry nor a default *)
Theorem C41_succeeds d name l ip : loaded d -> find name (tables d) <> None -> default d name ip <> None -> exists v, get_ip d name l ip = Ok v.
Proof.
  intros L T D. destruct (find name (metadata d)) as [m|] eqn:E; [|apply (loaded_both d name L) in E; congruence]. rewrite (get_ip_eq _ _ _ _ m E). unfold value_or_default. destruct (stored _ _ _ _); eauto. destruct (default d name ip); [eauto|congruence].
Qed.

(* ---- matrices ---- *)
Lemma iterate_inv {S} (f : nat -> S -> lres S) (P : nat -> S -> Prop) n s0 : P 0 s0 -> (forall i s, i < n -> P i s -> exists s', f i s = Ok s' /\ P (Datatypes.S i) s') -> exists s', iterate f (seq 0 n) s0 = Ok s' /\ P n s'.
Proof.
  intros H0 HS. assert (G : forall m k s, k + m = n -> P k s -> exists s', iterate f (seq k m) s = Ok s' /\ P n s').
  { induction m as [|m IH]; intros k s E HP; cbn [seq iterate]; [replace n with k by lia; eauto|]. destruct (HS k s ltac:(lia) HP) as (s1 & E1 & P1). rewrite E1. cbn [bind]. apply IH; auto. lia. }
  apply (G n 0 s0); auto.
Qed.
Section Matrix.
Variables (d : db) (name ip : string) (CASs : list string) (L : nat -> nat -> pval).
Notation N := (length CASs).
Hypothesis HT : exists t, find name (tables d) = Some t.
Hypothesis HL : forall i j, i < N -> j < N -> i <> j -> get_ip d name [nth i CASs EmptyString; nth j CASs EmptyString] ip = Ok (L i j).
Definition before (i j a b : nat) : bool := (a <? i) || ((a =? i) && (b <? j)).
Lemma before_next i j a b : before i (S j) a b = before i j a b || ((a =? i) && (b =? j)).
Proof. unfold before. destruct (Nat.ltb_spec a i), (Nat.eqb_spec a i), (Nat.ltb_spec b j), (Nat.ltb_spec b (S j)), (Nat.eqb_spec b j); cbn; auto; lia. Qed.
Lemma before_row i a b : b < N -> before i N a b = before (S i) 0 a b.
Proof. intros H. unfold before. destruct (Nat.ltb_spec a i), (Nat.eqb_spec a i), (Nat.ltb_spec b N), (Nat.ltb_spec a (S i)), (Nat.eqb_spec a (S i)), (Nat.ltb_spec b 0); cbn; auto; lia. Qed.
Theorem C41_asymmetric_matrix : exists M, get_ip_asymmetric_matrix cas_int d name CASs ip = Ok M /\ forall i j, i < N -> j < N -> M i j = if i =? j then Num 0 else L i j.
Proof.
  destruct HT as (t & Et). unfold get_ip_asymmetric_matrix, get. rewrite Et. cbn [bind].
  edestruct (iterate_inv (S := matrix)) with (P := fun i M => forall a b, a < N -> b < N -> before i 0 a b = true -> M a b = if a =? b then Num 0 else L a b) as (M & E & PM).
  3: { rewrite E. exists M. split; auto. intros i j Hi Hj. apply PM; auto. unfold before. destruct (Nat.ltb_spec i N); auto; lia. }
  - intros a b _ _. unfold before. destruct (Nat.ltb_spec a 0), (Nat.ltb_spec b 0), (Nat.eqb_spec a 0); cbn; try lia; discriminate.
  - intros i M Hi PM. cbv beta. edestruct (iterate_inv (S := matrix)) with (P := fun j M => forall a b, a < N -> b < N -> before i j a b = true -> M a b = if a =? b then Num 0 else L a b) as (M' & E & PM').
    3: { rewrite E. exists M'. split; auto. intros a b Ha Hb HB. apply PM'; auto. now rewrite before_row. }
    + exact PM.
    + intros j M1 Hj P1. cbv beta. destruct (Nat.eqb_spec i j) as [->|NE].
      * eexists. split; [reflexivity|]. intros a b Ha Hb. rewrite before_next. unfold put. destruct ((a =? j) && (b =? j)) eqn:EE; [apply andb_prop in EE as [E1 E2]; apply Nat.eqb_eq in E1, E2; subst; now rewrite Nat.eqb_refl|]. rewrite orb_false_r. auto.
      * rewrite HL by auto. cbn [bind]. eexists. split; [reflexivity|]. intros a b Ha Hb. rewrite before_next. unfold put. destruct ((a =? i) && (b =? j)) eqn:EE; [apply andb_prop in EE as [E1 E2]; apply Nat.eqb_eq in E1, E2; subst|rewrite orb_false_r; auto]. destruct (Nat.eqb_spec i j); congruence.
Qed.
(* an entry of the symmetric matrix for i < j *)
Definition first_of (a b : nat) : pval := match L a b with Null => L b a | v => v end.
Definition so_far (i j a b : nat) : pval := if before i j b a then first_of a b else if before i j a b then L a b else Null.
Definition state (i j : nat) (M : matrix) : Prop := forall a b, a < N -> b < N -> (a < b -> M a b = so_far i j a b /\ M b a = so_far i j a b) /\ (before i j a a = true -> M a a = Num 0).
Lemma state_row i M : state i N M -> state (S i) 0 M.
Proof. intros H a b Ha Hb. destruct (H a b Ha Hb) as [H1 H2]. unfold so_far in *. rewrite (before_row i a b Hb), (before_row i b a Ha) in H1. rewrite (before_row i a a Ha) in H2. auto. Qed.
Lemma before_false_start a b : before 0 0 a b = false.
Proof. unfold before. destruct (Nat.ltb_spec a 0), (Nat.ltb_spec b 0), (Nat.eqb_spec a 0); cbn; auto; lia. Qed.
Lemma symmetric_step i j M : i < N -> j < N -> state i j M -> exists M', (if i =? j then Ok (put i j (Num 0) (put j i (Num 0) M))
    else match M j i with
      | Null => bind (get_ip d name [nth i CASs EmptyString; nth j CASs EmptyString] ip) (fun i_ip => Ok (put j i i_ip (put i j i_ip M)))
      | _ => Ok M
      end) = Ok M' /\ state i (S j) M'.
Proof.
  intros Hi Hj HS. destruct (Nat.eqb_spec i j) as [<-|NE].
  - eexists. split; [reflexivity|]. intros a b Ha Hb. destruct (HS a b Ha Hb) as [H1 H2]. unfold so_far, put in *. rewrite !before_next. split.
    + intros HAB. destruct (H1 HAB) as [K1 K2]. destruct (Nat.eqb_spec a i), (Nat.eqb_spec b i); cbn [andb orb]; try lia; rewrite ?orb_false_r; auto.
    + destruct (Nat.eqb_spec a i); cbn [andb orb]; auto. rewrite ?orb_false_r. auto.
  - destruct (Nat.lt_gt_cases i j) as [LG _]. destruct (LG NE) as [LT|GT]; clear LG.
    + destruct (HS i j Hi Hj) as [H1 _]. destruct (H1 LT) as [_ K2]. assert (SF : so_far i j i j = Null). { unfold so_far, before. destruct (Nat.ltb_spec j i), (Nat.eqb_spec j i), (Nat.ltb_spec i j), (Nat.ltb_spec i i), (Nat.eqb_spec i i), (Nat.ltb_spec j j); cbn; auto; lia. }
      rewrite K2, SF, HL by auto. cbn [bind]. eexists. split; [reflexivity|]. intros a b Ha Hb. destruct (HS a b Ha Hb) as [G1 G2]. unfold put. split.
      * intros HAB. destruct (G1 HAB) as [L1 L2]. destruct (Nat.eq_dec a i) as [->|Na]; [destruct (Nat.eq_dec b j) as [->|Nb]|].
        -- assert (SN : so_far i (S j) i j = L i j). { unfold so_far. rewrite !before_next. unfold before. destruct (Nat.ltb_spec j i), (Nat.eqb_spec j i), (Nat.ltb_spec i j), (Nat.ltb_spec i i), (Nat.eqb_spec i i), (Nat.ltb_spec j j), (Nat.eqb_spec i j), (Nat.eqb_spec j j); cbn; auto; lia. }
           rewrite SN. rewrite !Nat.eqb_refl. destruct (Nat.eqb_spec i j), (Nat.eqb_spec j i); cbn; auto; lia.
        -- assert (SN : so_far i (S j) i b = so_far i j i b). { unfold so_far. rewrite !before_next. destruct (Nat.eqb_spec b i), (Nat.eqb_spec i j), (Nat.eqb_spec i i), (Nat.eqb_spec b j); cbn; rewrite ?orb_false_r; auto; lia. }
           rewrite SN. destruct (Nat.eqb_spec i j), (Nat.eqb_spec b i), (Nat.eqb_spec b j), (Nat.eqb_spec i i); cbn; auto; lia.
        -- assert (SN : so_far i (S j) a b = so_far i j a b). { unfold so_far. rewrite !before_next. destruct (Nat.eqb_spec a i), (Nat.eqb_spec b i), (Nat.eqb_spec a j), (Nat.eqb_spec b j); cbn; rewrite ?orb_false_r; auto; lia. }
           rewrite SN. destruct (Nat.eqb_spec a i), (Nat.eqb_spec b i), (Nat.eqb_spec a j), (Nat.eqb_spec b j); cbn; auto; lia.
      * rewrite before_next. intros HB. destruct (Nat.eqb_spec a i), (Nat.eqb_spec a j); cbn in *; rewrite ?orb_false_r in HB; auto; lia.
    + destruct (HS j i Hj Hi) as [H1 _]. destruct (H1 GT) as [K1 _]. assert (SF : so_far i j j i = L j i). { unfold so_far, before. destruct (Nat.ltb_spec j i), (Nat.eqb_spec j i), (Nat.ltb_spec i j), (Nat.ltb_spec i i), (Nat.eqb_spec i i), (Nat.ltb_spec j j); cbn; auto; lia. }
      assert (SN : so_far i (S j) j i = first_of j i). { unfold so_far. rewrite !before_next. unfold before. destruct (Nat.ltb_spec j i), (Nat.eqb_spec j i), (Nat.ltb_spec i j), (Nat.ltb_spec i i), (Nat.eqb_spec i i), (Nat.ltb_spec j j), (Nat.eqb_spec j j); cbn; auto; lia. }
      assert (SO : forall a b, a < b -> (a <> j \/ b <> i) -> so_far i (S j) a b = so_far i j a b). { intros a b HAB HO. unfold so_far. rewrite !before_next. destruct (Nat.eqb_spec a i), (Nat.eqb_spec b i), (Nat.eqb_spec a j), (Nat.eqb_spec b j); cbn; rewrite ?orb_false_r; auto; lia. }
      assert (DG : forall a, before i (S j) a a = before i j a a). { intros a. rewrite before_next. destruct (Nat.eqb_spec a i), (Nat.eqb_spec a j); cbn; rewrite ?orb_false_r; auto; lia. }
      rewrite K1, SF. destruct (L j i) as [| |r] eqn:EL.
      * rewrite HL by auto. cbn [bind]. eexists. split; [reflexivity|]. intros a b Ha Hb. destruct (HS a b Ha Hb) as [G1 G2]. unfold put. split.
        -- intros HAB. destruct (G1 HAB) as [L1 L2]. destruct (Nat.eq_dec a j) as [->|Na]; [destruct (Nat.eq_dec b i) as [->|Nb]|].
           ++ rewrite SN. unfold first_of. rewrite EL. rewrite !Nat.eqb_refl. destruct (Nat.eqb_spec i j), (Nat.eqb_spec j i); cbn; auto; lia.
           ++ rewrite SO by auto. destruct (Nat.eqb_spec j i), (Nat.eqb_spec b i), (Nat.eqb_spec b j), (Nat.eqb_spec j j); cbn; auto; lia.
           ++ rewrite SO by auto. destruct (Nat.eqb_spec a i), (Nat.eqb_spec b i), (Nat.eqb_spec a j), (Nat.eqb_spec b j); cbn; auto; lia.
        -- rewrite DG. intros HB. destruct (Nat.eqb_spec a i), (Nat.eqb_spec a j); cbn in *; auto; lia.
      * eexists. split; [reflexivity|]. intros a b Ha Hb. destruct (HS a b Ha Hb) as [G1 G2]. rewrite DG. split; auto. intros HAB. destruct (G1 HAB) as [L1 L2]. destruct (Nat.eq_dec a j) as [->|Na]; [destruct (Nat.eq_dec b i) as [->|Nb]|]; [|rewrite SO; auto..]. rewrite SN. unfold first_of. rewrite EL. rewrite SF in L1, L2. auto.
      * eexists. split; [reflexivity|]. intros a b Ha Hb. destruct (HS a b Ha Hb) as [G1 G2]. rewrite DG. split; auto. intros HAB. destruct (G1 HAB) as [L1 L2]. destruct (Nat.eq_dec a j) as [->|Na]; [destruct (Nat.eq_dec b i) as [->|Nb]|]; [|rewrite SO; auto..]. rewrite SN. unfold first_of. rewrite EL. rewrite SF in L1, L2. auto.
Qed.
(* zero diagonal, symmetric, and above the diagonal the single lookups (or the reversed lookup where the entry is null) *)
Theorem C41_symmetric_matrix : exists M, get_ip_symmetric_matrix cas_int d name CASs ip = Ok M /\
  (forall i, i < N -> M i i = Num 0) /\ (forall i j, i < N -> j < N -> M i j = M j i) /\ (forall i j, i < j < N -> M i j = match L i j with Null => L j i | v => v end).
Proof.
  destruct HT as (t & Et). unfold get_ip_symmetric_matrix, get. rewrite Et. cbn [bind].
  edestruct (iterate_inv (S := matrix)) with (P := fun i M => state i 0 M) as (M & E & PM).
  3: { rewrite E. exists M. split; auto. assert (B : forall a b, a < N -> before N 0 a b = true) by (intros a b Ha; unfold before; destruct (Nat.ltb_spec a N); auto; lia). splits.
       - intros i Hi. apply (PM i i Hi Hi). auto.
       - intros i j Hi Hj. destruct (Nat.lt_trichotomy i j) as [LT|[->|GT]]; auto; [destruct (PM i j Hi Hj) as [K _]; destruct (K LT); congruence|destruct (PM j i Hj Hi) as [K _]; destruct (K GT); congruence].
       - intros i j [Hi Hj]. destruct (PM i j ltac:(lia) Hj) as [K _]. destruct (K Hi) as [-> _]. unfold so_far. rewrite B by auto. reflexivity. }
  - intros a b _ _. unfold so_far. rewrite !before_false_start. split; [auto|discriminate].
  - intros i M Hi PM. cbv beta. destruct (iterate_inv (S := matrix) (fun j values => if i =? j then Ok (put i j (Num 0) (put j i (Num 0) values)) else match values j i with Null => bind (get_ip d name [nth i CASs EmptyString; nth j CASs EmptyString] ip) (fun i_ip => Ok (put j i i_ip (put i j i_ip values))) | _ => Ok values end) (fun j M => state i j M) N M PM) as (M' & E & PM').
    + intros j M1 Hj P1. apply symmetric_step; auto.
    + rewrite E. exists M'. split; auto. now apply state_row.
Qed.
End Matrix.
(* for a table without null entries that is symmetric, both matrices hold the single lookups *)
Theorem C41_matrices_agree d name ip CASs L : table_kind d name true -> (exists t, find name (tables d) = Some t) ->
  (forall i j, i < length CASs -> j < length CASs -> i <> j -> get_ip d name [nth i CASs EmptyString; nth j CASs EmptyString] ip = Ok (L i j)) ->
  exists M M', get_ip_symmetric_matrix cas_int d name CASs ip = Ok M /\ get_ip_asymmetric_matrix cas_int d name CASs ip = Ok M' /\ forall i j, i < length CASs -> j < length CASs -> M i j = M' i j /\ (i <> j -> M i j = L i j) /\ M i i = Num 0.
Proof.
  intros HK HT HL. destruct (C41_symmetric_matrix d name ip CASs L HT HL) as (M & E & M1 & M2 & M3). destruct (C41_asymmetric_matrix d name ip CASs L HT HL) as (M' & E' & M1'). exists M, M'. splits; auto.
  assert (LS : forall i j, i < length CASs -> j < length CASs -> i <> j -> L i j = L j i).
  { intros i j Hi Hj NE. assert (Ok (L i j) = Ok (L j i)) by (rewrite <- !HL by auto; apply C41_symmetric_order; auto; constructor). congruence. }
  assert (ML : forall i j, i < length CASs -> j < length CASs -> i <> j -> M i j = L i j).
  { intros i j Hi Hj NE. destruct (Nat.lt_gt_cases i j) as [LG _]. destruct (LG NE) as [LT|GT].
    - rewrite M3 by lia. destruct (L i j) eqn:EL; auto. rewrite <- LS by auto. auto.
    - rewrite M2, M3 by lia. rewrite (LS i j) by auto. destruct (L j i) eqn:EL; auto. }
  intros i j Hi Hj. rewrite M1' by auto. splits; auto. destruct (Nat.eqb_spec i j) as [->|NE]; auto.
Qed.

(* ---- tables of a type ---- *)
Theorem C41_tables_with_type d t name : In name (get_tables_with_type d t) <-> exists m, In (name, m) (metadata d) /\ type m = t.
Proof.
  unfold get_tables_with_type. rewrite in_map_iff. split.
  - intros ([n m] & <- & H). apply filter_In in H as [H1 H2]. apply String.eqb_eq in H2. eauto.
  - intros (m & H1 & H2). exists (name, m). split; auto. apply filter_In. split; auto. now apply String.eqb_eq.
Qed.
Theorem C41_automatic d CASs t ip : match get_tables_with_type d t with name :: _ => get_ip_automatic cas_int d CASs t ip = get_ip d name CASs ip | [] => get_ip_automatic cas_int d CASs t ip = Raise Index_error end.
Proof. unfold get_ip_automatic. destruct (get_tables_with_type d t); auto. Qed.

(* ---- validation ---- *)
Lemma each_ok {A} (f : A -> lres unit) l : each f l = Ok tt -> forall x, In x l -> f x = Ok tt.
Proof. induction l as [|y l IH]; cbn; intros H x HI; [destruct HI|]. destruct (f y) as [[]|] eqn:E; cbn in H; [|discriminate]. destruct HI as [<-|HI]; auto. Qed.
(* in a validated table every entry has as many valid CAS numbers as components, and every necessary parameter is a number *)
Theorem C41_validated d name t m key values : find name (tables d) = Some t -> find name (metadata d) = Some m -> validate_table check_CAS d name = Ok tt -> find key t = Some values ->
  length (split key) = components m /\ (forall c, In c (split key) -> check_CAS c = true) /\ forall ip, In ip (necessary_keys m) -> exists r, find ip values = Some (Num r).
Proof.
  intros Et Em V F. unfold validate_table, get in V. rewrite Et in V. cbn [bind] in V. rewrite Em in V. cbn [bind] in V.
  assert (I : exists v, In (key, v) t). { clear - F. induction t as [|[x v] t IH]; cbn in *; [discriminate|]. destruct (String.eqb_spec x key) as [->|N]; [eauto|]. destruct (IH F); eauto. } destruct I as [v I].
  pose proof (each_ok _ _ V _ I) as K. cbn [fst] in K. destruct (Nat.eqb_spec (length (split key)) (components m)) as [E1|E1]; cbn [check bind] in K; [|discriminate]. destruct (forallb check_CAS (split key)) eqn:E2; cbn [check bind] in K; [|discriminate]. rewrite F in K. cbn [bind] in K.
  splits; auto; [now rewrite forallb_forall in E2|]. intros ip Hip. pose proof (each_ok _ _ K ip Hip) as K2. cbv beta in K2. destruct (find ip values) as [[| |r]|]; try discriminate. eauto.
Qed.

(* ---- scalar parameters ---- *)
Theorem C41_scalar_lookup d name c x : loaded d -> find name (tables d) <> None -> get_parameter_specific d name c x = value_or_default d name x (stored d name c x).
Proof.
  intros HD HN. unfold get_parameter_specific, get, value_or_default, stored, default. destruct (find name (tables d)) as [t|] eqn:E; [|congruence]. cbn [bind]. destruct (find name (metadata d)) as [m|] eqn:E2; [|apply (loaded_both d name HD) in E2; congruence].
  destruct (find c t) as [v|]; cbn [bind]; [destruct (find x v); auto|]; cbn [bind]; auto.
Qed.
Theorem C41_scalar_vector d name CASs x l : get_parameter_vector d name CASs x = Ok l -> length l = length CASs /\ forall i, i < length CASs -> get_parameter_specific d name (nth i CASs EmptyString) x = Ok (nth i l Null).
Proof.
  unfold get_parameter_vector. destruct (get name (tables d)); cbn [bind]; [|discriminate]. revert l. induction CASs as [|c CASs IH]; cbn [fold_right]; intros l.
  - intros [= <-]. split; auto. cbn; intros; lia.
  - destruct (get_parameter_specific d name c x) eqn:E; cbn [bind]; [|discriminate]. destruct (fold_right _ _ _) as [l'|]; cbn [bind]; [|discriminate]. intros [= <-]. destruct (IH l' eq_refl) as [H1 H2]. split; [cbn; lia|]. intros [|i] Hi; cbn [nth]; auto. apply H2. cbn in Hi. lia.
Qed.
Theorem C41_scalar_vector_succeeds d name CASs x : loaded d -> find name (tables d) <> None -> default d name x <> None -> exists l, get_parameter_vector d name CASs x = Ok l.
Proof.
  intros HD HN HX. unfold get_parameter_vector. unfold get at 1. destruct (find name (tables d)) as [t|] eqn:E; [|congruence]. cbn [bind]. induction CASs as [|c CASs [l IH]]; cbn [fold_right]; [eauto|].
  rewrite C41_scalar_lookup by congruence. unfold value_or_default. destruct (stored d name c x); cbn [bind]; [rewrite IH; cbn [bind]; eauto|]. destruct (default d name x); [|congruence]. cbn [bind]. rewrite IH. cbn [bind]. eauto.
Qed.
Theorem C41_scalar_has d name c x : find name (tables d) <> None -> (has_parameter_specific d name c x = Ok true <-> stored d name c x <> None) /\ (has_parameter_specific d name c x = Ok false <-> stored d name c x = None).
Proof.
  intros HN. unfold has_parameter_specific, stored, get. destruct (find name (tables d)) as [t|]; [|congruence]. cbn [bind]. destruct (find c t) as [v|]; [destruct (find x v)|]; split; split; intros H; try congruence; try discriminate; auto.
Qed.
Theorem C41_scalar_automatic d c x : match tables_with_parameter d x with name :: _ => get_parameter_automatic d c x = get_parameter_specific d name c x | [] => get_parameter_automatic d c x = Raise Index_error end /\
  forall name, In name (tables_with_parameter d x) <-> exists m, In (name, m) (metadata d) /\ find x (missing m) <> None.
Proof.
  split; [unfold get_parameter_automatic; destruct (tables_with_parameter d x); auto|]. intros name. unfold tables_with_parameter. rewrite in_map_iff. split.
  - intros ([n m] & <- & H). apply filter_In in H as [H1 H2]. exists m. split; auto. cbn [snd] in H2. destruct (find x (missing m)); congruence.
  - intros (m & H1 & H2). exists (name, m). split; auto. apply filter_In. split; auto. cbn [snd]. destruct (find x (missing m)); congruence.
Qed.
End C41.

(* ---- limits of the claim ---- *)
Definition ints (s : string) : Z := if String.eqb s "74-82-8" then 74828 else if String.eqb s "74-84-0" then 74840 else 0.
Definition kij : string := "kij".
Definition pr (sym : bool) : meta := {| symmetric := sym; components := 2; necessary_keys := [kij]; type := "PR kij"; missing := [(kij, Num 0)] |}.
Definition ch4 : string := "74-82-8".
Definition c2h6 : string := "74-84-0".
Definition pairkey : string := "74-82-8 74-84-0".
Definition pairback : string := "74-84-0 74-82-8".
(* the automatic lookup takes the first table of the type, not (as documented) the first one containing the value *)
Theorem C41_automatic_refuted : exists d, loaded d /\ get_tables_with_type d "PR kij" = ["A"; "B"]%string /\ has_ip_specific ints d "A" [ch4; c2h6] kij = Ok false /\ get_ip_specific ints d "B" [ch4; c2h6] kij = Ok (Num 5) /\ get_ip_automatic ints d [ch4; c2h6] "PR kij" kij = Ok (Num 0).
Proof.
  exists (load_json (load_json empty_db [] (pr true) "A") [(pairkey, [(kij, Num 5)])] (pr true) "B"). splits; try reflexivity. repeat constructor.
Qed.
(* an entry of a symmetric table written in decreasing order passes validation and is never found *)
Theorem C41_decreasing_key_refuted : exists d, loaded d /\ validate_table (fun _ => true) d "A" = Ok tt /\ stored d "A" pairback kij = Some (Num 5) /\ get_ip_specific ints d "A" [ch4; c2h6] kij = Ok (Num 0) /\ get_ip_specific ints d "A" [c2h6; ch4] kij = Ok (Num 0).
Proof. exists (load_json empty_db [(pairback, [(kij, Num 5)])] (pr true) "A"). splits; try reflexivity. repeat constructor. Qed.
(* the symmetric matrix of a table that is not symmetric repeats the upper entries below the diagonal *)
Theorem C41_symmetric_matrix_refuted : exists d M, loaded d /\ get_ip_symmetric_matrix ints d "A" [ch4; c2h6] kij = Ok M /\ get_ip_specific ints d "A" [c2h6; ch4] kij = Ok (Num 7) /\ M 1 0 = Num 5.
Proof. exists (load_json empty_db [(pairkey, [(kij, Num 5)]); (pairback, [(kij, Num 7)])] (pr false) "A"). eexists. splits; try reflexivity. repeat constructor. Qed.

Example C41_hypotheses_met : exists d, loaded d /\ table_kind d "A" true /\ find "A" (tables d) <> None /\ default d "A" kij <> None /\ get_ip_specific ints d "A" [c2h6; ch4] kij = Ok (Num 5) /\ get_ip_specific ints d "A" [ch4; c2h6] kij = Ok (Num 5) /\ increasing ints [ch4; c2h6] /\ validate_table (fun _ => true) d "A" = Ok tt.
Proof.
  exists (load_json empty_db [(pairkey, [(kij, Num 5)])] (pr true) "A"). splits; try reflexivity; try discriminate.
  - repeat constructor.
  - eexists. split; reflexivity.
  - repeat constructor.
Qed.
