(* C64: the flash with several liquids at T and P. *)
From Coq Require Import Reals List Bool Arith Lra Lia.
From Verif Require Import Base BaseFacts Model_vln.
Import ListNotations.
Open Scope R_scope.

(* --- specification: the molar Gibbs energy of a state --- *)
Fixpoint weighted {Phase : Type} (G : Phase -> R) (ps : list Phase) (bs : list R) : R :=
  match ps, bs with p :: ps, b :: bs => b * G p + weighted G ps bs | _, _ => 0 end.
Definition gibbs {Phase : Type} (G : Phase -> R) (a : answer Phase) : option R :=
  match a with
  | AOne (Some p) => Some (G p)
  | AOne None => None
  | AVL g l bg bl => Some (bg * G g + bl * G l)
  | ALL l0 l1 b0 b1 => Some (b0 * G l0 + b1 * G l1)
  | AMany ps bs => Some (weighted G ps bs)
  end.

Section C64.
  Variable Phase : Type.
  Variable G : Phase -> R.
  Variables (gas : Phase) (liquids : list Phase) (N unique_liquids : nat).
  Variable vl : res (two Phase).
  Variable ll : Phase -> res (two Phase).
  Variables (double : bool) (candidates : answer Phase -> res (list (res (two Phase)))).
  Variable stab : list Phase -> Phase -> Phase -> res bool.
  Variable np : list Phase -> res (list Phase * list R).
  Variable last_resort : res (Phase * Phase * R).
  Notation flash := (flash_TPV Phase G gas liquids N unique_liquids vl ll double candidates stab np last_resort).
  Notation phases := (gas :: liquids).

  Lemma total_weighted ps bs : total Phase G ps bs = weighted G ps bs.
  Proof.
    unfold total. assert (K : forall ps bs a, fold_left Rplus (map (fun x => fst x * G (snd x)) (combine bs ps)) a = a + weighted G ps bs).
    { clear. induction ps as [|p ps IH]; intros [|b bs] a; cbn; try ring. rewrite IH. ring. }
    rewrite K. ring.
  Qed.
  Lemma total2_val a b ba bb : total2 Phase G a b ba bb = ba * G a + bb * G b.
  Proof. unfold total2. rewrite total_weighted. cbn. ring. Qed.
  Lemma min_spec l : forall m g, (match m with Some q => g = G q | None => g = 10 ^ 100 end) ->
    let '(m', g') := fold_left (fun '(m, g) p => if Rltb (G p) g then (Some p, G p) else (m, g)) l (m, g) in
    g' <= g /\ (forall p, In p l -> g' <= G p) /\ match m' with Some q => g' = G q /\ (In q l \/ m = Some q) | None => g' = 10 ^ 100 /\ m = None end.
  Proof.
    induction l as [|p l IH]; intros m g Hm; cbn [fold_left].
    - splits; [lra|intros ? []|]. destruct m; auto.
    - destruct (Rltb_spec (G p) g) as [Hlt|Hge].
      + specialize (IH (Some p) (G p) eq_refl). destruct (fold_left _ l (Some p, G p)) as [m' g']. destruct IH as [I1 [I2 I3]]. splits; [lra| |].
        * intros q [<-|Hq]; [exact I1|apply I2, Hq].
        * destruct m'; [|destruct I3; discriminate]. destruct I3 as [I3 [I4|I4]]; [split; [exact I3|left; right; exact I4]|injection I4; intros <-; split; [exact I3|left; left; reflexivity]].
      + specialize (IH m g Hm). destruct (fold_left _ l (m, g)) as [m' g']. destruct IH as [I1 [I2 I3]]. splits; [exact I1| |].
        * intros q [<-|Hq]; [lra|apply I2, Hq].
        * destruct m'; [|exact I3]. destruct I3 as [I3 [I4|I4]]; [split; [exact I3|left; right; exact I4]|split; [exact I3|right; exact I4]].
  Qed.
  Lemma min1_spec : let '(m, g) := min_phase_1P Phase G phases in (forall p, In p phases -> g <= G p) /\
    match m with Some q => g = G q /\ In q phases | None => g = 10 ^ 100 end.
  Proof.
    unfold min_phase_1P. pose proof (min_spec phases None (10 ^ 100) eq_refl) as H. destruct (fold_left _ phases _) as [m g]. destruct H as [H1 [H2 H3]].
    split; [exact H2|]. destruct m; [destruct H3 as [H3 [H4|H4]]; [auto|discriminate]|apply H3].
  Qed.
  Lemma found_gibbs (s : answer Phase) g : gibbs G s = Some g -> total Phase G (fst (found Phase s)) (snd (found Phase s)) = g.
  Proof. rewrite total_weighted. destruct s as [[p|]|a b ba bb|a b ba bb|ps bs]; cbn; intros H; try discriminate; injection H; intros <-; try ring; reflexivity. Qed.
  Lemma double_check_spec l : forall s g s' g', double_check Phase G l s g = Ret (s', g') -> gibbs G s = Some g ->
    gibbs G s' = Some g' /\ g' <= g /\ (s' = s \/ exists a b ba bb, s' = ALL Phase a b ba bb) /\
    forall a b ba bb, In (Ret (Two Phase a b ba bb)) l -> g' <= ba * G a + bb * G b.
  Proof.
    induction l as [|[[|a b ba bb]|e] l IH]; intros s g s' g' H Hs; cbn [double_check] in H.
    - injection H. intros <- <-. splits; auto; [lra|intros ? ? ? ? []].
    - destruct (IH _ _ _ _ H Hs) as [I1 [I2 [I3 I4]]]. splits; auto. intros ? ? ? ? [E|Hi]; [discriminate|eapply I4; exact Hi].
    - rewrite !total2_val in H. destruct (Rltb_spec (ba * G a + bb * G b) g) as [Hlt|Hge].
      + destruct (IH _ _ _ _ H eq_refl) as [I1 [I2 [I3 I4]]]. splits; auto; [lra| |].
        * right. destruct I3 as [->|I3]; [eauto|exact I3].
        * intros a' b' ba' bb' [E|Hi]; [injection E; intros <- <- <- <-; exact I2|eapply I4; exact Hi].
      + destruct (IH _ _ _ _ H Hs) as [I1 [I2 [I3 I4]]]. splits; auto. intros a' b' ba' bb' [E|Hi]; [injection E; intros <- <- <- <-; lra|eapply I4; exact Hi].
    - destruct (skipped e); [|discriminate]. destruct (IH _ _ _ _ H Hs) as [I1 [I2 [I3 I4]]]. splits; auto. intros ? ? ? ? [E|Hi]; [discriminate|eapply I4; exact Hi].
  Qed.

  (* the two phase state found first, in terms of the flashes *)
  Definition first_LL : option (Phase * Phase * R * R) := if (1 <? length liquids)%nat then search_LL Phase ll (tl liquids) else None.
  Definition start_state (s : answer Phase) : Prop :=
    match vl with
    | Ret (Two g l bg bl) => s = AVL Phase g l bg bl
    | _ => match first_LL with Some (a, b, ba, bb) => s = ALL Phase a b ba bb | None => s = AOne Phase (fst (min_phase_1P Phase G phases)) end
    end.
  Definition solved_VL : bool := match vl with Ret (Two _ _ _ _) => true | _ => false end.
  Definition solved_LL : bool := negb solved_VL && match first_LL with Some _ => true | None => false end.
  Definition two_phase_end : bool := (solved_LL && (length liquids =? 2)%nat) || (solved_VL && (length liquids =? 1)%nat) || ((N <? 3)%nat && (solved_VL || solved_LL)).

  Definition is_two (s : answer Phase) : Prop := match s with AVL _ _ _ _ | ALL _ _ _ _ => True | _ => False end.
  (* the ways to an answer *)
  Inductive way (a : answer Phase) : Prop :=
  | way_end s start g0 g2 : start_state start -> gibbs G start = Some g0 -> gibbs G s = Some g2 -> is_two s -> g2 <= g0 -> two_phase_end = true ->
      a = (if Rltb g2 (snd (min_phase_1P Phase G phases)) then s else AOne Phase (fst (min_phase_1P Phase G phases))) -> way a
  | way_one : solved_VL = false -> solved_LL = false -> a = AOne Phase (fst (min_phase_1P Phase G phases)) -> way a
  | way_stable s start g0 g2 : start_state start -> gibbs G start = Some g0 -> gibbs G s = Some g2 -> is_two s -> g2 <= g0 -> two_phase_end = false -> solved_VL = true \/ solved_LL = true ->
      a = s -> way a
  | way_three s start g0 g2 fp ps bs : start_state start -> gibbs G start = Some g0 -> gibbs G s = Some g2 -> is_two s -> g2 <= g0 -> two_phase_end = false -> solved_VL = true \/ solved_LL = true ->
      np fp = Ret (ps, bs) -> length fp = 3%nat -> three_phase Phase G liquids np fp g2 = Accepted Phase ps bs -> a = AMany Phase ps bs -> way a
  | way_last s start g0 g2 : start_state start -> gibbs G start = Some g0 -> gibbs G s = Some g2 -> is_two s -> g2 <= g0 -> two_phase_end = false -> solved_VL = true ->
      try_last Phase G last_resort s g2 = Ret a -> way a
  | way_more start g0 g2 fp ps bs : start_state start -> gibbs G start = Some g0 -> g2 <= g0 -> two_phase_end = false -> solved_VL = true \/ solved_LL = true -> length fp = 3%nat ->
      three_phase Phase G liquids np fp g2 = Continue Phase ps bs ->
      (if (N =? 3)%nat then a = AMany Phase ps bs else
        more_phases Phase (fun ps l => match ps with [] => Exn Other | b :: _ => stab ps b l end) np (S (length liquids)) (skipn 2 liquids) ps bs = Ret a) -> way a.

  Lemma three_np fp g2 ps bs : three_phase Phase G liquids np fp g2 = Accepted Phase ps bs \/ three_phase Phase G liquids np fp g2 = Continue Phase ps bs -> np fp = Ret (ps, bs).
  Proof.
    unfold three_phase. destruct (np fp) as [[ps' bs']|e]; [|intros [H|H]; discriminate].
    destruct ((length ps' <? 3)%nat || (length bs' <? 3)%nat); [intros [H|H]; discriminate|].
    destruct ((max_phases Phase liquids =? 3)%nat && good_betas bs').
    - destruct (Rltb g2 _); intros [H|H]; try discriminate; injection H; intros <- <-; reflexivity.
    - destruct (negb (good_betas bs') || Rltb g2 _); intros [H|H]; try discriminate; injection H; intros <- <-; reflexivity.
  Qed.
  Lemma flash_way a : flash = Ret a -> way a.
  Proof.
    unfold flash_TPV. destruct (min_phase_1P Phase G phases) as [min1 G1] eqn:Em. fold (first_LL).
    set (VL := match vl with Ret (Two g l bg bl) => Some (g, l, bg, bl) | _ => None end).
    set (LL := match VL with Some _ => None | None => _ end).
    assert (HLL : LL = match VL with Some _ => None | None => first_LL end) by reflexivity. clearbody LL.
    assert (Hvl : match VL with Some _ => true | None => false end = solved_VL) by (unfold VL, solved_VL; destruct vl as [[|]|]; reflexivity).
    assert (Hll : match LL with Some _ => true | None => false end = solved_LL).
    { unfold solved_LL. rewrite HLL, <- Hvl. destruct VL; [reflexivity|]. destruct first_LL; reflexivity. }
    set (start := match VL, LL with Some (g, l, bg, bl), _ => AVL Phase g l bg bl | None, Some (a, b, ba, bb) => ALL Phase a b ba bb | None, None => AOne Phase min1 end).
    assert (Hstart : start_state start).
    { unfold start_state, start. rewrite HLL. unfold VL. destruct vl as [[|g l bg bl]|e]; cbv beta iota.
      - destruct first_LL as [[[[? ?] ?] ?]|]; [reflexivity|]. rewrite Em. reflexivity.
      - reflexivity.
      - destruct first_LL as [[[[? ?] ?] ?]|]; [reflexivity|]. rewrite Em. reflexivity. }
    assert (Hone : solved_VL = false -> solved_LL = false -> start = AOne Phase min1).
    { intros H1 H2. unfold start. destruct VL; [congruence|]. destruct LL; [congruence|]. reflexivity. }
    rewrite Hvl, Hll. clearbody start. clear HLL Hvl.
    intros H. assert (Hg : exists g0, gibbs G start = Some g0 /\ match start with AOne None => False | _ => True end).
    { destruct start as [[p|]|a0 b0 c0 d0|a0 b0 c0 d0|ps0 bs0]; [|discriminate H| | |]; eexists; split; try reflexivity; exact I. }
    destruct Hg as [g0 [Hg Hnn]]. pose proof (found_gibbs _ _ Hg) as Hf.
    assert (K : (let G_2P := total Phase G (fst (found Phase start)) (snd (found Phase start)) in
      match (if double && has_2P Phase vl ll (tl liquids) then match candidates start with Exn e => Exn e | Ret l => double_check Phase G l start G_2P end else Ret (start, G_2P)) with
      | Exn e => Exn e
      | Ret (s, G_2P) =>
            if ((solved_LL && (max_liquids Phase liquids =? 2)%nat) || (solved_VL && (max_liquids Phase liquids =? 1)%nat) || ((N <? 3)%nat && (solved_VL || solved_LL))) then
              (if Rltb G_2P G1 then Ret s else Ret (AOne Phase min1))
            else if negb solved_LL && negb solved_VL then Ret (AOne Phase min1)
            else
              match fst (found Phase s), (if solved_LL then Some gas else nth_error liquids 1) with
              | base :: _, Some other =>
                  let fnd := fst (found Phase s) in
                  let verdict := match stab fnd base other with
                                 | Exn e => Exn e
                                 | Ret true => if (2 <? unique_liquids)%nat then others_test Phase (stab fnd base) (skipn 2 liquids) other else Ret (true, other)
                                 | Ret false => Ret (false, other)
                                 end in
                  match verdict with
                  | Exn e => Exn e
                  | Ret (true, _) => Ret s
                  | Ret (false, other) =>
                      match three_phase Phase G liquids np (fnd ++ [other]) G_2P with
                      | Accepted ps bs => Ret (AMany Phase ps bs)
                      | Failed => if solved_VL then try_last Phase G last_resort s G_2P else Ret s
                      | Continue ps bs =>
                          if (N =? 3)%nat then Ret (AMany Phase ps bs)
                          else more_phases Phase (fun ps l => match ps with [] => Exn Other | b :: _ => stab ps b l end) np (max_phases Phase liquids) (skipn 2 liquids) ps bs
                      end
                  end
              | _, _ => Exn Other
              end
        end) = Ret a).
    { destruct start as [[p|]|a0 b0 c0 d0|a0 b0 c0 d0|ps0 bs0]; [exact H|destruct Hnn|exact H|exact H|exact H]. }
    clear H. cbv zeta in K. rewrite Hf in K.
    destruct (if double && has_2P Phase vl ll (tl liquids) then match candidates start with Exn e => Exn e | Ret l => double_check Phase G l start g0 end else Ret (start, g0)) as [[s g2]|e] eqn:Ec; [|discriminate].
    assert (Hs : gibbs G s = Some g2 /\ g2 <= g0 /\ (s = start \/ exists a b ba bb, s = ALL Phase a b ba bb)).
    { destruct (double && has_2P Phase vl ll (tl liquids)).
      - destruct (candidates start) as [l|e]; [|discriminate]. destruct (double_check_spec _ _ _ _ _ Ec Hg) as [I1 [I2 [I3 _]]]. auto.
      - injection Ec. intros <- <-. splits; auto. lra. }
    destruct Hs as [Hs [Hle Hsh]].
    assert (Ht : solved_VL = true \/ solved_LL = true -> is_two s).
    { intros Hso. destruct Hsh as [->|[a0 [b0 [c0 [d0 ->]]]]]; [|exact I]. unfold start_state in Hstart. unfold solved_LL, solved_VL in Hso.
      destruct vl as [[|]|]; [|rewrite Hstart; exact I|]; cbn in Hso; destruct first_LL as [[[[? ?] ?] ?]|]; try (rewrite Hstart; exact I); destruct Hso; discriminate. }
    unfold max_liquids in K. fold two_phase_end in K. destruct two_phase_end eqn:Ee.
    { assert (Hso : solved_VL = true \/ solved_LL = true).
      { unfold two_phase_end in Ee. destruct solved_LL, solved_VL; auto. rewrite andb_false_r in Ee. discriminate. }
      specialize (Ht Hso).  eapply way_end; eauto. rewrite Em. cbn. destruct (Rltb g2 G1); injection K; auto. }
    destruct solved_LL eqn:El, solved_VL eqn:Ev; cbn [negb andb] in K; try (unfold solved_LL in El; rewrite Ev in El; discriminate El).
    3:{ apply way_one; auto. rewrite Em. cbn. injection K. auto. }
    - assert (Hso : solved_VL = true \/ solved_LL = true) by (rewrite El; auto).
      assert (Ht' : is_two s) by (apply Ht; auto). assert (H2 : length (fst (found Phase s)) = 2%nat) by (destruct s; try destruct Ht'; reflexivity).
      destruct (fst (found Phase s)) as [|base rest] eqn:Efs; [discriminate|].
      match type of K with match ?v with _ => _ end = _ => destruct v as [[[|] o]|e] end; [| |discriminate].
      + injection K. intros <-. eapply way_stable; eauto.
      + assert (Hl3 : length ((base :: rest) ++ [o]) = 3%nat) by (rewrite app_length, H2; reflexivity).
        destruct (three_phase Phase G liquids np ((base :: rest) ++ [o]) g2) as [ps bs| |ps bs] eqn:E3.
        * injection K. intros <-. eapply way_three; eauto. eapply three_np; left; exact E3.
        * injection K. intros <-. eapply way_stable; eauto.
        * eapply way_more; eauto. destruct (N =? 3)%nat; [injection K; auto|exact K].
    - assert (Hso : solved_VL = true \/ solved_LL = true) by auto.
      assert (Ht' : is_two s) by (apply Ht; auto). assert (H2 : length (fst (found Phase s)) = 2%nat) by (destruct s; try destruct Ht'; reflexivity).
      destruct (fst (found Phase s)) as [|base rest] eqn:Efs; [discriminate|].
      destruct (nth_error liquids 1) as [other|]; [|discriminate].
      match type of K with match ?v with _ => _ end = _ => destruct v as [[[|] o]|e] end; [| |discriminate].
      + injection K. intros <-. eapply way_stable; eauto.
      + assert (Hl3 : length ((base :: rest) ++ [o]) = 3%nat) by (rewrite app_length, H2; reflexivity).
        destruct (three_phase Phase G liquids np ((base :: rest) ++ [o]) g2) as [ps bs| |ps bs] eqn:E3.
        * injection K. intros <-. eapply way_three; eauto. eapply three_np; left; exact E3.
        * eapply way_last; eauto.
        * eapply way_more; eauto. destruct (N =? 3)%nat; [injection K; auto|exact K].
  Qed.

  (* C64: with one liquid or fewer than three components, no single phase has a lower Gibbs energy than the answer *)
  Theorem C64_not_above_single a : (exists p, In p phases /\ G p < 10 ^ 100) -> length liquids = 1%nat \/ (N < 3)%nat -> flash = Ret a ->
    exists g, gibbs G a = Some g /\ forall p, In p phases -> g <= G p.
  Proof.
    intros [p0 [Hp0 Hlt0]] Hc H. pose proof min1_spec as M. destruct (min_phase_1P Phase G phases) as [m g1] eqn:Em. destruct M as [M1 M2].
    assert (Hm : exists q, m = Some q /\ g1 = G q) by (destruct m as [q|]; [exists q; split; [reflexivity|apply M2]|exfalso; specialize (M1 p0 Hp0); lra]).
    destruct Hm as [q [-> Hq]].
    assert (Hone : forall a, a = AOne Phase (Some q) -> exists g, gibbs G a = Some g /\ forall p, In p phases -> g <= G p).
    { intros b ->. exists (G q). split; [reflexivity|]. intros p Hp. rewrite <- Hq. apply M1, Hp. }
    assert (Hend : solved_VL = true \/ solved_LL = true -> two_phase_end = true).
    { intros Hs. unfold two_phase_end. destruct Hc as [Hc|Hc].
      - rewrite Hc. unfold solved_LL, first_LL in *. rewrite Hc in *. cbn in *. rewrite andb_false_r in *. destruct Hs as [Hs|Hs]; [rewrite Hs; reflexivity|discriminate].
      - apply Nat.ltb_lt in Hc. rewrite Hc. destruct Hs as [-> | ->]; cbn; rewrite ?orb_true_r; reflexivity. }
    destruct (flash_way a H) as [s st g0 g2 Hst Hg0 Hs Htw Hle He Ha|Hv Hl Ha|? ? ? ? ? ? ? ? ? He Hso|? ? ? ? ? ? ? ? ? ? ? ? He Hso|? ? ? ? ? ? ? ? ? He Hso|? ? ? ? ? ? ? ? ? He Hso].
    - rewrite Em in Ha. cbn [fst snd] in Ha. destruct (Rltb_spec g2 g1) as [Hlt|Hge]; [|apply Hone, Ha]. subst a. exists g2. split; [exact Hs|]. intros p Hp. specialize (M1 p Hp). lra.
    - rewrite Em in Ha. apply Hone, Ha.
    - rewrite (Hend Hso) in He. discriminate.
    - rewrite (Hend Hso) in He. discriminate.
    - rewrite (Hend (or_introl Hso)) in He. discriminate.
    - rewrite (Hend Hso) in He. discriminate.
  Qed.
  (* a single phase answer is one of the phases, with the lowest Gibbs energy *)
  Theorem C64_single p : flash = Ret (AOne Phase (Some p)) -> In p phases /\ forall q, In q phases -> G p <= G q.
  Proof.
    intros H. pose proof min1_spec as M. destruct (min_phase_1P Phase G phases) as [m g1] eqn:Em. destruct M as [M1 M2].
    assert (Hone : AOne Phase (Some p) = AOne Phase m -> In p phases /\ forall q, In q phases -> G p <= G q).
    { intros E. injection E. intros <-. destruct M2 as [<- M3]. split; [exact M3|exact M1]. }
    destruct (flash_way _ H) as [s st g0 g2 Hst Hg0 Hs Htw Hle He Ha|Hv Hl Ha|s st g0 g2 Hst Hg0 Hs Htw Hle He Hso Ha|s st g0 g2 fp ps bs Hst Hg0 Hs Htw Hle He Hso Hn Hlen Ht Ha|s st g0 g2 Hst Hg0 Hs Htw Hle He Hso Ha|st g0 g2 fp ps bs Hst Hg0 Hle He Hso Hlen Ht Ha].
    - rewrite Em in Ha. cbn [fst snd] in Ha. destruct (Rltb g2 g1); [subst s; destruct Htw|apply Hone, Ha].
    - rewrite Em in Ha. apply Hone, Ha.
    - subst s. destruct Htw.
    - discriminate.
    - unfold try_last in Ha. destruct last_resort as [[[l g] vf]|e].
      + destruct (Rltb _ g2); [discriminate|]. injection Ha. intros ->. destruct Htw.
      + destruct (caught e); [|discriminate]. injection Ha. intros ->. destruct Htw.
    - destruct (N =? 3)%nat; [discriminate|]. exfalso. revert Ha. generalize (S (length liquids)) as mp. intros mp. clear. revert ps bs. induction (skipn 2 liquids) as [|l ls IH]; intros ps bs; cbn [more_phases]; [discriminate|].
      destruct (length bs <? mp)%nat; [|discriminate]. set (v := match ps with [] => _ | _ :: _ => _ end). destruct v as [[|]|e]; [apply IH| |discriminate].
      destruct (np (ps ++ [l])) as [[ps' bs']|e]; [|apply IH]. destruct (mp =? length bs')%nat; [discriminate|apply IH].
  Qed.

  (* --- never worse than the state found first --- *)
  Hypothesis np_lengths : forall fp ps bs, np fp = Ret (ps, bs) -> length ps = length fp /\ length bs = length fp.
  Lemma three_spec fp g2 ps bs : length fp = 3%nat -> three_phase Phase G liquids np fp g2 = Accepted Phase ps bs \/ three_phase Phase G liquids np fp g2 = Continue Phase ps bs ->
    weighted G ps bs <= g2 /\ length ps = 3%nat /\ forall b, In b bs -> 0 <= b <= 1.
  Proof.
    intros Hl H. pose proof (three_np _ _ _ _ H) as Hnp. destruct (np_lengths _ _ _ Hnp) as [L1 L2]. rewrite Hl in L1, L2. unfold three_phase in H. rewrite Hnp in H.
    rewrite L1, L2 in H. cbn [Nat.ltb Nat.leb orb] in H. rewrite (firstn_all2 ps), (firstn_all2 bs) in H by lia. rewrite total_weighted in H.
    assert (Hb : good_betas bs = true -> forall b, In b bs -> 0 <= b <= 1).
    { intros Hg b Hi. unfold good_betas in Hg. rewrite forallb_forall in Hg. specialize (Hg b Hi). destruct (Rltb_spec b 0), (Rltb_spec 1 b); try discriminate. lra. }
    destruct ((max_phases Phase liquids =? 3)%nat && good_betas bs) eqn:E.
    - apply andb_true_iff in E as [_ E]. destruct (Rltb_spec g2 (weighted G ps bs)); [destruct H; discriminate|]. splits; auto. lra.
    - destruct (good_betas bs); cbn [negb orb] in H; [|destruct H; discriminate]. destruct (Rltb_spec g2 (weighted G ps bs)); [destruct H; discriminate|]. splits; auto. lra.
  Qed.
  Lemma not_above_first a st g0 : (exists p, In p phases /\ G p < 10 ^ 100) -> (length liquids <= 2)%nat \/ N = 3%nat -> start_state st -> gibbs G st = Some g0 -> flash = Ret a ->
    exists g, gibbs G a = Some g /\ g <= g0.
  Proof.
    intros [p0 [Hp0 Hlt0]] Hc Hst Hg0 H. pose proof min1_spec as M. destruct (min_phase_1P Phase G phases) as [m g1] eqn:Em. destruct M as [M1 M2].
    assert (Hm : exists q, m = Some q /\ g1 = G q) by (destruct m as [q|]; [exists q; split; [reflexivity|apply M2]|exfalso; specialize (M1 p0 Hp0); lra]).
    destruct Hm as [q [-> Hq]].
    assert (Hsame : forall st' g', start_state st' -> gibbs G st' = Some g' -> g' = g0).
    { intros st' g' H1 H2. assert (st' = st); [|congruence]. unfold start_state in *. destruct vl as [[|]|]; try congruence; destruct first_LL as [[[[? ?] ?] ?]|]; congruence. }
    destruct (flash_way _ H) as [s st' g' g2 Hst' Hg' Hs Htw Hle He Ha|Hv Hl Ha|s st' g' g2 Hst' Hg' Hs Htw Hle He Hso Ha|s st' g' g2 fp ps bs Hst' Hg' Hs Htw Hle He Hso Hn Hlen Ht Ha|s st' g' g2 Hst' Hg' Hs Htw Hle He Hso Ha|st' g' g2 fp ps bs Hst' Hg' Hle He Hso Hlen Ht Ha];
      try rewrite (Hsame _ _ Hst' Hg') in *.
    - rewrite Em in Ha. cbn [fst snd] in Ha. destruct (Rltb_spec g2 g1); subst a; [exists g2; auto|]. exists (G q). split; [reflexivity|]. lra.
    - rewrite Em in Ha. subst a. exists (G q). split; [reflexivity|]. assert (E : st = AOne Phase (Some q)).
      { unfold start_state in Hst. unfold solved_LL, solved_VL in *. rewrite Em in Hst. destruct vl as [[|]|]; try discriminate; cbn in Hl; destruct first_LL; try discriminate; exact Hst. }
      rewrite E in Hg0. injection Hg0. intros <-. lra.
    - subst a. exists g2. auto.
    - subst a. destruct (three_spec _ _ _ _ Hlen (or_introl Ht)) as [T1 _]. exists (weighted G ps bs). split; [reflexivity|lra].
    - unfold try_last in Ha. destruct last_resort as [[[l g] vf]|e].
      + destruct (Rltb_spec (vf * G g + (1 - vf) * G l) g2); injection Ha; intros <-; [|exists g2; auto]. eexists. split; [reflexivity|]. lra.
      + destruct (caught e); [|discriminate]. injection Ha. intros <-. exists g2. auto.
    - destruct (three_spec _ _ _ _ Hlen (or_intror Ht)) as [T1 [T2 T3]]. destruct (Nat.eqb_spec N 3) as [E|E].
      + subst a. exists (weighted G ps bs). split; [reflexivity|lra].
      + destruct Hc as [Hc|Hc]; [|contradiction]. rewrite skipn_all2 in Ha by lia. cbn in Ha. injection Ha. intros <-. exists (weighted G ps bs). split; [reflexivity|lra].
  Qed.
  (* with up to two liquids, or three components, the Gibbs energy of the answer is not above that of the two phase state found first: the split
     of the first liquid and the gas, or else the first split of the first liquid and another *)
  Theorem C64_not_above_first a x y bx b_y : (exists p, In p phases /\ G p < 10 ^ 100) -> (length liquids <= 2)%nat \/ N = 3%nat ->
    (vl = Ret (Two Phase x y bx b_y) \/
     ((forall a b c d, vl <> Ret (Two Phase a b c d)) /\ exists l0 before l after, liquids = l0 :: before ++ l :: after /\ ll l = Ret (Two Phase x y bx b_y) /\
        forall m, In m before -> forall a b c d, ll m <> Ret (Two Phase a b c d))) ->
    flash = Ret a -> exists g, gibbs G a = Some g /\ g <= bx * G x + b_y * G y.
  Proof.
    intros Hp Hc [Hv|[Hv [l0 [before [l [after [El [Hl Hb]]]]]]]] H.
    - eapply (not_above_first a (AVL Phase x y bx b_y)); eauto. unfold start_state. rewrite Hv. reflexivity.
    - eapply (not_above_first a (ALL Phase x y bx b_y)); eauto. unfold start_state.
      assert (E : first_LL = Some (x, y, bx, b_y)).
      { unfold first_LL. assert (E1 : (1 <? length liquids)%nat = true) by (apply Nat.ltb_lt; rewrite El; cbn; rewrite app_length; cbn; lia). rewrite E1, El. cbn [tl].
        clear - Hl Hb. induction before as [|m before IH]; cbn; [rewrite Hl; reflexivity|].
        assert (Hm := Hb m (or_introl eq_refl)). destruct (ll m) as [[|? ? ? ?]|]; [|edestruct Hm; reflexivity|]; apply IH; intros m' Hm'; apply Hb; right; exact Hm'. }
      rewrite E. destruct vl as [[|a0 b0 c0 d0]|]; [reflexivity|destruct (Hv a0 b0 c0 d0 eq_refl)|reflexivity].
  Qed.
  (* and the fractions of three phases are fractions *)
  Theorem C64_three_fractions ps bs : (length liquids <= 2)%nat \/ N = 3%nat -> flash = Ret (AMany Phase ps bs) -> length ps = 3%nat /\ forall b, In b bs -> 0 <= b <= 1.
  Proof.
    intros Hc H.
    destruct (flash_way _ H) as [s st' g' g2 Hst' Hg' Hs Htw Hle He Ha|Hv Hl Ha|s st' g' g2 Hst' Hg' Hs Htw Hle He Hso Ha|s st' g' g2 fp ps' bs' Hst' Hg' Hs Htw Hle He Hso Hn Hlen Ht Ha|s st' g' g2 Hst' Hg' Hs Htw Hle He Hso Ha|st' g' g2 fp ps' bs' Hst' Hg' Hle He Hso Hlen Ht Ha].
    - destruct (Rltb g2 _); [subst s; destruct Htw|discriminate].
    - discriminate.
    - subst s. destruct Htw.
    - injection Ha. intros -> ->. destruct (three_spec _ _ _ _ Hlen (or_introl Ht)) as [_ T]. exact T.
    - unfold try_last in Ha. destruct last_resort as [[[l g] vf]|e].
      + destruct (Rltb _ g2); [discriminate|]. injection Ha. intros ->. destruct Htw.
      + destruct (caught e); [|discriminate]. injection Ha. intros ->. destruct Htw.
    - destruct (three_spec _ _ _ _ Hlen (or_intror Ht)) as [_ T]. destruct (Nat.eqb_spec N 3) as [E|E].
      + injection Ha. intros -> ->. exact T.
      + destruct Hc as [Hc|Hc]; [|contradiction]. rewrite skipn_all2 in Ha by lia. cbn in Ha. injection Ha. intros -> ->. exact T.
  Qed.
End C64.

(* Claimed: the optional second check of the two phase result finds splits missed by the first test. Refuted: when the first tests found one
   phase, whatever the second check finds is discarded. *)
Theorem C64_double_check_refuted Phase G gas l0 N u cands stab np last_resort : (exists p, (p = gas \/ p = l0) /\ G p < 10 ^ 100) ->
  forall a b ba bb, cands = [Ret (Two Phase a b ba bb)] -> exists p,
  flash_TPV Phase G gas [l0] N u (Ret (One Phase)) (fun _ => Ret (One Phase)) true (fun _ => Ret cands) stab np last_resort = Ret (AOne Phase (Some p)) /\
  G p <= G gas /\ G p <= G l0.
Proof.
  intros [p [Hp Hlt]] a b ba bb ->. unfold flash_TPV. pose proof (min1_spec Phase G gas [l0]) as M.
  destruct (min_phase_1P Phase G [gas; l0]) as [m g1]. destruct M as [M1 M2].
  destruct m as [q|]; [|exfalso; assert (g1 <= G p) by (apply M1; destruct Hp as [-> | ->]; cbn; auto); lra].
  exists q. destruct M2 as [M2 _]. split; [|split; rewrite <- M2; apply M1; cbn; auto].
  cbn [length max_liquids Nat.ltb Nat.leb].
  cbn [found fst snd has_2P andb double_check tl]. destruct (Rltb _ _); cbn [Nat.eqb andb orb negb]; rewrite andb_false_r; reflexivity.
Qed.
(* Claimed: a two phase state is only returned if its Gibbs energy is below that of every single phase. Refuted: with two liquids and three
   components it is returned when no third phase appears, without the comparison. *)
Theorem C64_above_single_refuted : exists (G : nat -> R),
  flash_TPV nat G 0%nat [1; 2]%nat 3 2 (Ret (Two nat 3%nat 4%nat (1/2) (1/2))) (fun _ => Ret (One nat)) false (fun _ => Ret []) (fun _ _ _ => Ret true) (fun _ => Exn Other) (Exn Other)
    = Ret (AVL nat 3%nat 4%nat (1/2) (1/2)) /\ G 0%nat < 1/2 * G 3%nat + 1/2 * G 4%nat.
Proof.
  exists (fun n => INR n). split; [|cbn; lra]. unfold flash_TPV. destruct (min_phase_1P nat (fun n => INR n) [0; 1; 2]%nat) as [m g]. reflexivity.
Qed.
(* Claimed: the fractions of a state with more than three phases are fractions, and it has a lower Gibbs energy. Refuted: from the fourth phase on
   the result of the iteration is taken as it is. *)
Theorem C64_four_phases_refuted : exists (G : nat -> R) np,
  flash_TPV nat G 0%nat [1; 2; 3]%nat 4 3 (Ret (Two nat 4%nat 5%nat (1/2) (1/2))) (fun _ => Ret (One nat)) false (fun _ => Ret []) (fun _ _ _ => Ret false) np (Exn Other)
    = Ret (AMany nat [6; 6; 6; 9]%nat [1; 1; 1; -2]) /\ weighted G [6; 6; 6; 9]%nat [1; 1; 1; -2] > 1/2 * G 4%nat + 1/2 * G 5%nat.
Proof.
  exists (fun n => if (n =? 9)%nat then -10 else 0).
  exists (fun fp => if (length fp =? 3)%nat then Ret ([6; 6; 6]%nat, [1/2; 1/2; 0]) else Ret ([6; 6; 6; 9]%nat, [1; 1; 1; -2])).
  split; [|cbn; lra]. unfold flash_TPV. destruct (min_phase_1P nat _ [0; 1; 2; 3]%nat) as [m g].
  cbn [max_liquids length Nat.ltb Nat.leb Nat.eqb andb orb negb found fst snd nth_error app three_phase max_phases].
  unfold three_phase, max_phases, max_liquids. cbn [length Nat.ltb Nat.leb Nat.eqb andb orb negb firstn]. unfold good_betas. cbn [forallb].
  destruct (Rltb_spec (1/2) 0); [lra|]. destruct (Rltb_spec 1 (1/2)); [lra|]. destruct (Rltb_spec 0 0); [lra|]. destruct (Rltb_spec 1 0); [lra|]. cbn [negb orb andb].
  rewrite !total_weighted. cbn [weighted Nat.eqb]. destruct (Rltb_spec (1/2 * 0 + (1/2 * 0 + 0)) (1/2 * 0 + (1/2 * 0 + (0 * 0 + 0)))); [lra|].
  reflexivity.
Qed.
(* Claimed: a gas is looked for beside two liquids. Refuted: with two liquids the answer after a split of the liquids does not depend on any test
   with the gas or iteration with three phases. *)
Theorem C64_no_third_refuted Phase G gas l0 l1 N u vl a b ba bb ll double cands stab stab' np np' last last' :
  (forall w x y z, vl <> Ret (Two Phase w x y z)) -> ll l1 = Ret (Two Phase a b ba bb) ->
  flash_TPV Phase G gas [l0; l1] N u vl ll double cands stab np last = flash_TPV Phase G gas [l0; l1] N u vl ll double cands stab' np' last'.
Proof.
  intros Hv Hl. unfold flash_TPV. destruct (min_phase_1P Phase G [gas; l0; l1]) as [m g].
  destruct vl as [[|w x y z]|e]; [|destruct (Hv w x y z eq_refl)|]; cbn [max_liquids length Nat.ltb Nat.leb tl search_LL]; rewrite Hl;
    destruct (if double && _ then _ else _) as [[s g2]|e']; reflexivity.
Qed.
(* Claimed: when the third phase does not converge the two phase state is returned. Refuted: an UnconvergedError of the last attempt is passed on. *)
Theorem C64_unconverged_refuted Phase (G : Phase -> R) gas l0 l1 u a b ba bb ll cands stab np : stab [a; b] a l1 = Ret false -> np [a; b; l1] = Exn Other ->
  (exists p, In p [gas; l0; l1] /\ G p < 10 ^ 100) ->
  flash_TPV Phase G gas [l0; l1] 3 u (Ret (Two Phase a b ba bb)) ll false cands stab np (Exn Unconverged) = Exn Unconverged.
Proof.
  intros H1 H2 _. unfold flash_TPV. destruct (min_phase_1P Phase G [gas; l0; l1]) as [m g].
  cbn [max_liquids length Nat.ltb Nat.leb Nat.eqb andb orb negb found fst snd nth_error app]. rewrite H1. unfold three_phase. rewrite H2. reflexivity.
Qed.
(* a failed flash from the hot start is followed by the full one *)
Theorem C64_hot_start Phase G gas liquids N u vl ll d c s n l e :
  entry Phase G gas liquids N u vl ll d c s n l (Some (Exn e)) None = flash_TPV Phase G gas liquids N u vl ll d c s n l.
Proof. reflexivity. Qed.

(* --- the flash at a vapour fraction --- *)
Section VF.
  Variable Phase : Type.
  Variable G : Phase -> R.
  Variable VF : R.
  Variable flash : Phase -> res (sln Phase).
  Definition mixG (s : sln Phase) : R := let '(_, l, g) := s in (1 - VF) * G l + VF * G g.
  Lemma sln_mix s : sln_G Phase G VF s = mixG s.
  Proof. destruct s as [[v l] g]. cbn. ring. Qed.
  Lemma best_spec ls : forall m g, (match m with Some s => g = mixG s | None => g = 10 ^ 100 end) ->
    match best Phase G VF flash ls m g with
    | Some s => (m = Some s \/ exists l, In l ls /\ flash l = Ret s) /\ mixG s <= g /\ (forall l t, In l ls -> flash l = Ret t -> mixG s <= mixG t)
    | None => m = None /\ forall l t, In l ls -> flash l = Ret t -> 10 ^ 100 <= mixG t
    end.
  Proof.
    induction ls as [|l ls IH]; intros m g Hm; cbn [best].
    - destruct m; [|split; [reflexivity|intros ? ? []]]. splits; auto; [lra|intros ? ? []].
    - destruct (flash l) as [s|e] eqn:E.
      + rewrite sln_mix. destruct (Rltb_spec (mixG s) g) as [Hlt|Hge].
        * specialize (IH (Some s) (mixG s) eq_refl). destruct (best Phase G VF flash ls (Some s) (mixG s)) as [s'|]; [|destruct IH; discriminate].
          destruct IH as [I1 [I2 I3]]. splits; [|lra|].
          -- right. destruct I1 as [I1|[l' [I1 I1']]]; [injection I1; intros <-; exists l; split; [left; reflexivity|exact E]|exists l'; split; [right; exact I1|exact I1']].
          -- intros l' t [<-|Hi] Ht; [rewrite E in Ht; injection Ht; intros <-; exact I2|apply (I3 l' t Hi Ht)].
        * specialize (IH m g Hm). destruct (best Phase G VF flash ls m g) as [s'|].
          -- destruct IH as [I1 [I2 I3]]. splits; [|exact I2|].
             ++ destruct I1 as [I1|[l' [I1 I1']]]; [left; exact I1|right; exists l'; split; [right; exact I1|exact I1']].
             ++ intros l' t [<-|Hi] Ht; [rewrite E in Ht; injection Ht; intros <-; lra|apply (I3 l' t Hi Ht)].
          -- destruct IH as [I1 I2]. split; [exact I1|]. intros l' t [<-|Hi] Ht; [|apply (I2 l' t Hi Ht)]. rewrite E in Ht. injection Ht. intros <-. subst m. lra.
      + specialize (IH m g Hm). destruct (best Phase G VF flash ls m g) as [s'|].
        * destruct IH as [I1 [I2 I3]]. splits; [|exact I2|].
          -- destruct I1 as [I1|[l' [I1 I1']]]; [left; exact I1|right; exists l'; split; [right; exact I1|exact I1']].
          -- intros l' t [<-|Hi] Ht; [congruence|apply (I3 l' t Hi Ht)].
        * destruct IH as [I1 I2]. split; [exact I1|]. intros l' t [<-|Hi] Ht; [congruence|apply (I2 l' t Hi Ht)].
  Qed.
  (* the solution returned is that of a liquid, with the lowest Gibbs energy of those that could be solved *)
  Theorem C64_fraction liquids unique s : length unique <> 1%nat -> flash_VF Phase G VF flash liquids unique None = Ret (Some s) ->
    (exists l, In l unique /\ flash l = Ret s) /\ forall l t, In l unique -> flash l = Ret t -> mixG s <= mixG t.
  Proof.
    intros Hn. unfold flash_VF. destruct (Nat.eqb_spec (length unique) 1); [contradiction|]. pose proof (best_spec unique None (10 ^ 100) eq_refl) as B.
    destruct (best Phase G VF flash unique None (10 ^ 100)) as [t|]; intros H; [|discriminate]. assert (E : t = s) by congruence. subst t. destruct B as [[B|B] [_ B3]]; [discriminate|]. auto.
  Qed.
  (* Claimed: if no liquid can be solved an exception is raised. Refuted: None is returned as the solution. *)
  Theorem C64_fraction_refuted liquids unique : length unique <> 1%nat -> (forall l, In l unique -> exists e, flash l = Exn e) ->
    flash_VF Phase G VF flash liquids unique None = Ret None.
  Proof.
    intros Hn H. unfold flash_VF. destruct (Nat.eqb_spec (length unique) 1); [contradiction|]. pose proof (best_spec unique None (10 ^ 100) eq_refl) as B.
    destruct (best Phase G VF flash unique None (10 ^ 100)) as [s|]; [|reflexivity]. destruct B as [[B|[l [B1 B2]]] _]; [discriminate|]. destruct (H l B1) as [e He]. congruence.
  Qed.
End VF.

(* a gas and a liquid with a third phase: the three phases are returned *)
Example C64_hypotheses_met :
  let G := fun n : nat => - INR n in
  flash_TPV nat G 0%nat [1; 2]%nat 3 2 (Ret (Two nat 3%nat 4%nat (1/2) (1/2))) (fun _ => Ret (One nat)) false (fun _ => Ret []) (fun _ _ _ => Ret false)
    (fun fp => match fp with [_; _; _] => Ret ([5; 6; 7]%nat, [1/4; 1/4; 1/2]) | _ => Exn Other end) (Exn Other) = Ret (AMany nat [5; 6; 7]%nat [1/4; 1/4; 1/2]).
Proof.
  cbv zeta. unfold flash_TPV. destruct (min_phase_1P nat _ [0; 1; 2]%nat) as [m g].
  cbn [max_liquids length Nat.ltb Nat.leb Nat.eqb andb orb negb found fst snd nth_error app].
  unfold three_phase, max_phases, max_liquids. cbn [length Nat.ltb Nat.leb Nat.eqb andb orb negb firstn]. unfold good_betas. cbn [forallb].
  destruct (Rltb_spec (1/4) 0); [lra|]. destruct (Rltb_spec 1 (1/4)); [lra|]. destruct (Rltb_spec (1/2) 0); [lra|]. destruct (Rltb_spec 1 (1/2)); [lra|]. cbn [negb orb andb].
  rewrite !total_weighted. cbn [weighted INR]. match goal with |- context [Rltb ?x ?y] => destruct (Rltb_spec x y) as [H|H] end; [exfalso; lra|]. reflexivity.
Qed.
