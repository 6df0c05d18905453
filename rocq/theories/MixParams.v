(* Closed forms of the composition-linear parameters set by the constructors of the mixture equations of state. *)
From Coq Require Import Reals Lra Lia Arith Bool FunctionalExtensionality.
From Coquelicot Require Import Coquelicot.
From Verif Require Import Base BaseFacts Spec_mix MixFacts Gen_mix Gen_eosmix.
Open Scope R_scope.

Lemma lin_loop n (zs b : nat -> R) : loop n (fun i s => s + b i * zs i) 0 = lin_mix n zs b.
Proof. rewrite (loop_rsum n (fun i => b i * zs i)). unfold lin_mix. rewrite Rplus_0_l. apply rsum_ext. intros. ring. Qed.
Lemma lin_rsum n (zs b : nat -> R) : rsum n (fun i => b i * zs i) = lin_mix n zs b.
Proof. unfold lin_mix. apply rsum_ext. intros. ring. Qed.
Lemma lin_loop2 n (zs b c : nat -> R) :
  loop n (fun i st_ => let '(x, y) := st_ in (x + b i * zs i, y + c i * zs i)) (0, 0) = (lin_mix n zs b, lin_mix n zs c).
Proof. rewrite (loop_pair n (fun i x => x + b i * zs i) (fun i y => y + c i * zs i)), !lin_loop. reflexivity. Qed.
Lemma lin_mix_minus n zs b c : lin_mix n zs (fun i => b i - c i) = lin_mix n zs b - lin_mix n zs c.
Proof. unfold lin_mix. rewrite <- rsum_minus. apply rsum_ext. intros. ring. Qed.

Section P.
Variables (n : nat) (zs bs b0s cs : nat -> R).
Let b := lin_mix n zs bs.
Let b0 := lin_mix n zs b0s.
Let c := lin_mix n zs cs.
Ltac go := first [rewrite lin_loop | rewrite lin_rsum | rewrite lin_loop2]; reflexivity.
Lemma RKMIX_params : RKMIX_init_params zs n bs = (b, b) /\ RKMIX_fast_params n bs zs = (b, b).
Proof. unfold RKMIX_init_params, RKMIX_fast_params. cbv zeta. split; go. Qed.
Lemma SRKMIX_params : SRKMIX_init_params zs bs n = (b, b) /\ SRKMIX_fast_params bs n zs = (b, b).
Proof. unfold SRKMIX_init_params, SRKMIX_fast_params. cbv zeta. split; go. Qed.
Lemma TWUSRKMIX_params : TWUSRKMIX_init_params zs n bs = (b, b) /\ TWUSRKMIX_fast_params n bs zs = (b, b).
Proof. unfold TWUSRKMIX_init_params, TWUSRKMIX_fast_params. cbv zeta. split; go. Qed.
Lemma APISRKMIX_params : APISRKMIX_init_params zs n bs = (b, b) /\ APISRKMIX_fast_params bs n zs = (b, b).
Proof. unfold APISRKMIX_init_params, APISRKMIX_fast_params. cbv zeta. split; go. Qed.
Lemma VDWMIX_params : VDWMIX_init_params zs bs n = b /\ VDWMIX_fast_params bs n zs = b.
Proof. unfold VDWMIX_init_params, VDWMIX_fast_params. cbv zeta. split; go. Qed.
Lemma PRMIX_params : PRMIX_init_params zs n bs = (b, 2 * b, - b * b) /\ PRMIX_fast_params n bs zs = (b, 2 * b, - b * b).
Proof. unfold PRMIX_init_params, PRMIX_fast_params. cbv zeta. split; go. Qed.
Lemma PRSVMIX_params : PRSVMIX_init_params zs n bs = (b, 2 * b, - b * b) /\ PRSVMIX_fast_params n bs zs = (b, 2 * b, - b * b).
Proof. unfold PRSVMIX_init_params, PRSVMIX_fast_params. cbv zeta. split; go. Qed.
Lemma PRSV2MIX_params : PRSV2MIX_init_params zs n bs = (b, 2 * b, - b * b) /\ PRSV2MIX_fast_params n bs zs = (b, 2 * b, - b * b).
Proof.
  unfold PRSV2MIX_init_params, PRSV2MIX_fast_params. cbv zeta. split; [go|].
  rewrite lin_loop. fold b. replace (2 * b) with (b + b) by ring. reflexivity.
Qed.
Lemma TWUPRMIX_params : TWUPRMIX_init_params zs n bs = (b, 2 * b, - b * b) /\ TWUPRMIX_fast_params n bs zs = (b, 2 * b, - b * b).
Proof. unfold TWUPRMIX_init_params, TWUPRMIX_fast_params. cbv zeta. split; go. Qed.
Lemma PRMIXTranslated_params :
  let v := (c, b0 - c, 2 * (c + b0), - b0 * b0 + c * (c + b0 + b0)) in
  PRMIXTranslated_init_params zs cs n b0s = v /\ PRMIXTranslated_fast_params n b0s zs cs = v.
Proof. unfold PRMIXTranslated_init_params, PRMIXTranslated_fast_params. cbv zeta. split; go. Qed.
Lemma PRMIXTranslatedConsistent_params :
  let v := (c, b0 - c, 2 * (c + b0), - b0 * b0 + c * (c + b0 + b0)) in
  PRMIXTranslatedConsistent_init_params zs cs n b0s = v /\ PRMIXTranslatedConsistent_fast_params n b0s zs cs = v.
Proof. unfold PRMIXTranslatedConsistent_init_params, PRMIXTranslatedConsistent_fast_params. cbv zeta. split; go. Qed.
Lemma SRKMIXTranslated_params :
  let v := (c, b0 - c, c + c + b0, c * (b0 + c)) in
  SRKMIXTranslated_init_params zs cs n b0s = v /\ SRKMIXTranslated_fast_params n b0s zs cs = v.
Proof. unfold SRKMIXTranslated_init_params, SRKMIXTranslated_fast_params. cbv zeta. split; go. Qed.
Lemma SRKMIXTranslatedConsistent_params :
  let v := (c, b0 - c, c + c + b0, c * (b0 + c)) in
  SRKMIXTranslatedConsistent_init_params zs cs n b0s = v /\ SRKMIXTranslatedConsistent_fast_params n b0s zs cs = v.
Proof. unfold SRKMIXTranslatedConsistent_init_params, SRKMIXTranslatedConsistent_fast_params. cbv zeta. split; go. Qed.
End P.
