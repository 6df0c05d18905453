(* Polynomial evaluation helpers of the fluids package that thermo imports (fluids.numerics.horner, horner_and_der2);
   the package is not in /repo, its documented recurrences are transcribed here. Coefficients are highest order first. *)
From Coq Require Import Reals Lra List.
From Coquelicot Require Import Coquelicot.
From Verif Require Import Base BaseFacts.
Import ListNotations.
Open Scope R_scope.

(* def horner(coeffs, x): tot = 0.0; for c in coeffs: tot = tot*x + c *)
Definition horner (c : list R) (x : R) : R := fold_left (fun v a => v * x + a) c 0.

(* def horner_and_der2(coeffs, x): f = der = der2 = 0; for a in coeffs: der2 = x*der2 + der; der = x*der + f; f = x*f + a;
   return f, der, der2 + der2 *)
Definition hd2_step (x : R) (s : R * R * R) (a : R) : R * R * R :=
  let '(f, d, d2) := s in (x * f + a, x * d + f, x * d2 + d).
Definition horner_and_der2 (c : list R) (x : R) : R * R * R :=
  let '(f, d, d2) := fold_left (hd2_step x) c (0, 0, 0) in (f, d, d2 + d2).

(* the polynomial the coefficient list denotes: c_0 x^(n-1) + ... + c_(n-1) *)
Fixpoint poly (c : list R) (x : R) : R :=
  match c with [] => 0 | a :: r => a * x ^ (length r) + poly r x end.

Lemma horner_init c x : forall v, fold_left (fun v a => v * x + a) c v = v * x ^ length c + poly c x.
Proof. induction c; intros; simpl; [ring|]. rewrite IHc. ring. Qed.
Lemma horner_poly c x : horner c x = poly c x.
Proof. unfold horner. rewrite horner_init. ring. Qed.
Lemma horner_snoc c a x : horner (c ++ [a]) x = x * horner c x + a.
Proof. unfold horner. rewrite fold_left_app. simpl. ring. Qed.

Definition hd2_raw c x := fold_left (hd2_step x) c (0, 0, 0).
Lemma hd2_raw_snoc c a x : hd2_raw (c ++ [a]) x = hd2_step x (hd2_raw c x) a.
Proof. unfold hd2_raw. rewrite fold_left_app. reflexivity. Qed.

Definition h_d c x := let '(_, d, _) := hd2_raw c x in d.
Definition h_d2 c x := let '(_, _, d) := hd2_raw c x in d.
Lemma hd2_value c x : hd2_raw c x = (horner c x, h_d c x, h_d2 c x).
Proof.
  unfold h_d, h_d2. destruct (hd2_raw c x) as [[f d] d2] eqn:E. f_equal. f_equal.
  revert f d d2 E. induction c using rev_ind; intros.
  - unfold hd2_raw in E. simpl in E. inversion E. reflexivity.
  - rewrite hd2_raw_snoc in E. destruct (hd2_raw c x) as [[f' d'] d2'] eqn:E'. simpl in E. inversion E. subst.
    rewrite horner_snoc. rewrite (IHc f' d' d2'); auto.
Qed.
Lemma horner_and_der2_value c x : horner_and_der2 c x = (horner c x, h_d c x, 2 * h_d2 c x).
Proof. unfold horner_and_der2. fold (hd2_raw c x). rewrite hd2_value. f_equal. ring. Qed.

Lemma h_d_snoc c a x : h_d (c ++ [a]) x = x * h_d c x + horner c x.
Proof. unfold h_d at 1. rewrite hd2_raw_snoc, hd2_value. reflexivity. Qed.
Lemma h_d2_snoc c a x : h_d2 (c ++ [a]) x = x * h_d2 c x + h_d c x.
Proof. unfold h_d2 at 1. rewrite hd2_raw_snoc, hd2_value. reflexivity. Qed.

Lemma horner_derive c x : is_derive (horner c) x (h_d c x).
Proof.
  induction c using rev_ind.
  - apply (is_derive_ext (fun _ => 0)). reflexivity. apply (is_derive_const (K := R_AbsRing) (V := R_NormedModule) 0).
  - rewrite h_d_snoc.
    apply (is_derive_ext (fun y => y * horner c y + x0)). { intros. rewrite horner_snoc. reflexivity. }
    auto_derive. { exists (h_d c x); exact IHc. } { dv IHc. ring. }
Qed.
Lemma h_d_derive c x : is_derive (h_d c) x (2 * h_d2 c x).
Proof.
  induction c using rev_ind.
  - apply (is_derive_ext (fun _ => 0)). reflexivity. replace (2 * h_d2 [] x) with 0 by (unfold h_d2, hd2_raw; simpl; ring). apply (is_derive_const (K := R_AbsRing) (V := R_NormedModule) 0).
  - rewrite h_d2_snoc. pose proof (horner_derive c x) as H.
    apply (is_derive_ext (fun y => y * h_d c y + horner c y)). { intros. rewrite h_d_snoc. reflexivity. }
    auto_derive. { split; [exists (2 * h_d2 c x); exact IHc|split; auto]. exists (h_d c x); exact H. }
    dv IHc. dv H. ring.
Qed.
