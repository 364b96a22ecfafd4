(** Asymptotic laws of the lifetimes and of the energy spectra. *)

From Coq Require Import Reals List Lra Lia Psatz ZArith.
From Coquelicot Require Import Coquelicot.
From Verif Require Import Prelude RdtModel SpectraModel SpectraProofs HypSpec HypProofs AsyModel AsySpec.
Import ListNotations.
Open Scope R_scope.

(** ** Limits *)

Lemma zero_ext : forall f g l, (forall x, 0 < x -> f x = g x) -> tends_at_zero g l -> tends_at_zero f l.
Proof.
  intros f g l E H eps Heps. destruct (H eps Heps) as [d [Hd H']]. exists d. split; [assumption|].
  intros x Hx. rewrite E by lra. auto.
Qed.

Lemma inf_ext : forall f g l, (forall x, 0 < x -> f x = g x) -> tends_at_infinity g l -> tends_at_infinity f l.
Proof.
  intros f g l E H eps Heps. destruct (H eps Heps) as [M [HM H']]. exists M. split; [assumption|].
  intros x Hx. rewrite E by lra. auto.
Qed.

Lemma zero_comp : forall f g l, tends_at_zero f l -> continuity_pt g l -> tends_at_zero (fun x => g (f x)) (g l).
Proof.
  intros f g l H C eps Heps. destruct (C eps Heps) as [a [Ha C']]. destruct (H a Ha) as [d [Hd H']].
  exists d. split; [assumption|]. intros x Hx. specialize (H' x Hx).
  destruct (Req_dec (f x) l) as [->|Hn].
  - rewrite Rminus_eq_0, Rabs_R0. assumption.
  - apply C'. split; [split; [exact I|auto]|exact H'].
Qed.

Lemma inf_comp : forall f g l, tends_at_infinity f l -> continuity_pt g l -> tends_at_infinity (fun x => g (f x)) (g l).
Proof.
  intros f g l H C eps Heps. destruct (C eps Heps) as [a [Ha C']]. destruct (H a Ha) as [d [Hd H']].
  exists d. split; [assumption|]. intros x Hx. specialize (H' x Hx).
  destruct (Req_dec (f x) l) as [->|Hn].
  - rewrite Rminus_eq_0, Rabs_R0. assumption.
  - apply C'. split; [split; [exact I|auto]|exact H'].
Qed.

Lemma zero_id : tends_at_zero (fun x => x) 0.
Proof. intros eps Heps. exists eps. split; [assumption|]. intros x Hx. rewrite Rminus_0_r, Rabs_right; lra. Qed.

Lemma inf_inv : tends_at_infinity (fun x => / x) 0.
Proof.
  intros eps Heps. exists (/ eps). split; [apply Rinv_0_lt_compat; assumption|].
  intros x Hx. assert (0 < / eps) by (apply Rinv_0_lt_compat; assumption).
  assert (0 < / x) by (apply Rinv_0_lt_compat; lra).
  rewrite Rminus_0_r, Rabs_right by lra.
  rewrite <- (Rinv_inv eps). apply Rinv_lt_contravar; [|assumption]. apply Rmult_lt_0_compat; lra.
Qed.

Lemma zero_scale : forall f l a, 0 < a -> tends_at_zero f l -> tends_at_zero (fun x => f (a * x)) l.
Proof.
  intros f l a Ha H eps Heps. destruct (H eps Heps) as [d [Hd H']]. exists (d / a).
  split; [apply Rdiv_lt_0_compat; assumption|].
  intros x Hx. apply H'. assert (a * x < a * (d / a)) by (apply Rmult_lt_compat_l; lra).
  replace (a * (d / a)) with d in H0 by (field; lra). split; [nra|assumption].
Qed.

Lemma inf_scale : forall f l a, 0 < a -> tends_at_infinity f l -> tends_at_infinity (fun x => f (a * x)) l.
Proof.
  intros f l a Ha H eps Heps. destruct (H eps Heps) as [M [HM H']]. exists (M / a).
  split; [apply Rdiv_lt_0_compat; assumption|].
  intros x Hx. apply H'. assert (a * (M / a) < a * x) by (apply Rmult_lt_compat_l; lra).
  replace (a * (M / a)) with M in H0 by (field; lra). assumption.
Qed.

Lemma cont_affine_power : forall p, continuity_pt (fun y => Rpower (1 + y^2) p) 0.
Proof.
  intros p. apply derivable_continuous_pt. apply ex_derive_Reals_0.
  unfold Rpower. auto_derive. lra.
Qed.

Lemma cont_mult_l : forall k x, continuity_pt (fun y => k * y) x.
Proof. intros. apply derivable_continuous_pt. apply ex_derive_Reals_0. auto_derive. trivial. Qed.

Lemma power_at_zero : forall p, tends_at_zero (fun x => Rpower (1 + x^2) p) 1.
Proof.
  intros p. assert (H := zero_comp _ _ _ zero_id (cont_affine_power p)). cbv beta in H.
  replace (1 + 0^2) with 1 in H by ring. rewrite power_one in H. exact H.
Qed.

Lemma power_at_infinity : forall p, tends_at_infinity (fun x => Rpower (1 + (/ x)^2) p) 1.
Proof.
  intros p. assert (H := inf_comp _ _ _ inf_inv (cont_affine_power p)). cbv beta in H.
  replace (1 + 0^2) with 1 in H by ring. rewrite power_one in H. exact H.
Qed.

Lemma scal_at_zero : forall f l k, tends_at_zero f l -> tends_at_zero (fun x => k * f x) (k * l).
Proof. intros f l k H. apply (zero_comp f (fun y => k * y) l H). apply cont_mult_l. Qed.

Lemma scal_at_infinity : forall f l k, tends_at_infinity f l -> tends_at_infinity (fun x => k * f x) (k * l).
Proof. intros f l k H. apply (inf_comp f (fun y => k * y) l H). apply cont_mult_l. Qed.

(** (1 + x^2)^q in terms of x^(2q). *)
Lemma one_plus_sq : forall x q, 0 < x -> Rpower (1 + x^2) q = Rpower x (2 * q) * Rpower (1 + (/ x)^2) q.
Proof.
  intros x q Hx.
  assert (Hi : 0 < / x) by (apply Rinv_0_lt_compat; assumption).
  replace (Rpower x (2 * q)) with (Rpower (x^2) q).
  - rewrite Rpower_mult_distr; [|apply pow_lt; assumption|assert (H := pow2_ge_0 (/ x)); lra].
    f_equal. field. lra.
  - rewrite <- (Rpower_pow 2) by assumption. rewrite Rpower_mult. reflexivity.
Qed.

(** ** A product x^p (1 + x^2)^(-q) *)

Lemma product_at_zero : forall p q, law_at_zero (fun x => Rpower x p / Rpower (1 + x^2) q) p 1.
Proof.
  intros p q. unfold law_at_zero. apply zero_ext with (fun x => Rpower (1 + x^2) (- q)); [|apply power_at_zero].
  intros x Hx. rewrite Rpower_Ropp. assert (H1 := power_gt0 x p). assert (H2 := power_gt0 (1 + x^2) q). field. lra.
Qed.

Lemma product_at_infinity : forall p q, law_at_infinity (fun x => Rpower x p / Rpower (1 + x^2) q) (p - 2 * q) 1.
Proof.
  intros p q. unfold law_at_infinity.
  apply inf_ext with (fun x => Rpower (1 + (/ x)^2) (- q)); [|apply power_at_infinity].
  intros x Hx. rewrite Rpower_Ropp, one_plus_sq by assumption.
  unfold Rminus. rewrite Rpower_plus, Rpower_Ropp.
  assert (H1 := power_gt0 x p). assert (H2 := power_gt0 (1 + (/ x)^2) q). assert (H3 := power_gt0 x (2 * q)).
  field. lra.
Qed.

Lemma law_scale_zero : forall f a c s, 0 < s -> law_at_zero f a c ->
  law_at_zero (fun x => f (s * x)) a (Rpower s a * c).
Proof.
  intros f a c s Hs H. unfold law_at_zero in *.
  apply zero_ext with (fun x => Rpower s a * (f (s * x) / Rpower (s * x) a)).
  - intros x Hx. rewrite <- Rpower_mult_distr by assumption.
    assert (H1 := power_gt0 s a). assert (H2 := power_gt0 x a). field. lra.
  - apply scal_at_zero. apply (zero_scale (fun y => f y / Rpower y a)); assumption.
Qed.

Lemma law_scale_inf : forall f a c s, 0 < s -> law_at_infinity f a c ->
  law_at_infinity (fun x => f (s * x)) a (Rpower s a * c).
Proof.
  intros f a c s Hs H. unfold law_at_infinity in *.
  apply inf_ext with (fun x => Rpower s a * (f (s * x) / Rpower (s * x) a)).
  - intros x Hx. rewrite <- Rpower_mult_distr by assumption.
    assert (H1 := power_gt0 s a). assert (H2 := power_gt0 x a). field. lra.
  - apply scal_at_infinity. apply (inf_scale (fun y => f y / Rpower y a)); assumption.
Qed.

Lemma law_times_zero : forall f a c k, law_at_zero f a c -> law_at_zero (fun x => k * f x) a (k * c).
Proof.
  intros f a c k H. unfold law_at_zero in *.
  apply zero_ext with (fun x => k * (f x / Rpower x a)); [|apply scal_at_zero; assumption].
  intros x Hx. assert (H2 := power_gt0 x a). field. lra.
Qed.

Lemma law_times_inf : forall f a c k, law_at_infinity f a c -> law_at_infinity (fun x => k * f x) a (k * c).
Proof.
  intros f a c k H. unfold law_at_infinity in *.
  apply inf_ext with (fun x => k * (f x / Rpower x a)); [|apply scal_at_infinity; assumption].
  intros x Hx. assert (H2 := power_gt0 x a). field. lra.
Qed.

Lemma law_ext_zero : forall f g a c, (forall x, 0 < x -> f x = g x) -> law_at_zero g a c -> law_at_zero f a c.
Proof. intros f g a c E. apply zero_ext. intros x Hx. rewrite E by assumption. reflexivity. Qed.

Lemma law_ext_inf : forall f g a c, (forall x, 0 < x -> f x = g x) -> law_at_infinity g a c -> law_at_infinity f a c.
Proof. intros f g a c E. apply inf_ext. intros x Hx. rewrite E by assumption. reflexivity. Qed.

(** ** Slopes are unique *)

Lemma power_small : forall p eps, 0 < p -> 0 < eps -> exists d, 0 < d /\ forall x, 0 < x < d -> Rpower x p < eps.
Proof.
  intros p eps Hp Heps. exists (Rpower eps (/ p)). split; [apply power_gt0|].
  intros x Hx. replace eps with (Rpower (Rpower eps (/ p)) p).
  - apply Rpower_lt_base; lra.
  - rewrite Rpower_mult. replace (/ p * p) with 1 by (field; lra). apply Rpower_1. assumption.
Qed.

Lemma power_large : forall p eps, 0 < p -> 0 < eps -> exists M, 0 < M /\ forall x, M < x -> Rpower x (- p) < eps.
Proof.
  intros p eps Hp Heps. exists (Rpower (/ eps) (/ p)). split; [apply power_gt0|].
  intros x Hx. assert (Hi : 0 < / eps) by (apply Rinv_0_lt_compat; assumption).
  assert (H : / eps < Rpower x p).
  { replace (/ eps) with (Rpower (Rpower (/ eps) (/ p)) p).
    - apply Rpower_lt_base; [apply power_gt0|assumption|assumption].
    - rewrite Rpower_mult. replace (/ p * p) with 1 by (field; lra). apply Rpower_1. assumption. }
  rewrite Rpower_Ropp. rewrite <- (Rinv_inv eps). apply Rinv_lt_contravar; [|assumption].
  apply Rmult_lt_0_compat; [assumption|apply power_gt0].
Qed.

Lemma slope_zero_le : forall f a b, slope_at_zero f a -> slope_at_zero f b -> ~ a < b.
Proof.
  intros f a b [c [Hc Ha]] [d [Hd Hb]] Hab.
  destruct (Ha (c/2) ltac:(lra)) as [d1 [Hd1 H1]]. destruct (Hb d Hd) as [d2 [Hd2 H2]].
  destruct (power_small (b - a) (c / (4 * d)) ltac:(lra) ltac:(apply Rdiv_lt_0_compat; lra)) as [d3 [Hd3 H3]].
  set (x := Rmin d1 (Rmin d2 d3) / 2).
  assert (Hm := Rmin_pos d1 (Rmin d2 d3) Hd1 (Rmin_pos _ _ Hd2 Hd3)).
  assert (Rmin d1 (Rmin d2 d3) <= d1) by apply Rmin_l.
  assert (Rmin d1 (Rmin d2 d3) <= Rmin d2 d3) by apply Rmin_r.
  assert (Rmin d2 d3 <= d2) by apply Rmin_l. assert (Rmin d2 d3 <= d3) by apply Rmin_r.
  specialize (H1 x ltac:(unfold x; lra)). specialize (H2 x ltac:(unfold x; lra)). specialize (H3 x ltac:(unfold x; lra)).
  apply Rabs_def2 in H1. apply Rabs_def2 in H2.
  assert (E : f x / Rpower x a = f x / Rpower x b * Rpower x (b - a)).
  { unfold Rminus. rewrite Rpower_plus, Rpower_Ropp. assert (U := power_gt0 x a). assert (V := power_gt0 x b). field. lra. }
  rewrite E in H1. assert (Hp := power_gt0 x (b - a)).
  assert (2 * d * Rpower x (b - a) < c / 2).
  { apply Rlt_le_trans with (2 * d * (c / (4 * d))); [apply Rmult_lt_compat_l; lra|right; field; lra]. }
  nra.
Qed.

Lemma slope_zero_unique : forall f a b, slope_at_zero f a -> slope_at_zero f b -> a = b.
Proof. intros f a b Ha Hb. assert (H1 := slope_zero_le f a b Ha Hb). assert (H2 := slope_zero_le f b a Hb Ha). lra. Qed.

Lemma slope_inf_le : forall f a b, slope_at_infinity f a -> slope_at_infinity f b -> ~ b < a.
Proof.
  intros f a b [c [Hc Ha]] [d [Hd Hb]] Hab.
  destruct (Ha (c/2) ltac:(lra)) as [d1 [Hd1 H1]]. destruct (Hb d Hd) as [d2 [Hd2 H2]].
  destruct (power_large (a - b) (c / (4 * d)) ltac:(lra) ltac:(apply Rdiv_lt_0_compat; lra)) as [d3 [Hd3 H3]].
  set (x := Rmax d1 (Rmax d2 d3) + 1).
  assert (d1 <= Rmax d1 (Rmax d2 d3)) by apply Rmax_l.
  assert (Rmax d2 d3 <= Rmax d1 (Rmax d2 d3)) by apply Rmax_r.
  assert (d2 <= Rmax d2 d3) by apply Rmax_l. assert (d3 <= Rmax d2 d3) by apply Rmax_r.
  specialize (H1 x ltac:(unfold x; lra)). specialize (H2 x ltac:(unfold x; lra)). specialize (H3 x ltac:(unfold x; lra)).
  apply Rabs_def2 in H1. apply Rabs_def2 in H2.
  assert (E : f x / Rpower x a = f x / Rpower x b * Rpower x (- (a - b))).
  { replace (- (a - b)) with (b + - a) by ring. rewrite Rpower_plus, Rpower_Ropp.
    assert (U := power_gt0 x a). assert (V := power_gt0 x b). field. lra. }
  rewrite E in H1. assert (Hp := power_gt0 x (- (a - b))).
  assert (2 * d * Rpower x (- (a - b)) < c / 2).
  { apply Rlt_le_trans with (2 * d * (c / (4 * d))); [apply Rmult_lt_compat_l; lra|right; field; lra]. }
  nra.
Qed.

Lemma slope_inf_unique : forall f a b, slope_at_infinity f a -> slope_at_infinity f b -> a = b.
Proof. intros f a b Ha Hb. assert (H1 := slope_inf_le f a b Ha Hb). assert (H2 := slope_inf_le f b a Hb Ha). lra. Qed.
