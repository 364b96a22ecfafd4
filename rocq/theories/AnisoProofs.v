(** Variance of the low-frequency field as a function of the anisotropy angle. *)

From Coq Require Import Reals List Arith Lra Lia Psatz.
From Coquelicot Require Import Coquelicot.
From Verif Require Import Prelude GenModel DftModel DftSpec LowModel LowSpec LowProofs LowMore LowCov LowDemo QuadTensor AnisoSpec.
Import ListNotations.
Open Scope R_scope.

(** ** The stretching factor *)

Ltac eqR := match goal with |- ?a = ?b => change (@eq R a b) end.

Definition stretch (psi t : R) : R := kappa_of psi (cos t) (sin t).

Lemma stretch_sq : forall psi t, 2 * ((cos t * cos psi)^2 + (sin t * sin psi)^2) = 1 + cos (2 * psi) * cos (2 * t).
Proof.
  intros psi t. rewrite !cos_2a_cos. pose proof (sin2_cos2 psi) as H1. pose proof (sin2_cos2 t) as H2. unfold Rsqr in *.
  replace ((sin t * sin psi)^2) with ((sin t * sin t) * (sin psi * sin psi)) by ring.
  replace (sin t * sin t) with (1 - cos t * cos t) by lra. replace (sin psi * sin psi) with (1 - cos psi * cos psi) by lra. ring.
Qed.

Lemma stretch_form : forall psi t, stretch psi t = sqrt (1 + cos (2 * psi) * cos (2 * t)).
Proof. intros psi t. unfold stretch, kappa_of. rewrite stretch_sq. reflexivity. Qed.

Section Psi.
Variable psi : R.
Hypothesis Hpsi : 0 < psi < PI / 2.

Let C := cos (2 * psi).

Lemma C_bounds : -1 < C < 1.
Proof.
  assert (H0 : 0 < 2 * psi < PI) by lra. split.
  - unfold C. rewrite <- cos_PI. apply cos_decreasing_1; lra.
  - unfold C. rewrite <- cos_0 at 1. apply cos_decreasing_1; lra.
Qed.

Lemma y_bounds : forall t, -1 < C * cos (2 * t) < 1.
Proof.
  intros t. pose proof C_bounds as H1. pose proof (COS_bound (2 * t)) as H2.
  assert (A1 : Rabs C < 1) by (apply Rabs_def1; lra).
  assert (A2 : Rabs (cos (2 * t)) <= 1) by (apply Rabs_le; lra).
  assert (A3 : Rabs (C * cos (2 * t)) < 1).
  { rewrite Rabs_mult. pose proof (Rabs_pos C) as H3. pose proof (Rabs_pos (cos (2 * t))) as H4.
    apply Rle_lt_trans with (Rabs C * 1); [apply Rmult_le_compat_l; assumption|lra]. }
  apply Rabs_def2 in A3. lra.
Qed.

Lemma stretch_pos : forall t, 0 < stretch psi t.
Proof. intros t. rewrite stretch_form. apply sqrt_lt_R0. pose proof (y_bounds t). unfold C in *. lra. Qed.

Lemma kappa_scaled : forall r t, 0 <= r -> kappa_of psi (r * cos t) (r * sin t) = r * stretch psi t.
Proof.
  intros r t Hr. unfold stretch, kappa_of.
  replace (2 * ((r * cos t * cos psi)^2 + (r * sin t * sin psi)^2)) with (r^2 * (2 * ((cos t * cos psi)^2 + (sin t * sin psi)^2))) by ring.
  rewrite sqrt_mult_alt by (apply pow2_ge_0). rewrite sqrt_pow2 by exact Hr. reflexivity.
Qed.

Lemma stretch_continuous : forall t, continuous (stretch psi) t.
Proof.
  intros t. apply (continuous_ext (fun t => sqrt (1 + C * cos (2 * t)))); [intros x; symmetry; apply stretch_form|].
  apply c_sqrt.
  - apply c_plus; [apply c_const|]. apply c_mult; [apply c_const|].
    apply (c_comp (fun t => 2 * t) cos); [apply c_mult; [apply c_const|apply continuous_id]|apply continuity_cos].
  - pose proof (y_bounds t). lra.
Qed.

(** ** Reduction to one radial and one angular integral *)

Section Energy.
Variables (c L zi : R).
Hypothesis HL : 0 < L.

Lemma base_pos : forall x, 0 < / L^2 + x^2.
Proof. intros x. assert (0 < / L^2) by (apply Rinv_0_lt_compat, pow_lt, HL). nra. Qed.

Lemma denom_pos : forall x, 0 < Rpower (/ L^2 + x^2) (7/3) * (1 + x^2 * zi^2).
Proof. intros x. apply Rmult_lt_0_compat; [apply exp_pos|]. nra. Qed.

Lemma E_continuous : forall x, continuous (E_exact c L zi) x.
Proof.
  intros x. assert (Hi : continuous (fun t : R => t) x) by apply continuous_id.
  change (continuous (fun t => c * t^3 / (Rpower (/ L^2 + t^2) (7/3) * (1 + t^2 * zi^2))) x).
  apply c_div.
  - apply c_mult; [apply c_const|apply c_pow, Hi].
  - apply c_mult; [apply c_Rpower; [apply c_plus; [apply c_const|apply c_pow, Hi]|apply base_pos]|].
    apply c_plus; [apply c_const|]. apply c_mult; [apply c_pow, Hi|apply c_const].
  - apply Rgt_not_eq, denom_pos.
Qed.

Lemma E_ex : forall a b, ex_RInt (E_exact c L zi) a b.
Proof. intros a b. apply (@ex_RInt_continuous R_CompleteNormedModule). intros z _. apply E_continuous. Qed.

Section Weight.
Variable w : R -> R.
Hypothesis Hw : forall t, continuous w t.
Variable f : R -> R -> R.
Hypothesis Hf : forall r t, 0 < r -> f (r * cos t) (r * sin t) = planar c L psi zi (r * cos t) (r * sin t) * w t.
Variable K : R.
Hypothesis HK : 0 <= K.

Lemma planar_radial : forall r t, 0 < r -> planar c L psi zi (r * cos t) (r * sin t) * r = E_exact c L zi (r * stretch psi t) / PI.
Proof.
  intros r t Hr. unfold planar. cbv zeta. rewrite kappa_scaled by lra.
  replace ((r * cos t)^2 + (r * sin t)^2) with (r^2 * ((sin t)² + (cos t)²)) by (unfold Rsqr; ring).
  rewrite sin2_cos2, Rmult_1_r, sqrt_pow2 by lra. pose proof PI_RGT_0. field. split; lra.
Qed.

Lemma edge_nonneg : forall t, 0 <= kappa_edge psi K t.
Proof. intros t. unfold kappa_edge. apply Rdiv_le_0_compat; [exact HK|apply stretch_pos]. Qed.

Lemma radial : forall t, is_RInt (fun r => f (r * cos t) (r * sin t) * r) 0 (kappa_edge psi K t)
  (w t / (PI * stretch psi t) * RInt (E_exact c L zi) 0 K).
Proof.
  intros t. pose proof (stretch_pos t) as Hm. pose proof PI_RGT_0 as Hpi. pose proof (edge_nonneg t) as He.
  set (m := stretch psi t) in *.
  apply (is_RInt_ext (fun r => scal (w t / (PI * m)) (scal m (E_exact c L zi (m * r + 0))))).
  - intros r Hr. rewrite Rmin_left, Rmax_right in Hr by exact He.
    rewrite Hf by lra. unfold scal; cbn; unfold mult; cbn.
    replace (planar c L psi zi (r * cos t) (r * sin t) * w t * r) with (w t * (planar c L psi zi (r * cos t) (r * sin t) * r)) by ring.
    rewrite planar_radial by lra. fold m. rewrite Rplus_0_r, (Rmult_comm m r). field. lra.
  - apply (@is_RInt_scal R_NormedModule).
    apply (@is_RInt_comp_lin R_NormedModule (E_exact c L zi) m 0 0 (kappa_edge psi K t)).
    replace (m * 0 + 0) with 0 by ring. unfold kappa_edge. fold (stretch psi t). fold m.
    replace (m * (K / m) + 0) with K by (field; lra).
    apply (@RInt_correct R_CompleteNormedModule), E_ex.
Qed.

Lemma angular_continuous : forall t, continuous (fun t => w t / (PI * stretch psi t) * RInt (E_exact c L zi) 0 K) t.
Proof.
  intros t. apply c_mult; [|apply c_const]. apply c_div; [apply Hw| |].
  - apply c_mult; [apply c_const|apply stretch_continuous].
  - pose proof (stretch_pos t). pose proof PI_RGT_0. apply Rmult_integral_contrapositive_currified; lra.
Qed.

Lemma weight_ex : ex_RInt (fun t => w t / (PI * stretch psi t)) 0 (2 * PI).
Proof.
  apply (@ex_RInt_continuous R_CompleteNormedModule). intros t _. apply c_div; [apply Hw| |].
  - apply c_mult; [apply c_const|apply stretch_continuous].
  - pose proof (stretch_pos t). pose proof PI_RGT_0. apply Rmult_integral_contrapositive_currified; lra.
Qed.

Lemma polar_value : polar_integrable f (kappa_edge psi K) /\
  polar f (kappa_edge psi K) = RInt (fun t => w t / (PI * stretch psi t)) 0 (2 * PI) * RInt (E_exact c L zi) 0 K.
Proof.
  assert (E : forall t, RInt (fun r => f (r * cos t) (r * sin t) * r) 0 (kappa_edge psi K t)
              = w t / (PI * stretch psi t) * RInt (E_exact c L zi) 0 K)
    by (intros t; apply is_RInt_unique, radial).
  split; [split|].
  - intros t. eexists. apply radial.
  - apply (ex_RInt_ext (fun t => w t / (PI * stretch psi t) * RInt (E_exact c L zi) 0 K)); [intros t _; symmetry; apply E|].
    apply (@ex_RInt_continuous R_CompleteNormedModule). intros t _. apply angular_continuous.
  - unfold polar. rewrite (RInt_ext _ (fun t => w t / (PI * stretch psi t) * RInt (E_exact c L zi) 0 K)) by (intros t _; apply E).
    set (I := RInt (E_exact c L zi) 0 K).
    transitivity (RInt (fun t => I * (w t / (PI * stretch psi t))) 0 (2 * PI)); [apply RInt_ext; intros t _; apply Rmult_comm|].
    etransitivity; [exact (@RInt_scal R_CompleteNormedModule _ _ _ I weight_ex)|].
    unfold scal; cbn; unfold mult; cbn. ring.
Qed.

End Weight.

Lemma sin_cont : forall t, continuous (fun t => sin t ^ 2) t.
Proof. intros t. apply c_pow, (c_comp (fun t => t) sin); [apply continuous_id|apply continuity_sin]. Qed.

Lemma cos_cont : forall t, continuous (fun t => cos t ^ 2) t.
Proof. intros t. apply c_pow, (c_comp (fun t => t) cos); [apply continuous_id|apply continuity_cos]. Qed.

Lemma ratio1 : forall r t, 0 < r -> (r * sin t)^2 / ((r * cos t)^2 + (r * sin t)^2) = sin t ^ 2.
Proof.
  intros r t Hr. replace ((r * cos t)^2 + (r * sin t)^2) with (r^2 * ((sin t)² + (cos t)²)) by (unfold Rsqr; ring).
  rewrite sin2_cos2. field. lra.
Qed.

Lemma ratio2 : forall r t, 0 < r -> (r * cos t)^2 / ((r * cos t)^2 + (r * sin t)^2) = cos t ^ 2.
Proof.
  intros r t Hr. replace ((r * cos t)^2 + (r * sin t)^2) with (r^2 * ((sin t)² + (cos t)²)) by (unfold Rsqr; ring).
  rewrite sin2_cos2. field. lra.
Qed.

Definition share (w : R -> R) : R := RInt (fun t => w t / (PI * stretch psi t)) 0 (2 * PI).

Lemma variance1_value : forall K, 0 <= K -> polar_integrable (density1 c L psi zi) (kappa_edge psi K) /\
  variance1 c L psi zi K = share (fun t => sin t ^ 2) * RInt (E_exact c L zi) 0 K.
Proof.
  intros K HK. apply (polar_value (fun t => sin t ^ 2) sin_cont); [|exact HK].
  intros r t Hr. unfold density1. rewrite ratio1 by exact Hr. reflexivity.
Qed.

Lemma variance2_value : forall K, 0 <= K -> polar_integrable (density2 c L psi zi) (kappa_edge psi K) /\
  variance2 c L psi zi K = share (fun t => cos t ^ 2) * RInt (E_exact c L zi) 0 K.
Proof.
  intros K HK. apply (polar_value (fun t => cos t ^ 2) cos_cont); [|exact HK].
  intros r t Hr. unfold density2. rewrite ratio2 by exact Hr. reflexivity.
Qed.

End Energy.

(** ** The angular integrals *)

Lemma share_lin : forall w v a b, (forall t, continuous w t) -> (forall t, continuous v t) ->
  share (fun t => a * w t + b * v t) = a * share w + b * share v.
Proof.
  intros w v a b Hw Hv. unfold share.
  set (W := fun t => w t / (PI * stretch psi t)). set (V := fun t => v t / (PI * stretch psi t)).
  assert (EW : ex_RInt W 0 (2 * PI)) by (apply weight_ex; exact Hw).
  assert (EV : ex_RInt V 0 (2 * PI)) by (apply weight_ex; exact Hv).
  transitivity (RInt (fun t => plus (scal a (W t)) (scal b (V t))) 0 (2 * PI)).
  { apply RInt_ext. intros t _. unfold W, V, plus, scal; cbn; unfold mult; cbn. pose proof (stretch_pos t). pose proof PI_RGT_0. field. lra. }
  etransitivity; [exact (@RInt_plus R_CompleteNormedModule _ _ _ _ (@ex_RInt_scal R_NormedModule _ _ _ a EW) (@ex_RInt_scal R_NormedModule _ _ _ b EV))|].
  pose proof (@RInt_scal R_CompleteNormedModule _ _ _ a EW) as A. pose proof (@RInt_scal R_CompleteNormedModule _ _ _ b EV) as B.
  unfold plus, scal in *; cbn in *; unfold mult in *; cbn in *. rewrite A, B. reflexivity.
Qed.

Lemma share_total : share (fun t => sin t ^ 2) + share (fun t => cos t ^ 2) = share (fun _ => 1).
Proof.
  transitivity (1 * share (fun t => sin t ^ 2) + 1 * share (fun t => cos t ^ 2)); [ring|].
  rewrite <- (share_lin (fun t : R => sin t ^ 2) (fun t : R => cos t ^ 2) 1 1 sin_cont cos_cont). unfold share. apply RInt_ext. intros t _. f_equal.
  pose proof (sin2_cos2 t) as H. unfold Rsqr in H. lra.
Qed.

Lemma share_difference : share (fun t => sin t ^ 2) - share (fun t => cos t ^ 2) = - share (fun t => cos (2 * t)).
Proof.
  transitivity (1 * share (fun t => sin t ^ 2) + (-1) * share (fun t => cos t ^ 2)); [ring|].
  rewrite <- (share_lin (fun t : R => sin t ^ 2) (fun t : R => cos t ^ 2) 1 (-1) sin_cont cos_cont).
  transitivity ((-1) * share (fun t => cos (2 * t)) + 0 * share (fun t => cos (2 * t))); [|ring].
  assert (Hc : forall t, continuous (fun t => cos (2 * t)) t).
  { intros t. apply (c_comp (fun t => 2 * t) cos); [apply c_mult; [apply c_const|apply continuous_id]|apply continuity_cos]. }
  rewrite <- (share_lin (fun t : R => cos (2 * t)) (fun t : R => cos (2 * t)) (-1) 0 Hc Hc). unfold share. apply RInt_ext. intros t _. f_equal.
  rewrite cos_2a_cos. pose proof (sin2_cos2 t) as H. unfold Rsqr in H. lra.
Qed.

Lemma inv_sqrt_lower : forall y, -1 < y < 1 -> 1 - y / 2 + y^2 / 8 <= / sqrt (1 + y).
Proof.
  intros y Hy. set (u := sqrt (1 + y)).
  assert (Hu : 0 < u) by (apply sqrt_lt_R0; lra).
  assert (Eu : u * u = 1 + y) by (apply sqrt_sqrt; lra).
  assert (Hy' : y = u * u - 1) by lra. clearbody u. subst y.
  apply Rmult_le_reg_r with u; [exact Hu|]. rewrite Rinv_l by lra.
  assert (H : 0 <= (u - 1)^2 * (8 + 3 * u - 2 * u^2 - u^3)).
  { apply Rmult_le_pos; [apply pow2_ge_0|]. nra. }
  nra.
Qed.

Lemma y_inv_sqrt_upper : forall y, -1 < y < 1 -> y * / sqrt (1 + y) <= y - y^2 / 4.
Proof.
  intros y Hy. set (u := sqrt (1 + y)).
  assert (Hu : 0 < u) by (apply sqrt_lt_R0; lra).
  assert (Eu : u * u = 1 + y) by (apply sqrt_sqrt; lra).
  assert (Hy' : y = u * u - 1) by lra. clearbody u. subst y.
  apply Rmult_le_reg_r with u; [exact Hu|]. rewrite Rmult_assoc, Rinv_l, Rmult_1_r by lra.
  assert (Hu2 : u < 3/2) by nra.
  assert (H : 0 <= (u - 1)^2 * ((u + 1) * (4 - u - u^2))).
  { apply Rmult_le_pos; [apply pow2_ge_0|]. apply Rmult_le_pos; nra. }
  nra.
Qed.

Lemma cos_sq_int : forall a b, is_RInt (fun t => a + b * cos (2 * t) ^ 2) 0 (2 * PI) (2 * PI * a + PI * b).
Proof.
  intros a b. set (F := fun t => a * t + b * (t / 2 + sin (2 * (2 * t)) / 8)).
  replace (2 * PI * a + PI * b) with (minus (F (2 * PI)) (F 0)).
  - apply (is_RInt_derive F).
    + intros x _. unfold F. auto_derive; [exact I|]. rewrite (cos_2a_cos (2 * x)). field.
    + intros x _. apply c_plus; [apply c_const|]. apply c_mult; [apply c_const|]. apply c_pow.
      apply (c_comp (fun t => 2 * t) cos); [apply c_mult; [apply c_const|apply continuous_id]|apply continuity_cos].
  - unfold F, minus, plus, opp; cbn. replace (2 * (2 * 0)) with 0 by ring. rewrite sin_0.
    replace (2 * (2 * (2 * PI))) with (0 + 2 * INR 4 * PI) by (cbn; ring). rewrite sin_period, sin_0. field.
Qed.

Lemma cos_int : forall a, is_RInt (fun t => a * cos (2 * t)) 0 (2 * PI) 0.
Proof.
  intros a. set (F := fun t => a * (sin (2 * t) / 2)).
  replace 0 with (minus (F (2 * PI)) (F 0)) at 2.
  - apply (is_RInt_derive F).
    + intros x _. unfold F. auto_derive; [exact I|field].
    + intros x _. apply c_mult; [apply c_const|].
      apply (c_comp (fun t => 2 * t) cos); [apply c_mult; [apply c_const|apply continuous_id]|apply continuity_cos].
  - unfold F, minus, plus, opp; cbn. replace (2 * 0) with 0 by ring. rewrite sin_0.
    replace (2 * (2 * PI)) with (0 + 2 * INR 2 * PI) by (cbn; ring). rewrite sin_period, sin_0. field.
Qed.

Lemma quad_int : forall a b d, RInt (fun t => a + d * cos (2 * t) + b * cos (2 * t) ^ 2) 0 (2 * PI) = 2 * PI * a + PI * b.
Proof.
  intros a b d. apply is_RInt_unique.
  apply (is_RInt_ext (fun t => plus (a + b * cos (2 * t)^2) (d * cos (2 * t)))); [intros t _; unfold plus; cbn; ring|].
  replace (2 * PI * a + PI * b) with (plus (2 * PI * a + PI * b) 0) by (unfold plus; cbn; ring).
  apply (@is_RInt_plus R_NormedModule); [apply cos_sq_int|apply cos_int].
Qed.

Lemma quad_ex : forall a b d, ex_RInt (fun t => a + d * cos (2 * t) + b * cos (2 * t) ^ 2) 0 (2 * PI).
Proof.
  intros a b d. apply (@ex_RInt_continuous R_CompleteNormedModule). intros z _.
  assert (Hc : continuous (fun t => cos (2 * t)) z)
    by (apply (c_comp (fun t => 2 * t) cos); [apply c_mult; [apply c_const|apply continuous_id]|apply continuity_cos]).
  apply c_plus; [apply c_plus; [apply c_const|apply c_mult; [apply c_const|exact Hc]]|].
  apply c_mult; [apply c_const|apply c_pow, Hc].
Qed.

Lemma share_one_lower : 2 + C^2 / 8 <= share (fun _ => 1).
Proof.
  pose proof PI_RGT_0 as Hpi.
  assert (Q : 2 + C^2 / 8 = RInt (fun t => / PI + (- C / (2 * PI)) * cos (2 * t) + (C^2 / (8 * PI)) * cos (2 * t)^2) 0 (2 * PI)).
  { rewrite quad_int. field. apply Rgt_not_eq, Hpi. }
  rewrite Q.
  apply RInt_le; [lra|apply quad_ex|apply weight_ex; intros t; apply c_const|].
  intros t _. pose proof (inv_sqrt_lower _ (y_bounds t)) as H.
  rewrite stretch_form. fold C.
  assert (Hs : 0 < sqrt (1 + C * cos (2 * t))) by (apply sqrt_lt_R0; pose proof (y_bounds t); lra).
  apply Rmult_le_reg_r with PI; [exact Hpi|].
  replace (1 / (PI * sqrt (1 + C * cos (2 * t))) * PI) with (/ sqrt (1 + C * cos (2 * t))) by (field; lra).
  eapply Rle_trans; [right|exact H]. field. lra.
Qed.

Lemma share_cos_upper : C * share (fun t => cos (2 * t)) <= - C^2 / 4.
Proof.
  pose proof PI_RGT_0 as Hpi.
  assert (Hc : forall t, continuous (fun t => cos (2 * t)) t).
  { intros t. apply (c_comp (fun t => 2 * t) cos); [apply c_mult; [apply c_const|apply continuous_id]|apply continuity_cos]. }
  replace (C * share (fun t => cos (2 * t))) with (C * share (fun t => cos (2 * t)) + 0 * share (fun t => cos (2 * t))) by ring.
  rewrite <- (share_lin (fun t : R => cos (2 * t)) (fun t : R => cos (2 * t)) C 0 Hc Hc).
  assert (Q : - C^2 / 4 = RInt (fun t => 0 + (C / PI) * cos (2 * t) + (- C^2 / (4 * PI)) * cos (2 * t)^2) 0 (2 * PI)).
  { rewrite quad_int. field. apply Rgt_not_eq, Hpi. }
  rewrite Q.
  unfold share. apply RInt_le; [lra| |apply quad_ex|].
  - apply weight_ex. intros t. apply c_plus; (apply c_mult; [apply c_const|apply Hc]).
  - intros t _. pose proof (y_inv_sqrt_upper _ (y_bounds t)) as H.
    rewrite stretch_form. fold C.
    assert (Hs : 0 < sqrt (1 + C * cos (2 * t))) by (apply sqrt_lt_R0; pose proof (y_bounds t); lra).
    apply Rmult_le_reg_r with PI; [exact Hpi|].
    replace ((C * cos (2 * t) + 0 * cos (2 * t)) / (PI * sqrt (1 + C * cos (2 * t))) * PI)
      with (C * cos (2 * t) * / sqrt (1 + C * cos (2 * t))) by (field; lra).
    eapply Rle_trans; [exact H|right]. field. lra.
Qed.

End Psi.

(** ** Variances *)

Lemma E_nonneg : forall c L zi x, 0 <= c -> 0 < L -> 0 <= x -> 0 <= E_exact c L zi x.
Proof.
  intros c L zi x Hc HL Hx. unfold E_exact. pose proof (denom_pos L zi x) as HD.
  apply Rdiv_le_0_compat; [apply Rmult_le_pos; [exact Hc|apply pow_le, Hx]|exact HD].
Qed.

Lemma E_int_nonneg : forall c L zi K, 0 <= c -> 0 < L -> 0 <= K -> 0 <= RInt (E_exact c L zi) 0 K.
Proof.
  intros c L zi K Hc HL HK. apply RInt_ge_0; [exact HK|apply E_ex, HL|]. intros x Hx. apply E_nonneg; lra.
Qed.

Lemma total_lower : forall c L psi zi K, 0 < psi < PI / 2 -> 0 < L -> 0 <= c -> 0 <= K ->
  (2 + cos (2 * psi)^2 / 8) * RInt (E_exact c L zi) 0 K <= variance1 c L psi zi K + variance2 c L psi zi K.
Proof.
  intros c L psi zi K Hpsi HL Hc HK.
  rewrite (proj2 (variance1_value psi Hpsi c L zi HL K HK)), (proj2 (variance2_value psi Hpsi c L zi HL K HK)).
  rewrite <- Rmult_plus_distr_r, share_total by exact Hpsi.
  apply Rmult_le_compat_r; [apply E_int_nonneg; assumption|apply share_one_lower; exact Hpsi].
Qed.

Lemma quarter_half : 0 < PI / 4 < PI / 2.
Proof. pose proof PI_RGT_0. lra. Qed.

Lemma stretch_iso : forall t, stretch (PI / 4) t = 1.
Proof. intros t. rewrite stretch_form. replace (2 * (PI / 4)) with (PI / 2) by field. rewrite cos_PI2, Rmult_0_l, Rplus_0_r. apply sqrt_1. Qed.

Lemma share_iso : share (PI / 4) (fun t => sin t ^ 2) = 1 /\ share (PI / 4) (fun t => cos t ^ 2) = 1.
Proof.
  pose proof PI_RGT_0 as Hpi. unfold share. split.
  - rewrite (RInt_ext _ (fun t => / (2 * PI) + (- / (2 * PI)) * cos (2 * t) + 0 * cos (2 * t)^2)).
    + rewrite quad_int. field. lra.
    + intros t _. eqR. rewrite stretch_iso, cos_2a_sin. field. lra.
  - rewrite (RInt_ext _ (fun t => / (2 * PI) + (/ (2 * PI)) * cos (2 * t) + 0 * cos (2 * t)^2)).
    + rewrite quad_int. field. lra.
    + intros t _. eqR. rewrite stretch_iso, cos_2a_cos. field. lra.
Qed.

Lemma isotropic_variances : forall c L zi K, 0 < L -> 0 <= K ->
  variance1 c L (PI / 4) zi K = RInt (E_exact c L zi) 0 K /\ variance2 c L (PI / 4) zi K = RInt (E_exact c L zi) 0 K.
Proof.
  intros c L zi K HL HK. destruct share_iso as [S1 S2].
  rewrite (proj2 (variance1_value _ quarter_half c L zi HL K HK)), (proj2 (variance2_value _ quarter_half c L zi HL K HK)), S1, S2.
  split; ring.
Qed.

Lemma variance_gap : forall c L psi zi K, 0 < psi < PI / 2 -> 0 < L -> 0 <= c -> 0 <= K ->
  cos (2 * psi)^2 / 4 * RInt (E_exact c L zi) 0 K <= cos (2 * psi) * (variance1 c L psi zi K - variance2 c L psi zi K).
Proof.
  intros c L psi zi K Hpsi HL Hc HK.
  rewrite (proj2 (variance1_value psi Hpsi c L zi HL K HK)), (proj2 (variance2_value psi Hpsi c L zi HL K HK)).
  rewrite <- Rmult_minus_distr_r, share_difference by exact Hpsi.
  rewrite <- Rmult_assoc. apply Rmult_le_compat_r; [apply E_int_nonneg; assumption|].
  pose proof (share_cos_upper psi Hpsi). lra.
Qed.

(** ** The normalisation of the code *)

Lemma shape_le : forall c L zi x, 0 <= c -> 0 < L -> 0 <= x -> c * low_shape L zi x <= E_exact c L zi x.
Proof.
  intros c L zi x Hc HL Hx. pose proof (E_nonneg c L zi x Hc HL Hx) as H0. unfold low_shape. cbv zeta.
  destruct (Rltb _ _); [lra|]. destruct (Rltb _ _); [lra|]. destruct (Rltb _ _); [lra|].
  right. unfold E_exact, Rdiv. ring.
Qed.

Lemma shape_small : forall L zi x, 0 <= x < / 10^15 -> low_shape L zi x = 0.
Proof.
  intros L zi x Hx. unfold low_shape. cbv zeta.
  assert (H : x^2 < / 10^30).
  { replace (/ 10^30) with (/ 10^15 * / 10^15) by (rewrite <- Rinv_mult; f_equal; ring). nra. }
  rewrite (proj2 (Rltb_true _ _) H). reflexivity.
Qed.

Lemma p15 : 0 < / 10^15.
Proof. apply Rinv_0_lt_compat. lra. Qed.

Lemma shape_ex : forall L zi K, 0 < L -> L <= 10^6 -> 0 <= K -> ex_RInt (low_shape L zi) 0 K.
Proof.
  intros L zi K HL HL6 HK. pose proof p15 as Hp.
  assert (A : forall k, 0 <= k <= / 10^15 -> ex_RInt (low_shape L zi) 0 k).
  { intros k Hk. apply (ex_RInt_ext (fun _ => 0)); [|apply ex_RInt_const].
    intros x Hx. rewrite Rmin_left, Rmax_right in Hx by lra. symmetry. apply shape_small. lra. }
  destruct (Rle_dec K (/ 10^15)) as [H|H]; [apply A; lra|].
  apply (@ex_RInt_Chasles R_NormedModule _ 0 (/ 10^15) K); [apply A; lra|].
  apply (ex_RInt_ext (E_exact 1 L zi)); [|apply E_ex, HL].
  intros x Hx. rewrite Rmin_left, Rmax_right in Hx by lra. rewrite <- shape_exact by (try assumption; lra). apply Rmult_1_l.
Qed.

Lemma shape_nonneg : forall L zi x, 0 < L -> 0 <= x -> 0 <= low_shape L zi x.
Proof.
  intros L zi x HL Hx. unfold low_shape. cbv zeta.
  destruct (Rltb _ _); [lra|]. destruct (Rltb _ _); [lra|]. destruct (Rltb _ _); [lra|].
  apply Rdiv_le_0_compat; [apply pow_le, Hx|apply denom_pos].
Qed.

Lemma E_int_lower : forall c L zi K, 0 <= c -> 0 < L -> L <= 10^6 -> 0 <= K ->
  c * RInt (low_shape L zi) 0 K <= RInt (E_exact c L zi) 0 K.
Proof.
  intros c L zi K Hc HL HL6 HK.
  assert (S : c * RInt (low_shape L zi) 0 K = RInt (fun x => scal c (low_shape L zi x)) 0 K)
    by (symmetry; exact (@RInt_scal R_CompleteNormedModule _ _ _ c (shape_ex L zi K HL HL6 HK))).
  rewrite S. apply RInt_le; [exact HK| |apply E_ex, HL|].
  - apply (@ex_RInt_scal R_NormedModule), shape_ex; assumption.
  - intros x Hx. apply shape_le; lra.
Qed.

Lemma constructed_c : forall quad cfg w, low_construct quad cfg = Ok w ->
  / 10^16 <= quad (low_shape (lc_L cfg) (lc_zi cfg)) /\ lw_c w = lc_sigma2 cfg / (2 * quad (low_shape (lc_L cfg) (lc_zi cfg))) /\ lw_cfg w = cfg.
Proof.
  intros quad cfg w H. unfold low_construct, compute_c in H. destruct (Reqb (lc_L cfg) 0); [discriminate|].
  destruct (Rltb (quad _) (/ 10^16)) eqn:E; [discriminate|]. cbn [bind] in H.
  destruct (make_low_grid cfg) as [g|]; [|discriminate]. cbn [bind] in H. injection H as H. subst w. cbn.
  split; [apply Rltb_false; exact E|]. split; reflexivity.
Qed.

Lemma variance_too_large : forall quad cfg w, low_construct quad cfg = Ok w ->
  0 < lc_L cfg -> lc_L cfg <= 10^6 -> 0 < lc_sigma2 cfg -> 0 < lc_psi cfg < PI / 2 -> lc_psi cfg <> PI / 4 ->
  half_line_integral (low_shape (lc_L cfg) (lc_zi cfg)) (quad (low_shape (lc_L cfg) (lc_zi cfg))) ->
  exists K0, 0 < K0 /\ forall K, K0 <= K ->
  (1 + cos (2 * lc_psi cfg)^2 / 32) * lc_sigma2 cfg
  < variance1 (lw_c w) (lc_L cfg) (lc_psi cfg) (lc_zi cfg) K + variance2 (lw_c w) (lc_L cfg) (lc_psi cfg) (lc_zi cfg) K.
Proof.
  intros quad cfg w Hw HL HL6 Hs Hpsi Hne HI. destruct (constructed_c quad cfg w Hw) as [Hq [Hc _]].
  set (S := quad (low_shape (lc_L cfg) (lc_zi cfg))) in *. set (L := lc_L cfg) in *. set (zi := lc_zi cfg) in *. set (psi := lc_psi cfg) in *.
  assert (HS : 0 < S) by (apply Rlt_le_trans with (/ 10^16); [apply Rinv_0_lt_compat; lra|exact Hq]).
  assert (Hc0 : 0 < lw_c w) by (rewrite Hc; apply Rdiv_lt_0_compat; lra).
  assert (HC : cos (2 * psi) <> 0).
  { intros E. apply Hne. destruct (Rlt_dec psi (PI / 4)) as [H|H].
    - assert (cos (PI / 2) < cos (2 * psi)) by (apply cos_decreasing_1; lra). rewrite cos_PI2 in *. lra.
    - destruct (Rlt_dec (PI / 4) psi) as [H'|H']; [|lra].
      assert (cos (2 * psi) < cos (PI / 2)) by (apply cos_decreasing_1; lra). rewrite cos_PI2 in *. lra. }
  assert (HC2 : 0 < cos (2 * psi)^2 <= 1).
  { split; [apply pow2_gt_0; exact HC|]. pose proof (COS_bound (2 * psi)). nra. }
  set (q := cos (2 * psi)^2) in *.
  set (r := (1 + q / 32) / (1 + q / 16)).
  assert (Hr : 0 < r < 1).
  { unfold r. split; [apply Rdiv_lt_0_compat; lra|]. apply Rmult_lt_reg_r with (1 + q / 16); [lra|].
    replace ((1 + q / 32) / (1 + q / 16) * (1 + q / 16)) with (1 + q / 32) by (field; lra). lra. }
  assert (HrS : r * S < S) by nra.
  destruct HI as [HU HM].
  assert (EX : exists K, 0 <= K /\ r * S < RInt (low_shape L zi) 0 K).
  { destruct (Classical_Prop.classic (exists K, 0 <= K /\ r * S < RInt (low_shape L zi) 0 K)) as [H|H]; [exact H|].
    exfalso. assert (S <= r * S); [|lra]. apply HM. intros v [K [HK ->]].
    destruct (Rle_dec (RInt (low_shape L zi) 0 K) (r * S)) as [H'|H']; [exact H'|].
    exfalso. apply H. exists K. split; [exact HK|lra]. }
  destruct EX as [K1 [HK1 HB]].
  exists (K1 + 1). split; [lra|]. intros K HK.
  assert (MON : RInt (low_shape L zi) 0 K1 <= RInt (low_shape L zi) 0 K).
  { assert (E1 : ex_RInt (low_shape L zi) 0 K1) by (apply shape_ex; assumption).
    assert (E2 : ex_RInt (low_shape L zi) 0 K) by (apply shape_ex; try assumption; lra).
    assert (E3 : ex_RInt (low_shape L zi) K1 K) by (apply (@ex_RInt_Chasles_2 R_CompleteNormedModule _ 0 K1 K); [lra|exact E2]).
    rewrite <- (@RInt_Chasles R_CompleteNormedModule _ 0 K1 K E1 E3).
    assert (0 <= RInt (low_shape L zi) K1 K) by (apply RInt_ge_0; [lra|exact E3|intros x Hx; apply shape_nonneg; lra]).
    change (RInt (low_shape L zi) 0 K1 <= RInt (low_shape L zi) 0 K1 + RInt (low_shape L zi) K1 K). lra. }
  pose proof (total_lower (lw_c w) L psi zi K Hpsi HL (Rlt_le _ _ Hc0) ltac:(lra)) as HT.
  pose proof (E_int_lower (lw_c w) L zi K (Rlt_le _ _ Hc0) HL HL6 ltac:(lra)) as HE.
  fold q in HT.
  eapply Rlt_le_trans; [|exact HT].
  assert (HE2 : lw_c w * (r * S) < RInt (E_exact (lw_c w) L zi) 0 K).
  { eapply Rlt_le_trans; [|exact HE]. apply Rmult_lt_compat_l; [exact Hc0|lra]. }
  apply Rle_lt_trans with ((2 + q / 8) * (lw_c w * (r * S))); [|apply Rmult_lt_compat_l; [lra|exact HE2]].
  right. rewrite Hc. unfold r. field. split; lra.
Qed.

Lemma isotropic_variance : forall quad cfg w, low_construct quad cfg = Ok w ->
  0 < lc_L cfg -> 0 <= lc_sigma2 cfg -> lc_psi cfg = PI / 4 ->
  forall K, 0 <= K ->
  variance1 (lw_c w) (lc_L cfg) (lc_psi cfg) (lc_zi cfg) K = variance2 (lw_c w) (lc_L cfg) (lc_psi cfg) (lc_zi cfg) K
  /\ variance1 (lw_c w) (lc_L cfg) (lc_psi cfg) (lc_zi cfg) K + variance2 (lw_c w) (lc_L cfg) (lc_psi cfg) (lc_zi cfg) K
  = lc_sigma2 cfg * (RInt (E_exact 1 (lc_L cfg) (lc_zi cfg)) 0 K / quad (low_shape (lc_L cfg) (lc_zi cfg))).
Proof.
  intros quad cfg w Hw HL Hs Hpsi K HK. destruct (constructed_c quad cfg w Hw) as [Hq [Hc _]]. rewrite Hpsi.
  destruct (isotropic_variances (lw_c w) (lc_L cfg) (lc_zi cfg) K HL HK) as [-> ->]. split; [reflexivity|].
  assert (HS : 0 < quad (low_shape (lc_L cfg) (lc_zi cfg))) by (apply Rlt_le_trans with (/ 10^16); [apply Rinv_0_lt_compat; lra|exact Hq]).
  assert (E : RInt (E_exact (lw_c w) (lc_L cfg) (lc_zi cfg)) 0 K = lw_c w * RInt (E_exact 1 (lc_L cfg) (lc_zi cfg)) 0 K).
  { transitivity (RInt (fun x => scal (lw_c w) (E_exact 1 (lc_L cfg) (lc_zi cfg) x)) 0 K).
    - apply RInt_ext. intros x _. eqR. unfold scal; cbn; unfold mult; cbn. unfold E_exact, Rdiv. ring.
    - exact (@RInt_scal R_CompleteNormedModule _ _ _ (lw_c w) (E_ex 1 (lc_L cfg) (lc_zi cfg) HL 0 K)). }
  rewrite E, Hc. field. lra.
Qed.

(** ** The half-line integral exists *)

Lemma E_tail : forall L zi x, 0 < L -> 0 < zi -> 1 <= x -> E_exact 1 L zi x <= / zi^2 * / x^3.
Proof.
  intros L zi x HL Hz Hx. unfold E_exact. rewrite Rmult_1_l.
  assert (Hx3 : 0 < x^3) by (apply pow_lt; lra). assert (Hz2 : 0 < zi^2) by (apply pow_lt; exact Hz).
  assert (HL2 : 0 < / L^2) by (apply Rinv_0_lt_compat, pow_lt, HL).
  assert (H2 : 1 <= / L^2 + x^2) by nra.
  assert (HP : x^2 * x^2 <= Rpower (/ L^2 + x^2) (7/3)).
  { apply Rle_trans with (Rpower (/ L^2 + x^2) (INR 2)).
    - rewrite Rpower_pow by lra. nra.
    - apply Rle_Rpower; [exact H2|cbn; lra]. }
  assert (HD : x^3 * (zi^2 * x^3) <= Rpower (/ L^2 + x^2) (7/3) * (1 + x^2 * zi^2)).
  { apply Rle_trans with (x^2 * x^2 * (1 + x^2 * zi^2)).
    - replace (x^3 * (zi^2 * x^3)) with (x^2 * x^2 * (x^2 * zi^2)) by ring.
      apply Rmult_le_compat_l; nra.
    - apply Rmult_le_compat_r; [nra|exact HP]. }
  pose proof (denom_pos L zi x) as HD0. set (D := Rpower (/ L^2 + x^2) (7/3) * (1 + x^2 * zi^2)) in *. clearbody D.
  apply Rle_trans with (x^3 / (x^3 * (zi^2 * x^3))).
  - apply Rmult_le_compat_l; [lra|]. apply Rinv_le_contravar; [|exact HD].
    apply Rmult_lt_0_compat; [exact Hx3|]. apply Rmult_lt_0_compat; assumption.
  - right. field. split; lra.
Qed.

Lemma tail_int : forall a K, 1 <= K -> is_RInt (fun x => a * / x^3) 1 K (a / 2 * (1 - / K^2)).
Proof.
  intros a K HK. set (F := fun x => - a / 2 * / x^2).
  replace (a / 2 * (1 - / K^2)) with (minus (F K) (F 1)).
  - apply (is_RInt_derive F).
    + intros x Hx. rewrite Rmin_left, Rmax_right in Hx by exact HK. unfold F. auto_derive; [|field; lra].
      apply Rgt_not_eq. nra.
    + intros x Hx. rewrite Rmin_left, Rmax_right in Hx by exact HK.
      apply c_mult; [apply c_const|]. apply (c_comp (fun x => x^3) Rinv); [apply c_pow, continuous_id|].
      apply continuity_pt_inv; [apply continuity_pt_id|]. apply pow_nonzero. lra.
  - unfold F, minus, plus, opp; cbn. field. lra.
Qed.

Lemma half_line_exists : forall L zi, 0 < L -> L <= 10^6 -> 0 < zi -> exists S, half_line_integral (low_shape L zi) S.
Proof.
  intros L zi HL HL6 Hz.
  destruct (completeness (fun v => exists K, 0 <= K /\ v = RInt (low_shape L zi) 0 K)) as [S HS].
  - exists (RInt (E_exact 1 L zi) 0 1 + / zi^2 / 2). intros v [K [HK ->]].
    pose proof (E_int_lower 1 L zi K Rle_0_1 HL HL6 HK) as H1. rewrite Rmult_1_l in H1.
    eapply Rle_trans; [exact H1|].
    assert (Hz2 : 0 < / zi^2) by (apply Rinv_0_lt_compat, pow_lt, Hz).
    destruct (Rle_dec K 1) as [H|H].
    + assert (M : RInt (E_exact 1 L zi) 0 K <= RInt (E_exact 1 L zi) 0 1).
      { rewrite <- (@RInt_Chasles R_CompleteNormedModule _ 0 K 1 (E_ex 1 L zi HL 0 K) (E_ex 1 L zi HL K 1)).
        assert (0 <= RInt (E_exact 1 L zi) K 1) by (apply RInt_ge_0; [exact H|apply E_ex, HL|intros x Hx; apply E_nonneg; lra]).
        change (RInt (E_exact 1 L zi) 0 K <= RInt (E_exact 1 L zi) 0 K + RInt (E_exact 1 L zi) K 1). lra. }
      lra.
    + rewrite <- (@RInt_Chasles R_CompleteNormedModule _ 0 1 K (E_ex 1 L zi HL 0 1) (E_ex 1 L zi HL 1 K)).
      change (RInt (E_exact 1 L zi) 0 1 + RInt (E_exact 1 L zi) 1 K <= RInt (E_exact 1 L zi) 0 1 + / zi^2 / 2).
      apply Rplus_le_compat_l.
      assert (HT := tail_int (/ zi^2) K ltac:(lra)).
      apply Rle_trans with (RInt (fun x => / zi^2 * / x^3) 1 K).
      * apply RInt_le; [lra|apply E_ex, HL|eexists; exact HT|]. intros x Hx. apply E_tail; lra.
      * rewrite (is_RInt_unique _ _ _ _ HT). assert (0 < / K^2) by (apply Rinv_0_lt_compat, pow_lt; lra). nra.
  - exists 0. exists 0. split; [lra|]. symmetry. apply (@RInt_point R_CompleteNormedModule).
  - exists S. exact HS.
Qed.

Lemma unit_integral_large : forall S, half_line_integral (low_shape 1 1) S -> / 10^16 <= S.
Proof.
  intros S [HU _].
  assert (HL6 : 1 <= 10^6) by lra.
  assert (B : RInt (low_shape 1 1) 0 2 <= S) by (apply HU; exists 2; split; [lra|reflexivity]).
  eapply Rle_trans; [|exact B].
  assert (E1 : ex_RInt (low_shape 1 1) 0 1) by (apply shape_ex; lra).
  assert (E2 : ex_RInt (low_shape 1 1) 0 2) by (apply shape_ex; lra).
  assert (E3 : ex_RInt (low_shape 1 1) 1 2) by (apply (@ex_RInt_Chasles_2 R_CompleteNormedModule _ 0 1 2); [lra|exact E2]).
  rewrite <- (@RInt_Chasles R_CompleteNormedModule _ 0 1 2 E1 E3).
  change (/ 10^16 <= RInt (low_shape 1 1) 0 1 + RInt (low_shape 1 1) 1 2).
  assert (0 <= RInt (low_shape 1 1) 0 1) by (apply RInt_ge_0; [lra|exact E1|intros x Hx; apply shape_nonneg; lra]).
  assert (P15 : / 10^15 < 1) by (rewrite <- Rinv_1; apply Rinv_lt_contravar; lra).
  assert (HB : RInt (fun _ => / 625) 1 2 <= RInt (low_shape 1 1) 1 2).
  { apply RInt_le; [lra|apply ex_RInt_const|exact E3|]. intros x Hx.
    rewrite <- (Rmult_1_l (low_shape 1 1 x)). rewrite shape_exact by lra. unfold E_exact. rewrite Rmult_1_l.
    assert (Hb : Rpower (/ 1^2 + x^2) (7/3) <= 125).
    { apply Rle_trans with (Rpower 5 (7/3)).
      - apply Rle_Rpower_l; [lra|]. replace (/ 1^2) with 1 by field. nra.
      - apply Rle_trans with (Rpower 5 (INR 3)); [apply Rle_Rpower; [lra|cbn; lra]|]. rewrite Rpower_pow by lra. lra. }
    assert (H0 : 0 < Rpower (/ 1^2 + x^2) (7/3)) by apply exp_pos.
    assert (H4 : x^2 <= 4) by nra. assert (H3 : 1 <= x^3) by nra.
    pose proof (denom_pos 1 1 x) as HD0.
    assert (HD : Rpower (/ 1^2 + x^2) (7/3) * (1 + x^2 * 1^2) <= 625)
      by (apply Rle_trans with (125 * 5); [apply Rmult_le_compat; nra|lra]).
    set (D := Rpower (/ 1^2 + x^2) (7/3) * (1 + x^2 * 1^2)) in *. clearbody D.
    apply Rle_trans with (1 * / D); [rewrite Rmult_1_l; apply Rinv_le_contravar; assumption|].
    apply Rmult_le_compat_r; [left; apply Rinv_0_lt_compat; exact HD0|exact H3]. }
  assert (HC : RInt (fun _ => / 625) 1 2 = / 625) by (rewrite RInt_const; unfold scal; cbn; unfold mult; cbn; ring).
  rewrite HC in HB.
  assert (/ 10^16 <= / 625) by (apply Rinv_le_contravar; lra). lra.
Qed.

Definition aniso_cfg : low_config := LowConfig 2 1 (PI / 6) 1 10 10 2 2.

Lemma aniso_case : exists quad w, low_construct quad aniso_cfg = Ok w /\
  half_line_integral (low_shape (lc_L aniso_cfg) (lc_zi aniso_cfg)) (quad (low_shape (lc_L aniso_cfg) (lc_zi aniso_cfg))).
Proof.
  destruct (half_line_exists 1 1 Rlt_0_1 ltac:(lra) Rlt_0_1) as [S HS].
  exists (fun _ => S).
  destruct (low_construct_ok (fun _ => S) aniso_cfg) as [w Hw].
  - unfold positive_lengths, aniso_cfg. cbn. lra.
  - apply unit_integral_large. exact HS.
  - exists w. split; [exact Hw|exact HS].
Qed.

Lemma anisotropy_order : forall c L psi zi K, 0 < psi < PI / 2 -> 0 < L -> 0 <= c -> 0 <= K ->
  polar_integrable (density1 c L psi zi) (kappa_edge psi K) /\ polar_integrable (density2 c L psi zi) (kappa_edge psi K) /\
  (psi < PI / 4 -> cos (2 * psi) / 4 * RInt (E_exact c L zi) 0 K <= variance1 c L psi zi K - variance2 c L psi zi K) /\
  (psi = PI / 4 -> variance1 c L psi zi K = variance2 c L psi zi K) /\
  (PI / 4 < psi -> - cos (2 * psi) / 4 * RInt (E_exact c L zi) 0 K <= variance2 c L psi zi K - variance1 c L psi zi K).
Proof.
  intros c L psi zi K Hpsi HL Hc HK.
  split; [apply (variance1_value psi Hpsi c L zi HL K HK)|]. split; [apply (variance2_value psi Hpsi c L zi HL K HK)|].
  pose proof (variance_gap c L psi zi K Hpsi HL Hc HK) as G. split; [|split].
  - intros H. assert (HC : 0 < cos (2 * psi)) by (rewrite <- cos_PI2; apply cos_decreasing_1; lra).
    apply Rmult_le_reg_l with (cos (2 * psi)); [exact HC|]. eapply Rle_trans; [right|exact G]. field.
  - intros ->. destruct (isotropic_variances c L zi K HL HK) as [-> ->]. reflexivity.
  - intros H. assert (HC : cos (2 * psi) < 0) by (rewrite <- cos_PI2; apply cos_decreasing_1; lra).
    apply Rmult_le_reg_l with (- cos (2 * psi)); [lra|].
    apply Rle_trans with (cos (2 * psi)^2 / 4 * RInt (E_exact c L zi) 0 K); [right; field|].
    eapply Rle_trans; [exact G|right; ring].
Qed.

Lemma anisotropy_case : 0 < cos (2 * (PI / 6)) /\ 0 < RInt (E_exact 1 1 1) 0 2.
Proof.
  pose proof PI_RGT_0 as Hpi. split.
  - rewrite <- cos_PI2. apply cos_decreasing_1; lra.
  - apply RInt_gt_0; [lra| |].
    + intros x Hx. unfold E_exact. rewrite Rmult_1_l. apply Rdiv_lt_0_compat; [apply pow_lt; lra|apply denom_pos].
    + intros x _. apply E_continuous. lra.
Qed.
