(** Euler's integral is the sum of the hypergeometric series. *)

From Coq Require Import Reals List Lra Lia Psatz.
From Coquelicot Require Import Coquelicot.
From Verif Require Import HypSpec HypProofs.
Open Scope R_scope.

Lemma rising_pos : forall a n, 0 < a -> 0 < rising a n.
Proof.
  intros a n Ha. induction n as [|n IH]; simpl rising; [lra|].
  apply Rmult_lt_0_compat; [assumption|]. assert (H := pos_INR n). lra.
Qed.

Lemma rising_shift : forall n, rising (4/3) n = rising (1/3) n * (3 * INR n + 1).
Proof.
  induction n as [|n IH]; [simpl; ring|].
  change (rising (4/3) (S n)) with (rising (4/3) n * (4/3 + INR n)).
  change (rising (1/3) (S n)) with (rising (1/3) n * (1/3 + INR n)).
  rewrite IH, S_INR. field.
Qed.

(** Binomial coefficients of (1 - x)^(-17/6). *)
Definition binom_coef (n : nat) : R := rising (17/6) n / INR (fact n).

Definition hyp_coef (n : nat) : R := binom_coef n / (3 * INR n + 1).

Lemma fact_R_pos : forall n, 0 < INR (fact n).
Proof. intros. apply lt_0_INR, lt_O_fact. Qed.

Lemma coef_pos : forall n, 0 < binom_coef n.
Proof. intros. apply Rdiv_lt_0_compat; [apply rising_pos; lra|apply fact_R_pos]. Qed.

Lemma hcoef_pos : forall n, 0 < hyp_coef n.
Proof. intros. apply Rdiv_lt_0_compat; [apply coef_pos|]. assert (H := pos_INR n). lra. Qed.

Lemma coef_step : forall n, INR (S n) * binom_coef (S n) = (17/6 + INR n) * binom_coef n.
Proof.
  intros n. unfold binom_coef. change (rising (17/6) (S n)) with (rising (17/6) n * (17/6 + INR n)).
  rewrite fact_simpl, mult_INR. assert (H := fact_R_pos n). assert (0 < INR (S n)) by (apply lt_0_INR; lia).
  field. split; lra.
Qed.

Lemma gauss_coef : forall z n, gauss_term (1/3) (17/6) (4/3) z n = hyp_coef n * z^n.
Proof.
  intros z n. unfold gauss_term, hyp_coef, binom_coef. rewrite rising_shift.
  assert (H1 := rising_pos (1/3) n ltac:(lra)). assert (H2 := fact_R_pos n). assert (H3 := pos_INR n).
  field. split; [lra|]. split; lra.
Qed.

Lemma lim_ratio : forall p q, is_lim_seq (fun n => (INR n + p) / (INR n + q)) 1 .
Proof.
  intros p q.
  apply is_lim_seq_ext_loc with (fun n => 1 + (p - q) * / (INR n + q)).
  - destruct (nfloor_ex (Rabs q + 1) ltac:(assert (H := Rabs_pos q); lra)) as [N HN].
    exists (S N). intros n Hn. apply le_INR in Hn. rewrite S_INR in Hn.
    assert (H := Rle_abs (- q)). rewrite Rabs_Ropp in H. field. lra.
  - assert (H0 : is_lim_seq (fun n => / (INR n + q)) 0).
    { replace (Finite 0) with (Rbar_inv p_infty) by reflexivity.
      apply is_lim_seq_inv; [|discriminate].
      apply is_lim_seq_plus with (l1 := p_infty) (l2 := Finite q); [apply is_lim_seq_INR|apply is_lim_seq_const|reflexivity]. }
    apply (is_lim_seq_scal_l _ (p - q)) in H0.
    assert (H1 := is_lim_seq_plus' _ _ _ _ (is_lim_seq_const 1) H0).
    replace (1 + (p - q) * 0) with 1 in H1 by ring. exact H1.
Qed.

Lemma binom_radius : CV_radius binom_coef = 1.
Proof.
  replace (Finite 1) with (Finite (/ 1)) by (f_equal; field).
  apply CV_radius_finite_DAlembert; [|lra|].
  - intros n. assert (H := coef_pos n). lra.
  - apply is_lim_seq_ext with (fun n => (INR n + 17/6) / (INR n + 1)); [|apply lim_ratio].
    intros n. assert (H := coef_pos n). assert (H1 := coef_pos (S n)). assert (Hs := coef_step n).
    assert (Hn := pos_INR n). rewrite S_INR in Hs.
    rewrite Rabs_right by (left; apply Rdiv_lt_0_compat; assumption).
    apply Rmult_eq_reg_r with ((INR n + 1) * binom_coef n); [|nra].
    field_simplify; [|lra|lra]. nra.
Qed.

Lemma hyp_radius : CV_radius hyp_coef = 1.
Proof.
  replace (Finite 1) with (Finite (/ 1)) by (f_equal; field).
  apply CV_radius_finite_DAlembert; [|lra|].
  - intros n. assert (H := hcoef_pos n). lra.
  - apply is_lim_seq_ext with (fun n => (INR n + 17/6) / (INR n + 1) * ((INR n + 1/3) / (INR n + 4/3))).
    + intros n. assert (H := hcoef_pos n). assert (H1 := hcoef_pos (S n)). assert (Hs := coef_step n).
      assert (Hn := pos_INR n). rewrite S_INR in Hs.
      rewrite Rabs_right by (left; apply Rdiv_lt_0_compat; assumption).
      unfold hyp_coef. rewrite S_INR. assert (H2 := coef_pos n).
      replace (binom_coef (S n)) with ((17/6 + INR n) * binom_coef n / (INR n + 1)).
      * field. repeat split; lra.
      * rewrite <- Hs. field. lra.
    + replace (Finite 1) with (Finite (1 * 1)) by (f_equal; ring).
      apply is_lim_seq_mult'; apply lim_ratio.
Qed.

Lemma inside : forall (a : nat -> R) x, CV_radius a = 1 -> Rabs x < 1 -> Rbar_lt (Rabs x) (CV_radius a).
Proof. intros a x Ha Hx. rewrite Ha. exact Hx. Qed.

(** The binomial series. *)
Lemma binom_ode : forall x, Rabs x < 1 ->
  (1 - x) * PSeries (PS_derive binom_coef) x = 17/6 * PSeries binom_coef x.
Proof.
  intros x Hx.
  assert (Hd : ex_pseries (PS_derive binom_coef) x).
  { apply CV_radius_inside. rewrite CV_radius_derive. apply inside; [apply binom_radius|exact Hx]. }
  assert (Hb : ex_pseries binom_coef x).
  { apply CV_radius_inside. apply inside; [apply binom_radius|exact Hx]. }
  rewrite Rmult_minus_distr_r, Rmult_1_l.
  rewrite <- (PSeries_incr_1 (PS_derive binom_coef) x).
  rewrite <- PSeries_minus; [|exact Hd|apply ex_pseries_incr_1; exact Hd].
  rewrite <- PSeries_scal. apply PSeries_ext. intros n.
  change (PS_derive binom_coef n - @PS_incr_1 R_AbsRing R_NormedModule (PS_derive binom_coef) n = 17/6 * binom_coef n).
  unfold PS_derive. rewrite coef_step. destruct n as [|n].
  - change (@PS_incr_1 R_AbsRing R_NormedModule (fun m => INR (S m) * binom_coef (S m)) 0) with 0. simpl INR. ring.
  - change (@PS_incr_1 R_AbsRing R_NormedModule (fun m => INR (S m) * binom_coef (S m)) (S n)) with (INR (S n) * binom_coef (S n)).
    ring.
Qed.

Lemma abs_lt_1 : forall x, Rabs x < 1 -> 0 < 1 - x.
Proof. intros x Hx. apply Rabs_def2 in Hx. lra. Qed.

Lemma binom_sum : forall x, Rabs x < 1 -> PSeries binom_coef x = Rpower (1 - x) (-17/6).
Proof.
  intros x Hx.
  set (g := fun y => PSeries binom_coef y * Rpower (1 - y) (17/6)).
  assert (D : forall y, Rabs y < 1 -> is_derive g y 0).
  { intros y Hy.
    assert (D1 : is_derive (PSeries binom_coef) y (PSeries (PS_derive binom_coef) y)).
    { apply is_derive_PSeries. apply inside; [apply binom_radius|exact Hy]. }
    assert (D2 : is_derive (fun y => Rpower (1 - y) (17/6)) y (- (17/6) * / (1 - y) * Rpower (1 - y) (17/6))).
    { unfold Rpower. assert (H := abs_lt_1 y Hy). auto_derive; [lra|]. change (1 + - y) with (1 - y). field. lra. }
    assert (D3 := is_derive_mult _ _ y _ _ D1 D2 Rmult_comm).
    replace 0 with (plus (mult (PSeries (PS_derive binom_coef) y) (Rpower (1 - y) (17/6)))
                         (mult (PSeries binom_coef y) (- (17/6) * / (1 - y) * Rpower (1 - y) (17/6)))); [exact D3|].
    change (PSeries (PS_derive binom_coef) y * Rpower (1 - y) (17/6)
            + PSeries binom_coef y * (- (17/6) * / (1 - y) * Rpower (1 - y) (17/6)) = 0).
    assert (H := abs_lt_1 y Hy). assert (E := binom_ode y Hy).
    replace (PSeries (PS_derive binom_coef) y) with (17/6 * PSeries binom_coef y / (1 - y)); [field; lra|].
    rewrite <- E. field. lra. }
  assert (G : g x = g 0).
  { destruct (MVT_gen g 0 x (fun _ => 0)) as [c [_ Ec]].
    - intros y Hy. apply D. apply Rabs_def2 in Hx. apply Rabs_def1.
      + destruct (Rmax_Rlt 0 x 1) as [H _]. assert (Rmax 0 x < 1) by (apply Rmax_lub_lt; lra). lra.
      + assert (-1 < Rmin 0 x) by (apply Rmin_glb_lt; lra). lra.
    - intros y Hy. apply continuity_pt_filterlim.
      apply (@ex_derive_continuous _ R_NormedModule). exists 0. apply D. apply Rabs_def2 in Hx. apply Rabs_def1.
      + assert (Rmax 0 x < 1) by (apply Rmax_lub_lt; lra). lra.
      + assert (-1 < Rmin 0 x) by (apply Rmin_glb_lt; lra). lra.
    - lra. }
  unfold g in G. rewrite PSeries_0 in G. replace (1 - 0) with 1 in G by ring. rewrite power_one in G.
  replace (binom_coef 0) with 1 in G by (unfold binom_coef; simpl; field).
  replace (-17/6) with (- (17/6)) by field. rewrite Rpower_Ropp.
  assert (H := power_gt0 (1 - x) (17/6)).
  apply Rmult_eq_reg_r with (Rpower (1 - x) (17/6)); [|lra]. rewrite G. field. lra.
Qed.

Lemma hyp_relation : forall z, Rabs z < 1 ->
  PSeries hyp_coef z + 3 * (z * PSeries (PS_derive hyp_coef) z) = PSeries binom_coef z.
Proof.
  intros z Hz.
  assert (Hd : ex_pseries (PS_derive hyp_coef) z).
  { apply CV_radius_inside. rewrite CV_radius_derive. apply inside; [apply hyp_radius|exact Hz]. }
  assert (Hh : ex_pseries hyp_coef z).
  { apply CV_radius_inside. apply inside; [apply hyp_radius|exact Hz]. }
  rewrite <- (PSeries_incr_1 (PS_derive hyp_coef) z), <- PSeries_scal.
  rewrite <- PSeries_plus; [|exact Hh|].
  - apply PSeries_ext. intros n.
    change (hyp_coef n + 3 * @PS_incr_1 R_AbsRing R_NormedModule (PS_derive hyp_coef) n = binom_coef n).
    destruct n as [|n].
    + change (@PS_incr_1 R_AbsRing R_NormedModule (PS_derive hyp_coef) 0) with 0. unfold hyp_coef. simpl INR. field.
    + change (@PS_incr_1 R_AbsRing R_NormedModule (PS_derive hyp_coef) (S n)) with (INR (S n) * hyp_coef (S n)).
      unfold hyp_coef. assert (H := pos_INR (S n)). field. lra.
  - apply ex_pseries_scal; [apply Rmult_comm|]. apply ex_pseries_incr_1. exact Hd.
Qed.

Lemma cube_small : forall x, 0 <= x < 1 -> Rabs (- x^3) < 1.
Proof.
  intros x Hx. rewrite Rabs_Ropp, Rabs_right by (apply Rle_ge, pow_le; lra).
  assert (x^2 < 1) by (simpl; nra). assert (0 <= x^2) by (simpl; nra).
  replace (x^3) with (x * x^2) by ring. nra.
Qed.

Lemma hyp_partial : forall x, 0 <= x < 1 -> partial_int x = x * PSeries hyp_coef (- x^3).
Proof.
  intros x Hx.
  set (K := fun t => t * PSeries hyp_coef (- t^3)).
  assert (D : forall t, 0 <= t < 1 -> is_derive K t (Rpower (1 - (-1) * t^3) (-17/6))).
  { intros t Ht. assert (Hs := cube_small t Ht).
    assert (D1 : is_derive (PSeries hyp_coef) (- t^3) (PSeries (PS_derive hyp_coef) (- t^3))).
    { apply is_derive_PSeries. apply inside; [apply hyp_radius|exact Hs]. }
    assert (D2 : is_derive (fun t => - t^3) t (- (3 * t^2))) by (auto_derive; [trivial|ring]).
    assert (D3 := is_derive_comp (PSeries hyp_coef) (fun t => - t^3) t _ _ D1 D2).
    assert (D4 := is_derive_mult (fun t => t) _ t 1 _ (is_derive_id t) D3 Rmult_comm).
    replace (Rpower (1 - (-1) * t^3) (-17/6))
      with (1 * PSeries hyp_coef (- t^3) + t * (- (3 * t^2) * PSeries (PS_derive hyp_coef) (- t^3))); [exact D4|].
    replace (1 - (-1) * t^3) with (1 - (- t^3)) by ring. rewrite <- binom_sum by exact Hs.
    rewrite <- hyp_relation by exact Hs. ring. }
  unfold partial_int.
  assert (E : is_RInt (fun t => Rpower (1 - (-1) * t^3) (-17/6)) 0 x (minus (K x) (K 0))).
  { apply (@is_RInt_derive R_CompleteNormedModule K).
    - intros t Ht. rewrite Rmin_left, Rmax_right in Ht by lra. apply D. lra.
    - intros t Ht. rewrite Rmin_left, Rmax_right in Ht by lra. apply cont_integrand; lra. }
  rewrite (is_RInt_unique _ _ _ _ E). change (K x - K 0 = x * PSeries hyp_coef (- x^3)). unfold K. ring.
Qed.

Lemma euler_zero : euler_integral 0 = 1.
Proof.
  unfold euler_integral. rewrite (RInt_ext _ (fun _ => 1)).
  - rewrite RInt_const. unfold scal; simpl; unfold mult; simpl. ring.
  - intros s _. rewrite Rmult_0_l, Rminus_0_r. apply power_one.
Qed.

(** Euler's integral is the sum of the series. *)
Lemma euler_series : forall z, -1 < z <= 0 -> is_series (gauss_term (1/3) (17/6) (4/3) z) (euler_integral z).
Proof.
  intros z Hz.
  assert (Ha : Rabs z < 1) by (apply Rabs_def1; lra).
  assert (E : euler_integral z = PSeries hyp_coef z).
  { destruct (Req_dec z 0) as [->|Hn].
    - rewrite euler_zero, PSeries_0. unfold hyp_coef, binom_coef. simpl. field.
    - set (x := Rpower (- z) (1/3)).
      assert (Hx3 : x^3 = - z).
      { unfold x. rewrite <- (Rpower_pow 3) by apply power_gt0. rewrite Rpower_mult.
        replace (1/3 * INR 3) with 1 by (simpl; field). apply Rpower_1. lra. }
      assert (Hx0 : 0 < x) by apply power_gt0.
      assert (Hx1 : x < 1).
      { destruct (Rlt_dec x 1) as [?|Hge]; [assumption|]. exfalso.
        assert (1 <= x^3) by (rewrite <- (pow1 3); apply pow_incr; lra). lra. }
      assert (H1 := partial_scale x ltac:(lra)). assert (H2 := hyp_partial x ltac:(lra)).
      rewrite Hx3, Ropp_involutive in H1, H2.
      apply Rmult_eq_reg_l with x; [congruence|lra]. }
  rewrite E.
  apply is_series_ext with (fun n => hyp_coef n * z^n); [intros n; symmetry; apply gauss_coef|].
  apply is_pseries_R. apply PSeries_correct. apply CV_radius_inside. apply inside; [apply hyp_radius|exact Ha].
Qed.
