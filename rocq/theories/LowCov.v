(** Proofs about the low-frequency generator: covariance of the generated field and
    its two-dimensional spectrum. *)

From Coq Require Import Reals List ZArith Bool Lia Lra.
From Coquelicot Require Import Complex.
From Verif Require Import Prelude GenModel GenSpec GenProofs DftModel DftSpec DftProofs DftMore DftCov LowModel LowSpec LowProofs LowFourier LowMore LowSpectrum.
Import ListNotations.
Open Scope R_scope.

(** ** Two-dimensional spectrum *)

Lemma kappa_of_sq : forall psi k1 k2, (kappa_of psi k1 k2)^2 = low_kappa2 psi k1 k2.
Proof. intros. unfold kappa_of. apply pow2_sqrt. apply low_kappa2_nonneg. Qed.

Lemma phi_sq : forall c L psi zi dx dy k1 k2, 0 <= c -> 0 < L -> L <= 10^6 -> / 10^20 <= k1^2 + k2^2 -> / 10^20 <= low_kappa2 psi k1 k2 ->
  (low_phi c L psi zi dx dy k1 k2)^2 = planar c L psi zi k1 k2 / (k1^2 + k2^2) * (grid_scale dx dy)^2.
Proof.
  intros c L psi zi dx dy k1 k2 Hc HL HL6 Hk Hkap. unfold low_phi. cbv zeta. rewrite (proj2 (Rltb_false _ _) Hk).
  assert (P20 : 0 < / 10^20) by (apply Rinv_0_lt_compat; lra). assert (P30 : 0 < / 10^30) by (apply Rinv_0_lt_compat; lra).
  pose proof (denominator_ge L zi _ HL HL6 (low_kappa2_nonneg psi k1 k2)) as HD. rewrite (proj2 (Rltb_false _ _) HD).
  rewrite (Rmax_lr (low_kappa2 psi k1 k2) (/ 10^20)) by exact Hkap.
  change (sqrt (low_kappa2 psi k1 k2)) with (kappa_of psi k1 k2).
  assert (HS : 0 < sqrt (k1^2 + k2^2)) by (apply sqrt_lt_R0; lra).
  assert (HK : 0 <= kappa_of psi k1 k2) by apply sqrt_pos.
  rewrite Rpow_mult_distr. f_equal. rewrite Rmax_lr.
  - rewrite pow2_sqrt.
    + unfold planar, E_exact. rewrite kappa_of_sq. assert (ES : (sqrt (k1^2 + k2^2))^2 = k1^2 + k2^2) by (apply pow2_sqrt; lra).
      set (D := _ * (1 + _)) in *. clearbody D. rewrite <- ES at 3. pose proof PI_RGT_0. field. repeat split; lra.
    + apply Rmult_le_pos; [|left; apply Rinv_0_lt_compat, Rmult_lt_0_compat; [apply PI_RGT_0|apply pow_lt; exact HS]].
      apply Rmult_le_pos; [apply Rmult_le_pos; [exact Hc|apply pow_le; exact HK]|left; apply Rinv_0_lt_compat; lra].
  - apply Rmult_le_pos; [|left; apply Rinv_0_lt_compat, Rmult_lt_0_compat; [apply PI_RGT_0|apply pow_lt; exact HS]].
    apply Rmult_le_pos; [apply Rmult_le_pos; [exact Hc|apply pow_le; exact HK]|left; apply Rinv_0_lt_compat; lra].
Qed.

Lemma integrands_planar : forall c L psi zi k1 k2, 0 < L -> L <= 10^6 -> / 10^24 <= k1^2 + k2^2 -> / 10^24 <= low_kappa2 psi k1 k2 ->
  integrand11 c L psi zi k1 k2 = planar c L psi zi k1 k2 * (k2^2 / (k1^2 + k2^2))
  /\ integrand22 c L psi zi k1 k2 = planar c L psi zi k1 k2 * (k1^2 / (k1^2 + k2^2)).
Proof.
  intros c L psi zi k1 k2 HL HL6 Hk Hkap. unfold integrand11, integrand22, E_kappa, planar, E_exact. cbv zeta.
  rewrite (proj2 (Rltb_false _ _) Hk). rewrite Rmax_lr by exact Hkap.
  pose proof (denominator_ge L zi _ HL HL6 (low_kappa2_nonneg psi k1 k2)) as HD. rewrite (proj2 (Rltb_false _ _) HD).
  rewrite kappa_of_sq. change (sqrt (low_kappa2 psi k1 k2)) with (kappa_of psi k1 k2). split; reflexivity.
Qed.

Lemma Q_sq : forall c L psi zi dx dy k1 k2,
  Cmult (low_Q1 c L psi zi dx dy k1 k2) (Cconj (low_Q1 c L psi zi dx dy k1 k2)) = RtoC ((low_phi c L psi zi dx dy k1 k2)^2 * k2^2)
  /\ Cmult (low_Q2 c L psi zi dx dy k1 k2) (Cconj (low_Q2 c L psi zi dx dy k1 k2)) = RtoC ((low_phi c L psi zi dx dy k1 k2)^2 * k1^2).
Proof. intros. unfold low_Q1, low_Q2. set (f := low_phi _ _ _ _ _ _ _ _). split; ceq; ring. Qed.

Lemma tiny_order : / 10^24 <= / 10^20.
Proof. apply Rinv_le_contravar; lra. Qed.

(** The square of the kernel is the integrand of the analytical spectrum times the
    area of a Fourier cell per noise value. *)
Lemma kernel_integrand : forall c L psi zi dx dy k1 k2, 0 <= c -> 0 < L -> L <= 10^6 -> / 10^16 <= dx * dy ->
  / 10^20 <= k1^2 + k2^2 -> / 10^20 <= low_kappa2 psi k1 k2 ->
  (Cmod (low_Q1 c L psi zi dx dy k1 k2))^2 = (2 * PI)^2 / (dx * dy) * integrand11 c L psi zi k1 k2
  /\ (Cmod (low_Q2 c L psi zi dx dy k1 k2))^2 = (2 * PI)^2 / (dx * dy) * integrand22 c L psi zi k1 k2.
Proof.
  intros c L psi zi dx dy k1 k2 Hc HL HL6 Hd Hk Hkap. pose proof tiny_order as HT.
  destruct (integrands_planar c L psi zi k1 k2 HL HL6 ltac:(lra) ltac:(lra)) as [I1 I2]. rewrite I1, I2.
  assert (HQ : forall z, RtoC ((Cmod z)^2) = Cmult z (Cconj z)) by (intros z; rewrite Cmod_conj, Cmod_sq; reflexivity).
  pose proof (phi_sq c L psi zi dx dy k1 k2 Hc HL HL6 Hk Hkap) as HP. rewrite (grid_scale_sq dx dy Hd) in HP.
  assert (P16 : 0 < / 10^16) by (apply Rinv_0_lt_compat; lra). assert (P20 : 0 < / 10^20) by (apply Rinv_0_lt_compat; lra).
  destruct (Q_sq c L psi zi dx dy k1 k2) as [Q1 Q2]. split; apply RtoC_inj; rewrite HQ, ?Q1, ?Q2, HP; f_equal; set (p := dx * dy) in *; clearbody p; field; lra.
Qed.

(** ** Covariance *)

Section Covariance.

Variable d : extents.
Hypothesis Hd : nonempty d.
Variable T : (node -> R) -> node -> R.
Variable A : node -> C.
Hypothesis HT : forall noise k, on_grid d k -> fourier d (T noise) k = Cmult (A k) (fourier d noise k).

Lemma T_inverse : forall noise x, on_grid d x -> RtoC (T noise x) = ifftn d (fun k => Cmult (A k) (fourier d noise k)) x.
Proof.
  intros noise x Hx. rewrite <- (ifftn_fftn d (fun x => RtoC (T noise x)) x Hd Hx). unfold ifftn. f_equal. apply csum_ext. intros k Hk.
  rewrite grid_In in Hk. rewrite <- fourier_fftn, HT by exact Hk. reflexivity.
Qed.

Lemma response : forall x y, on_grid d x -> on_grid d y ->
  RtoC (T (spike y) x) = Cmult (RtoC (/ count d)) (csum (grid d) (fun k => Cmult (Cmult (A k) (cis (theta d k x))) (cis (- theta d k y)))).
Proof.
  intros x y Hx Hy. rewrite T_inverse by exact Hx. unfold ifftn. f_equal. apply csum_ext. intros k _. rewrite fourier_fftn, spike_hat by exact Hy. ring.
Qed.

Lemma response_hat : forall x k, on_grid d x -> on_grid d k -> fftn d (fun y => RtoC (T (spike y) x)) k = Cconj (Cmult (A k) (cis (theta d k x))).
Proof.
  intros x k Hx Hk. rewrite <- (fftn_ifftn d (fun k => Cconj (Cmult (A k) (cis (theta d k x)))) k Hd Hk).
  unfold fftn. apply csum_ext. intros y Hy. rewrite grid_In in Hy. f_equal.
  rewrite <- (Cconj_R (T (spike y) x)), response by assumption. unfold ifftn. rewrite Cconj_mult, Cconj_R. f_equal. rewrite csum_conj. apply csum_ext. intros l _.
  rewrite Cconj_mult. rewrite cis_neg, Cconj_conj. reflexivity.
Qed.

Lemma covariance_general : forall x x', on_grid d x -> on_grid d x' ->
  plane_covariance d T x x' = / count d * Rsum (map (fun k => (Cmod (A k))^2 * cos (angle d k x - angle d k x')) (nodes_of d)).
Proof.
  intros x x' Hx Hx'. unfold plane_covariance. apply RtoC_inj. rewrite Rsum_RtoC, csum_nodes_of.
  rewrite (parseval d (fun y => T (spike y) x) (fun y => T (spike y) x') Hd).
  rewrite (csum_ext _ _ _ (fun k => Cmult (RtoC ((Cmod (A k))^2)) (cis (theta d k x' - theta d k x)))).
  - rewrite RtoC_mult. f_equal.
    assert (HR : Rsum (map (fun k => (Cmod (A k))^2 * cos (angle d k x - angle d k x')) (nodes_of d)) = Re (csum (grid d) (fun k => Cmult (RtoC ((Cmod (A k))^2)) (cis (theta d k x' - theta d k x))))).
    { rewrite <- csum_nodes_of, csum_Re. apply Rsum_ext. intros k _. unfold Re. rewrite Cmult_RtoC_fst. cbn [cis fst]. rewrite !angle_theta. f_equal.
      rewrite <- cos_neg. f_equal. ring. }
    rewrite HR. symmetry. 
    assert (HI : Im (csum (grid d) (fun k => Cmult (RtoC ((Cmod (A k))^2)) (cis (theta d k x' - theta d k x)))) = 0).
    { assert (E : csum (grid d) (fun k => Cmult (RtoC ((Cmod (A k))^2)) (cis (theta d k x' - theta d k x)))
        = Cmult (RtoC (count d)) (csum (grid d) (fun y => RtoC (T (spike y) x * T (spike y) x')))).
      { rewrite (parseval d (fun y => T (spike y) x) (fun y => T (spike y) x') Hd). rewrite Cmult_assoc, <- RtoC_mult, Rinv_r by (pose proof (count_pos d Hd); lra).
        rewrite Cmult_1_l. apply csum_ext. intros k Hk. rewrite grid_In in Hk. rewrite !response_hat by assumption. rewrite Cconj_conj.
        rewrite Cmod_sq, <- Cmod_conj. unfold Rminus. rewrite cis_plus, cis_neg. rewrite !Cconj_mult. ring. }
      rewrite E, <- Rsum_RtoC, <- RtoC_mult. reflexivity. }
    set (S := csum _ _) in *. clearbody S. destruct S as [sr si]. unfold Re, Im in *. cbn in *. subst si. reflexivity.
  - intros k Hk. rewrite grid_In in Hk. rewrite !response_hat by assumption. rewrite Cconj_conj.
    rewrite Cmod_sq, <- Cmod_conj. unfold Rminus. rewrite cis_plus, cis_neg. rewrite !Cconj_mult. ring.
Qed.

End Covariance.

(** Modes of the grid other than the constant one are resolved by the tolerances of
    the code when the sides are below 10^8 and the anisotropy angle is not degenerate. *)
Lemma mode_resolved : forall L1 L2 n1 n2 a b psi, 0 < L1 <= 10^8 -> 0 < L2 <= 10^8 -> / 100 <= Rabs (cos psi) -> / 100 <= Rabs (sin psi) ->
  (a < n1)%nat -> (b < n2)%nat -> (a, b) <> (0%nat, 0%nat) ->
  let k1 := physical_k L1 n1 a in let k2 := physical_k L2 n2 b in
  / 10^20 <= k1^2 + k2^2 /\ / 10^20 <= low_kappa2 psi k1 k2.
Proof.
  intros L1 L2 n1 n2 a b psi HL1 HL2 Hcos Hsin Ha Hb Hab k1 k2.
  assert (HK : forall L n c, 0 < L <= 10^8 -> (c < n)%nat -> c <> 0%nat -> / 10^16 <= (physical_k L n c)^2).
  { intros L n c [HL HL8] Hc Hc0.
    assert (H1 : / 10^8 <= 2 * PI * 1 / L).
    { apply Rle_trans with (/ L); [apply Rinv_le_contravar; assumption|]. unfold Rdiv. rewrite Rmult_1_r. rewrite <- (Rmult_1_l (/ L)) at 1.
      apply Rmult_le_compat_r; [left; apply Rinv_0_lt_compat; exact HL|]. pose proof PI2_1. lra. }
    assert (E : / 10^16 = (/ 10^8)^2) by (rewrite pow_inv; f_equal; ring). rewrite E.
    assert (P8 : 0 < / 10^8) by (apply Rinv_0_lt_compat; lra). assert (PL : 0 < / L) by (apply Rinv_0_lt_compat; exact HL).
    assert (HP : 0 < 2 * PI) by (pose proof PI_RGT_0; lra).
    unfold physical_k. destruct (2 * c <? n)%nat.
    - assert (1 <= INR c) by (apply (le_INR 1); lia). apply pow_incr. split; [lra|]. eapply Rle_trans; [exact H1|]. unfold Rdiv. apply Rmult_le_compat_r; [lra|]. apply Rmult_le_compat_l; lra.
    - assert (1 <= INR n - INR c) by (rewrite <- minus_INR by lia; apply (le_INR 1); lia).
      replace ((- (2 * PI * (INR n - INR c) / L))^2) with ((2 * PI * (INR n - INR c) / L)^2) by ring.
      apply pow_incr. split; [lra|]. eapply Rle_trans; [exact H1|]. unfold Rdiv. apply Rmult_le_compat_r; [lra|]. apply Rmult_le_compat_l; lra. }
  assert (HS : / 10^16 <= k1^2 + k2^2).
  { destruct (Nat.eq_dec a 0) as [->|Na].
    - assert (b <> 0%nat) by congruence. pose proof (HK L2 n2 b HL2 Hb H). pose proof (pow2_ge_0 k1). unfold k2. lra.
    - pose proof (HK L1 n1 a HL1 Ha Na). pose proof (pow2_ge_0 k2). unfold k1. lra. }
  assert (PT : / 10^20 <= / 10^16) by (apply Rinv_le_contravar; lra). assert (P16 : 0 < / 10^16) by (apply Rinv_0_lt_compat; lra). split; [lra|].
  unfold low_kappa2. rewrite !Rpow_mult_distr.
  assert (HC : / 10^4 <= (cos psi)^2) by (rewrite <- (pow2_abs (cos psi)); replace (/ 10^4) with ((/ 100)^2) by field; apply pow_incr; lra).
  assert (HSn : / 10^4 <= (sin psi)^2) by (rewrite <- (pow2_abs (sin psi)); replace (/ 10^4) with ((/ 100)^2) by field; apply pow_incr; lra).
  pose proof (pow2_ge_0 k1) as A1. pose proof (pow2_ge_0 k2) as A2.
  assert (E20 : / 10^20 = / 10^16 * / 10^4) by (rewrite <- Rinv_mult; f_equal; ring). rewrite E20.
  assert (P4 : 0 < / 10^4) by (apply Rinv_0_lt_compat; lra).
  assert (B1 : k1^2 * / 10^4 <= k1^2 * (cos psi)^2) by (apply Rmult_le_compat_l; assumption).
  assert (B2 : k2^2 * / 10^4 <= k2^2 * (sin psi)^2) by (apply Rmult_le_compat_l; assumption).
  assert (B3 : / 10^16 * / 10^4 <= (k1^2 + k2^2) * / 10^4) by (apply Rmult_le_compat_r; lra).
  assert (B4 : 0 <= k1^2 * / 10^4 + k2^2 * / 10^4) by (apply Rplus_le_le_0_compat; apply Rmult_le_pos; lra). lra.
Qed.

Lemma integrands_zero : forall c L psi zi, integrand11 c L psi zi 0 0 = 0 /\ integrand22 c L psi zi 0 0 = 0.
Proof.
  intros. unfold integrand11, integrand22. cbv zeta. replace (0^2 + 0^2) with 0 by ring.
  rewrite (proj2 (Rltb_true 0 (/ 10^24))) by (apply Rinv_0_lt_compat; lra). split; reflexivity.
Qed.

Lemma physical_k_0 : forall L n, (0 < n)%nat -> physical_k L n 0 = 0.
Proof. intros L n Hn. unfold physical_k. replace (2 * 0)%nat with 0%nat by lia. rewrite (proj2 (Nat.ltb_lt 0 n) Hn). cbn [INR]. unfold Rdiv. ring. Qed.

(** Covariance of the generated components: Riemann sum of the integrand of the
    analytical spectrum, without the modes at the highest lateral (first component) or
    streamwise (second component) wave number. *)
Lemma low_covariance : forall quad cfg w x x', positive_lengths cfg -> low_construct quad cfg = Ok w -> 0 <= lc_sigma2 cfg -> lc_L cfg <= 10^6 ->
  let g := lw_grid w in
  lg_cL1 g <= 10^8 -> lg_cL2 g <= 10^8 -> / 10^16 <= lg_cdx g * lg_cdy g -> / 100 <= Rabs (cos (lc_psi cfg)) -> / 100 <= Rabs (sin (lc_psi cfg)) ->
  let d := (lg_cN1 g, lg_cN2 g, 1%nat) in
  let cell := (2 * PI / lg_cL1 g) * (2 * PI / lg_cL2 g) in
  on_grid d x -> on_grid d x' ->
  plane_covariance d (low_sample (gen_Q1 w) g) x x'
  = Rsum (map (fun k => let '(a, b, _) := k in
                 (if (2 * b =? lg_cN2 g)%nat then 0
                  else integrand11 (lw_c w) (lc_L cfg) (lc_psi cfg) (lc_zi cfg) (physical_k (lg_cL1 g) (lg_cN1 g) a) (physical_k (lg_cL2 g) (lg_cN2 g) b) * cell)
                 * cos (angle d k x - angle d k x')) (nodes_of d))
  /\ plane_covariance d (low_sample (gen_Q2 w) g) x x'
  = Rsum (map (fun k => let '(a, b, _) := k in
                 (if (2 * a =? lg_cN1 g)%nat then 0
                  else integrand22 (lw_c w) (lc_L cfg) (lc_psi cfg) (lc_zi cfg) (physical_k (lg_cL1 g) (lg_cN1 g) a) (physical_k (lg_cL2 g) (lg_cN2 g) b) * cell)
                 * cos (angle d k x - angle d k x')) (nodes_of d)).
Proof.
  intros quad cfg w x x' HP HC Hs HL6 g H81 H82 Hcell Hcos Hsin d cell Hx Hx'.
  destruct (low_constructed quad cfg w HC HP) as (EC & F & HQ & Ec & _). fold g in F.
  assert (P16 : 0 < / 10^16) by (apply Rinv_0_lt_compat; lra).
  assert (Hc : 0 <= lw_c w) by (rewrite Ec; apply Rmult_le_pos; [exact Hs|left; apply Rinv_0_lt_compat; lra]).
  pose proof (gf_21 _ _ F) as H21. pose proof (gf_22 _ _ F) as H22. destruct (gf_d _ _ F) as [D1 D2]. pose proof (gf_dpos _ _ F) as DP.
  assert (I1 : 0 < INR (lg_cN1 g)) by (apply lt_0_INR; lia). assert (I2 : 0 < INR (lg_cN2 g)) by (apply lt_0_INR; lia).
  assert (C1 : 0 < lg_cdx g) by (rewrite D1; exact DP). assert (C2 : 0 < lg_cdy g) by (rewrite D2; exact DP).
  assert (HcL1 : 0 < lg_cL1 g) by (rewrite (gf_c1 _ _ F); apply Rmult_lt_0_compat; assumption).
  assert (HcL2 : 0 < lg_cL2 g) by (rewrite (gf_c2 _ _ F); apply Rmult_lt_0_compat; assumption).
  assert (Hd : nonempty d) by (unfold d, nonempty; lia).
  assert (Ecell : forall r, / count d * ((2 * PI)^2 / (lg_cdx g * lg_cdy g) * r) = r * cell).
  { intros r. unfold cell. rewrite (gf_c1 _ _ F), (gf_c2 _ _ F). unfold count, d. cbn [INR]. field. repeat split; lra. }
  destruct HP as (HL & HF1 & HF2).
  assert (HM : forall a b, (a < lg_cN1 g)%nat -> (b < lg_cN2 g)%nat ->
    let k1 := physical_k (lg_cL1 g) (lg_cN1 g) a in let k2 := physical_k (lg_cL2 g) (lg_cN2 g) b in
    (Cmod (gen_Q1 w k1 k2))^2 = (2 * PI)^2 / (lg_cdx g * lg_cdy g) * integrand11 (lw_c w) (lc_L cfg) (lc_psi cfg) (lc_zi cfg) k1 k2
    /\ (Cmod (gen_Q2 w k1 k2))^2 = (2 * PI)^2 / (lg_cdx g * lg_cdy g) * integrand22 (lw_c w) (lc_L cfg) (lc_psi cfg) (lc_zi cfg) k1 k2).
  { intros a b Ha Hb k1 k2. unfold gen_Q1, gen_Q2. rewrite EC. fold g.
    destruct (Nat.eq_dec a 0) as [Ea|Na]; [destruct (Nat.eq_dec b 0) as [Eb|Nb]|].
    - subst a b. assert (K1 : k1 = 0) by (apply physical_k_0; lia). assert (K2 : k2 = 0) by (apply physical_k_0; lia). rewrite K1, K2.
      destruct (Q_zero (lw_c w) (lc_L cfg) (lc_psi cfg) (lc_zi cfg) (lg_cdx g) (lg_cdy g)) as [-> ->].
      destruct (integrands_zero (lw_c w) (lc_L cfg) (lc_psi cfg) (lc_zi cfg)) as [-> ->]. rewrite Cmod_0. split; ring.
    - destruct (mode_resolved (lg_cL1 g) (lg_cL2 g) (lg_cN1 g) (lg_cN2 g) a b (lc_psi cfg)) as [R1 R2]; try assumption; try (split; assumption); [congruence|].
      apply kernel_integrand; assumption.
    - destruct (mode_resolved (lg_cL1 g) (lg_cL2 g) (lg_cN1 g) (lg_cN2 g) a b (lc_psi cfg)) as [R1 R2]; try assumption; try (split; assumption); [congruence|].
      apply kernel_integrand; assumption. }
  pose (A1 := fun k : node => let '(a, b, _) := k in if (2 * b =? lg_cN2 g)%nat then RtoC 0 else gen_Q1 w (physical_k (lg_cL1 g) (lg_cN1 g) a) (physical_k (lg_cL2 g) (lg_cN2 g) b)).
  pose (A2 := fun k : node => let '(a, b, _) := k in if (2 * a =? lg_cN1 g)%nat then RtoC 0 else gen_Q2 w (physical_k (lg_cL1 g) (lg_cN1 g) a) (physical_k (lg_cL2 g) (lg_cN2 g) b)).
  split.
  - assert (HT : forall noise k, on_grid d k -> fourier d (low_sample (gen_Q1 w) g noise) k = Cmult (A1 k) (fourier d noise k)).
    { intros noise k Hk. apply (on_grid_2 g ltac:(lia) ltac:(lia)) in Hk. destruct Hk as (a & b & -> & Ha & Hb). unfold A1, gen_Q1. rewrite EC. fold g.
      unfold d. rewrite (coefficients1 g ltac:(lia) ltac:(lia) (gf_c1 _ _ F) (gf_c2 _ _ F)) by assumption.
      destruct (2 * b =? lg_cN2 g)%nat; [ring|reflexivity]. }
    rewrite (covariance_general d Hd (low_sample (gen_Q1 w) g) A1 HT x x' Hx Hx').
    rewrite <- Rsum_scal. apply Rsum_ext. intros k Hk. apply nodes_of_In in Hk. destruct k as [[a b] c0]. destruct Hk as (Ha & Hb & _).
    unfold A1. destruct (2 * b =? lg_cN2 g)%nat; [rewrite Cmod_0; ring|]. rewrite (proj1 (HM a b Ha Hb)), <- Ecell. ring.
  - assert (HT : forall noise k, on_grid d k -> fourier d (low_sample (gen_Q2 w) g noise) k = Cmult (A2 k) (fourier d noise k)).
    { intros noise k Hk. apply (on_grid_2 g ltac:(lia) ltac:(lia)) in Hk. destruct Hk as (a & b & -> & Ha & Hb). unfold A2, gen_Q2. rewrite EC. fold g.
      unfold d. rewrite (coefficients2 g ltac:(lia) ltac:(lia) (gf_c1 _ _ F) (gf_c2 _ _ F)) by assumption.
      destruct (2 * a =? lg_cN1 g)%nat; [ring|reflexivity]. }
    rewrite (covariance_general d Hd (low_sample (gen_Q2 w) g) A2 HT x x' Hx Hx').
    rewrite <- Rsum_scal. apply Rsum_ext. intros k Hk. apply nodes_of_In in Hk. destruct k as [[a b] c0]. destruct Hk as (Ha & Hb & _).
    unfold A2. destruct (2 * a =? lg_cN1 g)%nat; [rewrite Cmod_0; ring|]. rewrite (proj2 (HM a b Ha Hb)), <- Ecell. ring.
Qed.

(** ** Scale of the energy spectrum *)

Lemma c_normalises : forall quad cfg w, low_construct quad cfg = Ok w -> (forall (r : R) f, quad (fun k => r * f k) = r * quad f) ->
  2 * quad (fun kappa => lw_c w * low_shape (lc_L cfg) (lc_zi cfg) kappa) = lc_sigma2 cfg.
Proof.
  intros quad cfg w H HQ. rewrite HQ. unfold low_construct, compute_c in H. destruct (Reqb (lc_L cfg) 0); [discriminate|].
  set (I := quad _) in *. destruct (Rltb I (/ 10^16)) eqn:E in H; [discriminate|]. apply Rltb_false in E.
  assert (P16 : 0 < / 10^16) by (apply Rinv_0_lt_compat; lra). cbn [bind] in H.
  destruct (make_low_grid cfg) as [g|e]; [|discriminate]. cbn [bind] in H. injection H as <-. cbn [lw_c]. field. lra.
Qed.

Lemma shape_exact : forall L zi kappa c, 0 < L -> L <= 10^6 -> / 10^15 <= kappa -> c * low_shape L zi kappa = E_exact c L zi kappa.
Proof.
  intros L zi kappa c HL HL6 Hk. unfold low_shape, E_exact. cbv zeta.
  assert (P15 : 0 < / 10^15) by (apply Rinv_0_lt_compat; lra).
  assert (H2 : / 10^30 <= kappa^2) by (replace (/ 10^30) with ((/ 10^15)^2) by (rewrite pow_inv; f_equal; ring); apply pow_incr; lra).
  rewrite (proj2 (Rltb_false _ _) H2). rewrite (proj2 (Rltb_false _ _) (denominator_ge L zi (kappa^2) HL HL6 (pow2_ge_0 kappa))).
  rewrite (proj2 (Rltb_false kappa (/ 10^30))); [unfold Rdiv; ring|]. apply Rle_trans with (/ 10^15); [apply Rinv_le_contravar; lra|exact Hk].
Qed.
