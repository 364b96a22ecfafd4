From Coq Require Import Reals Lra Psatz.
From Coquelicot Require Import Complex.
From Verif Require Import Prelude RdtModel SpectraModel RdtSpec RdtProofs SpectraProofs.
Open Scope R_scope.

(** ** Homogeneity of the tensor *)

Lemma atan2_scale : forall c y x, 0 < c -> atan2 (c * y) (c * x) = atan2 y x.
Proof.
  intros c y x Hc. unfold atan2.
  assert (Hx : forall t, 0 < c * t <-> 0 < t).
  { intro t. split; intro H; [|apply Rmult_lt_0_compat; assumption].
    destruct (Rle_or_lt t 0); [|assumption]. nra. }
  assert (Hn : forall t, c * t < 0 <-> t < 0).
  { intro t. split; intro H; [|nra]. destruct (Rle_or_lt 0 t); [nra|assumption]. }
  assert (Hq : x <> 0 -> c * y / (c * x) = y / x) by (intro; field; split; lra).
  destruct (Rlt_dec 0 (c * x)) as [H|H]; destruct (Rlt_dec 0 x) as [H'|H'];
    try (rewrite Hx in H; contradiction).
  - rewrite Hq by lra. reflexivity.
  - destruct (Rlt_dec (c * x) 0) as [G|G]; destruct (Rlt_dec x 0) as [G'|G'];
      try (rewrite Hn in G; contradiction).
    + rewrite Hq by lra.
      destruct (Rlt_dec (c * y) 0) as [F|F]; destruct (Rlt_dec y 0) as [F'|F'];
        try (rewrite Hn in F; contradiction); reflexivity.
    + destruct (Rlt_dec 0 (c * y)) as [F|F]; destruct (Rlt_dec 0 y) as [F'|F'];
        try (rewrite Hx in F; contradiction); [reflexivity|].
      destruct (Rlt_dec (c * y) 0) as [E|E]; destruct (Rlt_dec y 0) as [E'|E'];
        try (rewrite Hn in E; contradiction); reflexivity.
Qed.

Lemma kk_scale : forall c k1 k2 k3, kk_of (k1*c) (k2*c) (k3*c) = c^2 * kk_of k1 k2 k3.
Proof. intros. unfold kk_of. ring. Qed.

Lemma k30_scale : forall c b k1 k3, k30_of b (k1*c) (k3*c) = c * k30_of b k1 k3.
Proof. intros. unfold k30_of. ring. Qed.

Lemma kk0_scale : forall c b k1 k2 k3, kk0_of b (k1*c) (k2*c) (k3*c) = c^2 * kk0_of b k1 k2 k3.
Proof. intros. unfold kk0_of, k30_of. ring. Qed.

Lemma s_scale : forall c k1 k2, s_of (k1*c) (k2*c) = c^2 * s_of k1 k2.
Proof. intros. unfold s_of. ring. Qed.

Lemma sqrt_scale2 : forall c s, 0 < c -> 0 <= s -> sqrt (c^2 * s) = c * sqrt s.
Proof.
  intros. rewrite sqrt_mult by (try apply pow2_ge_0; assumption). rewrite sqrt_pow2 by lra. reflexivity.
Qed.

Lemma C1_scale : forall c b k1 k2 k3, 0 < c -> k1 <> 0 ->
  fit_C1 b (k1*c) (k2*c) (k3*c) = fit_C1 b k1 k2 k3.
Proof.
  intros c b k1 k2 k3 Hc Hk. unfold fit_C1. cbv zeta. rewrite kk_scale, k30_scale, kk0_scale, s_scale.
  pose proof (kk_pos k1 k2 k3 Hk). pose proof (s_pos k1 k2 Hk). field. repeat split; lra.
Qed.

Lemma C2_scale : forall c b k1 k2 k3, 0 < c -> k1 <> 0 ->
  fit_C2 b (k1*c) (k2*c) (k3*c) = fit_C2 b k1 k2 k3.
Proof.
  intros c b k1 k2 k3 Hc Hk. unfold fit_C2. cbv zeta. rewrite k30_scale, kk0_scale, s_scale.
  pose proof (s_pos k1 k2 Hk) as Hs. set (s := s_of k1 k2) in *.
  rewrite (sqrt_scale2 c s) by lra.
  replace ((c^2 * s)^3) with ((c^3)^2 * s^3) by ring.
  rewrite (sqrt_scale2 (c^3) (s^3)) by (try apply pow_lt; try (apply pow_le; lra); assumption).
  replace (b * (k1 * c) * (c * sqrt s)) with (c^2 * (b * k1 * sqrt s)) by ring.
  replace (c ^ 2 * kk0_of b k1 k2 k3 - c * k30_of b k1 k3 * (k1 * c) * b)
    with (c^2 * (kk0_of b k1 k2 k3 - k30_of b k1 k3 * k1 * b)) by ring.
  rewrite atan2_scale by (apply pow_lt; assumption).
  assert (sqrt (s^3) <> 0) by (apply Rgt_not_eq, sqrt_lt_R0, pow_lt; assumption).
  field. split; lra.
Qed.

Lemma zeta1_scale : forall c b k1 k2 k3, 0 < c -> k1 <> 0 ->
  fit_zeta1 b (k1*c) (k2*c) (k3*c) = fit_zeta1 b k1 k2 k3.
Proof. intros. unfold fit_zeta1. rewrite C1_scale, C2_scale by assumption. field. split; lra. Qed.

Lemma zeta2_scale : forall c b k1 k2 k3, 0 < c -> k1 <> 0 ->
  fit_zeta2 b (k1*c) (k2*c) (k3*c) = fit_zeta2 b k1 k2 k3.
Proof. intros. unfold fit_zeta2. rewrite C1_scale, C2_scale by assumption. field. split; lra. Qed.

Lemma raw_homogeneous : forall c E0 b k1 k2 k3 i j, 0 < c -> k1 <> 0 ->
  entry (power_spectra_raw E0 b (k1*c) (k2*c) (k3*c)) i j
  = entry (power_spectra_raw E0 b k1 k2 k3) i j / c^2.
Proof.
  intros c E0 b k1 k2 k3 i j Hc Hk.
  pose proof (kk_pos k1 k2 k3 Hk). pose proof (kk0_pos b k1 k2 k3 Hk). pose proof PI_RGT_0.
  destruct i, j; unfold entry, power_spectra_raw; cbv zeta; cbn [phi11 phi22 phi33 phi13 phi23 phi12];
    rewrite ?zeta1_scale, ?zeta2_scale, kk_scale, ?k30_scale, ?kk0_scale || rewrite ?zeta1_scale, ?zeta2_scale, ?k30_scale, ?kk0_scale;
    try assumption; field; repeat split; lra.
Qed.

(** ** Amplitude of the DRD field *)

Lemma energy_scale : forall M L b z k1 k2 k3, 0 < z ->
  forward_energy vklike_energy M L b (k1*z) (k2*z) (k3*z)
  = M * Rpower L (5/3) * vklike_energy (L * z * sqrt (kk0_of b k1 k2 k3)).
Proof.
  intros M L b z k1 k2 k3 Hz. unfold forward_energy. cbv zeta.
  rewrite kk0_scale, sqrt_scale2 by (try apply kk0_nonneg; assumption).
  do 2 f_equal. ring.
Qed.

Lemma drd_amplitude : forall L T M ustar zref b k1 k2 k3 i j,
  0 < L -> 0 <= M -> 0 < zref -> k1 <> 0 ->
  let '(E0, Ls, _) := drd_load L T M ustar zref in
  covariance (times_1j (sheared_kernel E0 Ls b k1 k2 k3)) i j
  = RtoC (4 * PI * Rpower L (-5/3)
          * (ustar^2 * zref^3
             * entry (power_spectra_raw
                        (forward_energy vklike_energy M L b (k1*zref) (k2*zref) (k3*zref))
                        b (k1*zref) (k2*zref) (k3*zref)) i j)).
Proof.
  intros L T M ustar zref b k1 k2 k3 i j HL HM Hz Hk. unfold drd_load. cbv zeta.
  assert (HP : 0 < Rpower L (-5/3)) by apply Rpower_pos.
  assert (Hz3 : 0 < Rpower zref (-2/3)) by apply Rpower_pos.
  pose proof PI_RGT_0 as Hpi.
  rewrite fit_tensor_is_covariance; [|assumption|apply Rmult_lt_0_compat; assumption|].
  - f_equal. rewrite raw_homogeneous by assumption.
    set (e := vklike_energy (L * zref * sqrt (kk0_of b k1 k2 k3))).
    replace (forward_energy vklike_energy (4 * PI * Rpower L (-5 / 3) * M * ustar ^ 2 * Rpower zref (-2 / 3))
              (L * zref) b k1 k2 k3)
      with ((4 * PI * Rpower L (-5/3) * ustar^2 * zref)
            * forward_energy vklike_energy M L b (k1*zref) (k2*zref) (k3*zref)).
    + rewrite raw_linear. field. lra.
    + rewrite energy_scale by assumption. unfold forward_energy. cbv zeta. fold e.
      replace (Rpower (L * zref) (5/3)) with (Rpower L (5/3) * Rpower zref (5/3))
        by (apply Rpower_mult_distr; assumption).
      assert (Hzz : Rpower zref (-2/3) * Rpower zref (5/3) = zref).
      { rewrite <- Rpower_plus. replace (-2/3 + 5/3) with 1 by field. apply Rpower_1. assumption. }
      rewrite <- Hzz at 1. ring.
  - pose proof (pow2_ge_0 ustar). repeat (apply Rmult_le_pos; try lra).
Qed.

(** The spurious factor is 1 for a single length scale only. *)
Lemma drd_factor_unit : forall L, 0 < L ->
  (4 * PI * Rpower L (-5/3) = 1 <-> L = Rpower (4 * PI) (3/5)).
Proof.
  intros L HL. pose proof PI_RGT_0 as Hpi. split; intro H.
  - assert (Hl : ln (4 * PI * Rpower L (-5/3)) = 0) by (rewrite H; apply ln_1).
    rewrite ln_mult in Hl by (try apply Rpower_pos; lra). unfold Rpower in Hl at 1. rewrite ln_exp in Hl.
    unfold Rpower. replace (3/5 * ln (4*PI)) with (ln L) by lra. symmetry. apply exp_ln. assumption.
  - rewrite H, Rpower_mult. replace (3/5 * (-5/3)) with (-(1)) by field.
    rewrite Rpower_Ropp, Rpower_1 by lra. field. lra.
Qed.

Lemma drd_mismatch :
  exists L T M ustar zref b k1 k2 k3 i j, 0 < L /\ 0 < T /\ 0 < M /\ 0 < ustar /\ 0 < zref /\ k1 <> 0 /\
  let '(E0, Ls, _) := drd_load L T M ustar zref in
  covariance (times_1j (sheared_kernel E0 Ls b k1 k2 k3)) i j
  <> RtoC (ustar^2 * zref^3
           * entry (power_spectra_raw
                      (forward_energy vklike_energy M L b (k1*zref) (k2*zref) (k3*zref))
                      b (k1*zref) (k2*zref) (k3*zref)) i j).
Proof.
  exists 1, 1, 1, 1, 1, 0, 1, 0, 0, X3, X3. repeat split; try lra.
  pose proof (drd_amplitude 1 1 1 1 1 0 1 0 0 X3 X3 ltac:(lra) ltac:(lra) ltac:(lra) ltac:(lra)) as H.
  destruct (drd_load 1 1 1 1 1) as [[E0 Ls] t]. rewrite H. clear H.
  set (x := 1 ^ 2 * 1 ^ 3 * _). rewrite Rpower_1_base.
  assert (Hx : 0 < x).
  { unfold x. unfold entry, power_spectra_raw. cbv zeta. cbn [phi33].
    pose proof PI_RGT_0.
    assert (0 < forward_energy vklike_energy 1 1 0 (1*1) (0*1) (0*1)).
    { unfold forward_energy. cbv zeta.
      assert (0 < 1 * sqrt (kk0_of 0 (1 * 1) (0 * 1) (0 * 1))).
      { rewrite Rmult_1_l. apply sqrt_lt_R0. apply kk0_pos. lra. }
      rewrite vklike_form by assumption. pose proof (vk_energy_pos _ H0).
      pose proof (Rpower_pos 1 (5/3)). nra. }
    assert (0 < kk_of (1*1) (0*1) (0*1)) by (apply kk_pos; lra).
    set (E := forward_energy _ _ _ _ _ _ _) in *. set (kk := kk_of _ _ _) in *.
    replace (1 ^ 2 * 1 ^ 3 * (E / (4 * PI) / kk ^ 2 * ((1 * 1) ^ 2 + (0 * 1) ^ 2)))
      with (E / (4 * PI * kk ^ 2)) by (field; lra).
    apply Rdiv_lt_0_compat; [assumption|]. apply Rmult_lt_0_compat; [lra|]. apply pow_lt. assumption. }
  intro Hc. apply RtoC_inj in Hc. pose proof PI_RGT_0. pose proof PI2_1. nra.
Qed.
