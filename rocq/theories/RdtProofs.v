From Coq Require Import Reals Lra Lia Psatz.
From Coquelicot Require Import Coquelicot.
From Verif Require Import Prelude RdtModel SpectraModel RdtSpec.
Open Scope R_scope.

(** ** Real-number helpers *)

Lemma sq_pos : forall x, x <> 0 -> 0 < x^2.
Proof. intros x H. nra. Qed.

Lemma s_pos : forall k1 k2, k1 <> 0 -> 0 < s_of k1 k2.
Proof. intros. unfold s_of. pose proof (sq_pos k1 H). nra. Qed.

Lemma kk_pos : forall k1 k2 k3, k1 <> 0 -> 0 < kk_of k1 k2 k3.
Proof. intros. unfold kk_of. pose proof (sq_pos k1 H). nra. Qed.

Lemma kk0_pos : forall b k1 k2 k3, k1 <> 0 -> 0 < kk0_of b k1 k2 k3.
Proof. intros. unfold kk0_of. pose proof (sq_pos k1 H). nra. Qed.

Lemma kk_nonneg : forall k1 k2 k3, 0 <= kk_of k1 k2 k3.
Proof. intros. unfold kk_of. nra. Qed.

Lemma kk0_nonneg : forall b k1 k2 k3, 0 <= kk0_of b k1 k2 k3.
Proof. intros. unfold kk0_of. nra. Qed.

Lemma atan2_pos : forall y x, 0 < x -> atan2 y x = atan (y / x).
Proof. intros. unfold atan2. destruct (Rlt_dec 0 x); [reflexivity|lra]. Qed.

Lemma atan2_0_pos : forall x, 0 < x -> atan2 0 x = 0.
Proof.
  intros. rewrite atan2_pos by assumption.
  replace (0 / x) with 0 by (field; lra). apply atan_0.
Qed.

Lemma atan2_opp : forall y x, (y <> 0 \/ 0 < x) -> atan2 (- y) x = - atan2 y x.
Proof.
  intros y x H. unfold atan2.
  destruct (Rlt_dec 0 x).
  - replace (- y / x) with (- (y / x)) by (field; lra). apply atan_opp.
  - destruct H as [H|H]; [|lra].
    destruct (Rlt_dec x 0).
    + replace (- y / x) with (- (y / x)) by (field; lra). rewrite atan_opp.
      destruct (Rlt_dec (- y) 0), (Rlt_dec y 0); lra.
    + destruct (Rlt_dec 0 (- y)), (Rlt_dec 0 y), (Rlt_dec (- y) 0), (Rlt_dec y 0); lra.
Qed.

Lemma Rpower_32 : forall s, 0 < s -> Rpower s (3/2) = sqrt (s^3).
Proof.
  intros s Hs. rewrite <- Rpower_sqrt by (apply pow_lt; assumption).
  rewrite <- (Rpower_pow 3 s Hs). rewrite Rpower_mult. f_equal. simpl. lra.
Qed.

Lemma xdiv_fin : forall a b, b <> 0 -> xdiv (Fin a) (Fin b) = Fin (a / b).
Proof.
  intros. simpl. unfold Reqb. destruct (Req_EM_T b 0); [contradiction|reflexivity].
Qed.

Lemma xdiv_zero_zero : xdiv (Fin 0) (Fin 0) = NaN.
Proof. simpl. unfold Reqb. destruct (Req_EM_T 0 0); [reflexivity|lra]. Qed.

(** ** Values of the simulation coefficients *)

Lemma sim_zeta1_regular : forall b k1 k2 k3, k1 <> 0 ->
  sim_zeta1 b k1 k2 k3 = fit_zeta1 b k1 k2 k3.
Proof.
  intros b k1 k2 k3 H.
  pose proof (s_pos k1 k2 H) as Hs. pose proof (kk_pos k1 k2 k3 H) as Hk.
  unfold sim_zeta1, fit_zeta1, sim_C1, sim_C2, fit_C1, fit_C2, xpow.
  destruct (Rlt_dec 0 (s_of k1 k2)); [|contradiction].
  rewrite !xdiv_fin; try assumption.
  - rewrite Rpower_32 by assumption. reflexivity.
  - rewrite Rpower_32 by assumption. apply Rgt_not_eq. apply sqrt_lt_R0. apply pow_lt; assumption.
  - apply Rmult_integral_contrapositive_currified; lra.
Qed.

Lemma sim_zeta2_regular : forall b k1 k2 k3, k1 <> 0 ->
  sim_zeta2 b k1 k2 k3 = fit_zeta2 b k1 k2 k3.
Proof.
  intros b k1 k2 k3 H.
  pose proof (s_pos k1 k2 H) as Hs. pose proof (kk_pos k1 k2 k3 H) as Hk.
  unfold sim_zeta2, fit_zeta2, sim_C1, sim_C2, xpow.
  destruct (Rlt_dec 0 (s_of k1 k2)); [|contradiction].
  rewrite !xdiv_fin; try assumption.
  - rewrite Rpower_32 by assumption. cbn [xmul xadd nan_to_num].
    unfold fit_C1, fit_C2. cbv zeta. unfold Rdiv. ring.
  - rewrite Rpower_32 by assumption. apply Rgt_not_eq. apply sqrt_lt_R0. apply pow_lt; assumption.
  - apply Rmult_integral_contrapositive_currified; lra.
Qed.

Lemma sim_zeta3_regular : forall b k1 k2 k3, kk_of k1 k2 k3 <> 0 ->
  sim_zeta3 b k1 k2 k3 = kk0_of b k1 k2 k3 / kk_of k1 k2 k3.
Proof. intros. unfold sim_zeta3. rewrite xdiv_fin by assumption. reflexivity. Qed.

Lemma k1_zero_kk0 : forall b k2 k3, kk0_of b 0 k2 k3 = kk_of 0 k2 k3.
Proof. intros. unfold kk0_of, kk_of, k30_of. ring. Qed.

Lemma xmul_inf_zero : forall k2, k2 <> 0 ->
  xmul (xdiv (Fin k2) (Fin 0)) (Fin 0) = NaN.
Proof.
  intros. simpl. unfold Reqb. destruct (Req_EM_T 0 0); [|lra].
  destruct (Req_EM_T k2 0); [contradiction|].
  unfold xsign, Rltb. destruct (Rlt_dec 0 k2); simpl.
  - unfold Rltb. destruct (Rlt_dec 0 0); [lra|]. reflexivity.
  - destruct (Rlt_dec k2 0); simpl; unfold Rltb; destruct (Rlt_dec 0 0); try lra; reflexivity.
Qed.

Lemma sim_C1_k1zero : forall b k2 k3, k2 <> 0 -> sim_C1 b 0 k2 k3 = Fin 0.
Proof.
  intros b k2 k3 H. unfold sim_C1. rewrite xdiv_fin.
  - f_equal. replace (b * 0 ^ 2 * (kk0_of b 0 k2 k3 - 2 * k30_of b 0 k3 ^ 2 + b * 0 * k30_of b 0 k3)) with 0 by ring.
    unfold Rdiv. ring.
  - unfold kk_of, s_of. pose proof (sq_pos k2 H).
    apply Rmult_integral_contrapositive_currified; nra.
Qed.

Lemma sim_C2_k1zero : forall b k2 k3, k2 <> 0 -> sim_C2 b 0 k2 k3 = Fin 0.
Proof.
  intros b k2 k3 H. pose proof (sq_pos k2 H) as H2.
  unfold sim_C2. rewrite k1_zero_kk0.
  replace (b * 0 * sqrt (s_of 0 k2)) with 0 by ring.
  replace (kk_of 0 k2 k3 - k30_of b 0 k3 * 0 * b) with (kk_of 0 k2 k3) by ring.
  rewrite atan2_0_pos by (unfold kk_of; nra).
  unfold xpow. destruct (Rlt_dec 0 (s_of 0 k2)) as [Hs|Hs].
  - rewrite xdiv_fin.
    + simpl. f_equal. ring.
    + apply Rgt_not_eq. unfold Rpower. apply exp_pos.
  - exfalso. apply Hs. unfold s_of. nra.
Qed.

Lemma sim_zeta1_k1zero : forall b k2 k3, sim_zeta1 b 0 k2 k3 = 0.
Proof.
  intros. destruct (Req_dec k2 0) as [->|H].
  - unfold sim_zeta1, sim_C1.
    replace (b * 0 ^ 2 * (kk0_of b 0 0 k3 - 2 * k30_of b 0 k3 ^ 2 + b * 0 * k30_of b 0 k3)) with 0 by ring.
    replace (kk_of 0 0 k3 * s_of 0 0) with 0 by (unfold s_of; ring).
    rewrite xdiv_zero_zero. reflexivity.
  - unfold sim_zeta1. rewrite sim_C1_k1zero, sim_C2_k1zero, xmul_inf_zero by assumption.
    reflexivity.
Qed.

Lemma sim_zeta2_k1zero : forall b k2 k3, sim_zeta2 b 0 k2 k3 = 0.
Proof.
  intros. destruct (Req_dec k2 0) as [->|H].
  - unfold sim_zeta2, sim_C1.
    replace (b * 0 ^ 2 * (kk0_of b 0 0 k3 - 2 * k30_of b 0 k3 ^ 2 + b * 0 * k30_of b 0 k3)) with 0 by ring.
    replace (kk_of 0 0 k3 * s_of 0 0) with 0 by (unfold s_of; ring).
    rewrite xdiv_zero_zero. destruct (xdiv (Fin 0) (Fin 0)); reflexivity.
  - unfold sim_zeta2. rewrite sim_C1_k1zero, sim_C2_k1zero, xmul_inf_zero by assumption.
    reflexivity.
Qed.

(** The algebraic heart: incompressibility of the distorted modes. *)
Lemma zeta_identity : forall b k1 k2 k3, k1 <> 0 ->
  k1 * fit_zeta1 b k1 k2 k3 + k2 * fit_zeta2 b k1 k2 k3
  + k3 * (kk0_of b k1 k2 k3 / kk_of k1 k2 k3) = k30_of b k1 k3.
Proof.
  intros b k1 k2 k3 H.
  pose proof (s_pos k1 k2 H) as Hs. pose proof (kk_pos k1 k2 k3 H) as Hk.
  unfold fit_zeta1, fit_zeta2.
  generalize (fit_C2 b k1 k2 k3) as c2; intro c2.
  unfold fit_C1, kk0_of, k30_of, kk_of, s_of in *.
  field. repeat split; lra.
Qed.

Lemma zeta1_parity : forall b k1 k2 k3, k1 <> 0 ->
  fit_zeta1 b (-k1) (-k2) (-k3) = fit_zeta1 b k1 k2 k3
  /\ fit_zeta2 b (-k1) (-k2) (-k3) = fit_zeta2 b k1 k2 k3.
Proof.
  intros b k1 k2 k3 H.
  assert (HC1 : fit_C1 b (-k1) (-k2) (-k3) = fit_C1 b k1 k2 k3).
  { unfold fit_C1, kk0_of, k30_of, kk_of, s_of.
    replace ((- k1) ^ 2) with (k1^2) by ring. replace ((- k2) ^ 2) with (k2^2) by ring.
    replace ((- k3) ^ 2) with (k3^2) by ring.
    replace ((- k3 + b * - k1) ^ 2) with ((k3 + b * k1)^2) by ring.
    replace (b * - k1 * (- k3 + b * - k1)) with (b * k1 * (k3 + b * k1)) by ring.
    reflexivity. }
  assert (HC2 : fit_C2 b (-k1) (-k2) (-k3) = fit_C2 b k1 k2 k3).
  { unfold fit_C2.
    replace (kk0_of b (-k1) (-k2) (-k3)) with (kk0_of b k1 k2 k3) by (unfold kk0_of, k30_of; ring).
    replace (s_of (-k1) (-k2)) with (s_of k1 k2) by (unfold s_of; ring).
    replace (k30_of b (-k1) (-k3) * - k1 * b) with (k30_of b k1 k3 * k1 * b) by (unfold k30_of; ring).
    replace (b * - k1 * sqrt (s_of k1 k2)) with (- (b * k1 * sqrt (s_of k1 k2))) by ring.
    rewrite atan2_opp.
    - unfold Rdiv. ring.
    - destruct (Req_dec b 0) as [->|Hb].
      + right. pose proof (kk0_pos 0 k1 k2 k3 H). replace (kk0_of 0 k1 k2 k3 - k30_of 0 k1 k3 * k1 * 0) with (kk0_of 0 k1 k2 k3) by ring. assumption.
      + left. apply Rmult_integral_contrapositive_currified.
        * apply Rmult_integral_contrapositive_currified; assumption.
        * apply Rgt_not_eq. apply sqrt_lt_R0. apply s_pos; assumption. }
  unfold fit_zeta1, fit_zeta2. rewrite HC1, HC2. split; field; assumption.
Qed.

Lemma mirror_zeta : forall b k1 k2 k3, k1 <> 0 ->
  fit_zeta1 b k1 (-k2) k3 = fit_zeta1 b k1 k2 k3
  /\ fit_zeta2 b k1 (-k2) k3 = - fit_zeta2 b k1 k2 k3.
Proof.
  intros b k1 k2 k3 H.
  assert (HC1 : fit_C1 b k1 (-k2) k3 = fit_C1 b k1 k2 k3).
  { unfold fit_C1, kk0_of, k30_of, kk_of, s_of.
    replace ((- k2) ^ 2) with (k2^2) by ring. reflexivity. }
  assert (HC2 : fit_C2 b k1 (-k2) k3 = - fit_C2 b k1 k2 k3).
  { unfold fit_C2.
    replace (kk0_of b k1 (-k2) k3) with (kk0_of b k1 k2 k3) by (unfold kk0_of, k30_of; ring).
    replace (s_of k1 (-k2)) with (s_of k1 k2) by (unfold s_of; ring).
    unfold Rdiv. ring. }
  unfold fit_zeta1, fit_zeta2. rewrite HC1, HC2. split; field; assumption.
Qed.

(** ** Kernels *)

Lemma cmul_i_conj : forall a b : R,
  Cmult (Cmult (RtoC a) Ci) (Cconj (Cmult (RtoC b) Ci)) = RtoC (a * b).
Proof.
  intros. unfold Cmult, Cconj, RtoC, Ci. simpl. f_equal; ring.
Qed.

Lemma covariance_1j : forall A i j,
  covariance (times_1j A) i j = RtoC (sum3 (fun m => A i m * A j m)).
Proof.
  intros. unfold covariance, csum3, times_1j. rewrite !cmul_i_conj.
  unfold sum3. rewrite !RtoC_plus. reflexivity.
Qed.

Lemma kernel_div_1j : forall k A j,
  kernel_div k (times_1j A) j = Cmult (RtoC (sum3 (fun i => k i * A i j))) Ci.
Proof.
  intros. unfold kernel_div, csum3, times_1j, sum3.
  unfold Cmult, Cplus, RtoC, Ci. simpl. f_equal; ring.
Qed.

Lemma kernel_const_sq : forall E0 L kk, 0 <= E0 -> 0 <= kk -> 0 < L ->
  kernel_const E0 L kk * kernel_const E0 L kk
  = E0 * Rpower L (17/3) / (4 * PI) / Rpower (1 + L^2 * kk) (17/6).
Proof.
  intros E0 L kk HE Hk HL. unfold kernel_const. apply sqrt_sqrt.
  assert (0 < Rpower L (17/3)) by (apply exp_pos).
  assert (0 < Rpower (1 + L^2 * kk) (17/6)) by (apply exp_pos).
  pose proof PI_RGT_0.
  apply Rmult_le_pos; [apply Rmult_le_pos|].
  - apply Rmult_le_pos; lra.
  - left. apply Rinv_0_lt_compat. lra.
  - left. apply Rinv_0_lt_compat. assumption.
Qed.

Lemma vklike_form : forall x, 0 < x -> vklike_energy x = vk_energy x.
Proof.
  intros x Hx. unfold vklike_energy, vk_energy.
  assert (H1 : 0 < 1 + x^2) by nra.
  assert (Hs : 0 < sqrt (1 + x^2)) by (apply sqrt_lt_R0; assumption).
  replace (x / sqrt (1 + x^2)) with (x * / sqrt (1 + x^2)) by reflexivity.
  rewrite <- Rpower_mult_distr; [|assumption|apply Rinv_0_lt_compat; assumption].
  rewrite <- Rmult_assoc, <- Rpower_plus.
  replace (-5/3 + 17/3) with (INR 4) by (simpl; lra).
  rewrite Rpower_pow by assumption.
  replace (/ sqrt (1 + x^2)) with (Rpower (1 + x^2) (-1/2)).
  - rewrite Rpower_mult. replace (-1/2 * (17/3)) with (- (17/6)) by lra.
    rewrite Rpower_Ropp. reflexivity.
  - replace (-1/2) with (- (/2)) by lra. rewrite Rpower_Ropp.
    rewrite Rpower_sqrt by assumption. reflexivity.
Qed.

Lemma energy_const : forall E0 L kk0, 0 < kk0 -> 0 < L ->
  E0 * Rpower L (5/3) * vklike_energy (L * sqrt kk0) / (4 * PI) / kk0^2
  = E0 * Rpower L (17/3) / (4 * PI) / Rpower (1 + L^2 * kk0) (17/6).
Proof.
  intros E0 L kk0 Hk HL.
  assert (Hq : 0 < sqrt kk0) by (apply sqrt_lt_R0; assumption).
  rewrite vklike_form by nra. unfold vk_energy.
  replace ((L * sqrt kk0)^2) with (L^2 * kk0)
    by (rewrite Rpow_mult_distr; rewrite pow2_sqrt by lra; reflexivity).
  replace ((L * sqrt kk0)^4) with (L^4 * kk0^2)
    by (replace ((L * sqrt kk0)^4) with (L^4 * (sqrt kk0 ^2)^2) by ring;
        rewrite pow2_sqrt by lra; reflexivity).
  replace (17/3) with (5/3 + INR 4) by (simpl; lra).
  rewrite Rpower_plus, Rpower_pow by assumption.
  pose proof PI_RGT_0.
  assert (0 < Rpower (1 + L^2 * kk0) (17/6)) by (apply exp_pos).
  field. repeat split; lra.
Qed.

Section Covariance.
Variables (c k1 k2 k3 k30 kk kk0 z1 z2 : R).
Hypothesis Hkk : kk <> 0.
Hypothesis Hkk0 : kk0 = k1^2 + k2^2 + k30^2.

(* rows of the sheared kernel *)
Let row (i : ix) (j : ix) : R :=
  match i with
  | X1 => cross_mat c k1 k2 k30 X1 j + z1 * cross_mat c k1 k2 k30 X3 j
  | X2 => cross_mat c k1 k2 k30 X2 j + z2 * cross_mat c k1 k2 k30 X3 j
  | X3 => kk0 / kk * cross_mat c k1 k2 k30 X3 j
  end.

Lemma row_products :
  sum3 (fun m => row X1 m * row X1 m) = c*c * (kk0 - k1^2 - 2*k1*k30*z1 + (k1^2+k2^2)*z1^2)
  /\ sum3 (fun m => row X2 m * row X2 m) = c*c * (kk0 - k2^2 - 2*k2*k30*z2 + (k1^2+k2^2)*z2^2)
  /\ sum3 (fun m => row X3 m * row X3 m) = c*c * (kk0/kk)^2 * (k1^2+k2^2)
  /\ sum3 (fun m => row X1 m * row X3 m) = c*c * (kk0/kk) * (-k1*k30 + (k1^2+k2^2)*z1)
  /\ sum3 (fun m => row X2 m * row X3 m) = c*c * (kk0/kk) * (-k2*k30 + (k1^2+k2^2)*z2)
  /\ sum3 (fun m => row X1 m * row X2 m) = c*c * (-k1*k2 - k1*k30*z2 - k2*k30*z1 + (k1^2+k2^2)*z1*z2).
Proof.
  unfold sum3, row, cross_mat. rewrite Hkk0.
  repeat split; field; assumption.
Qed.
End Covariance.

Lemma sum3_ext : forall f g, (forall i, f i = g i) -> sum3 f = sum3 g.
Proof. intros. unfold sum3. rewrite !H. reflexivity. Qed.

Lemma sheared_rows : forall E0 L b k1 k2 k3 i j, k1 <> 0 ->
  sheared_kernel E0 L b k1 k2 k3 i j =
  let c := kernel_const E0 L (kk0_of b k1 k2 k3) in
  let k30 := k30_of b k1 k3 in
  match i with
  | X1 => cross_mat c k1 k2 k30 X1 j + fit_zeta1 b k1 k2 k3 * cross_mat c k1 k2 k30 X3 j
  | X2 => cross_mat c k1 k2 k30 X2 j + fit_zeta2 b k1 k2 k3 * cross_mat c k1 k2 k30 X3 j
  | X3 => kk0_of b k1 k2 k3 / kk_of k1 k2 k3 * cross_mat c k1 k2 k30 X3 j
  end.
Proof.
  intros. unfold sheared_kernel.
  rewrite sim_zeta1_regular, sim_zeta2_regular by assumption.
  rewrite sim_zeta3_regular by (apply Rgt_not_eq; apply kk_pos; assumption).
  reflexivity.
Qed.

Lemma sheared_cov : forall E0 L b k1 k2 k3 i j, k1 <> 0 -> 0 < L -> 0 <= E0 ->
  sum3 (fun m => sheared_kernel E0 L b k1 k2 k3 i m * sheared_kernel E0 L b k1 k2 k3 j m)
  = entry (power_spectra_raw (forward_energy vklike_energy E0 L b k1 k2 k3) b k1 k2 k3) i j.
Proof.
  intros E0 L b k1 k2 k3 i j H HL HE.
  pose proof (kk_pos k1 k2 k3 H) as Hk. pose proof (kk0_pos b k1 k2 k3 H) as Hk0.
  pose proof (energy_const E0 L _ Hk0 HL) as HEn.
  pose proof (kernel_const_sq E0 L _ HE (Rlt_le _ _ Hk0) HL) as Hc.
  rewrite <- HEn in Hc. clear HEn.
  pose proof (row_products (kernel_const E0 L (kk0_of b k1 k2 k3)) k1 k2 (k30_of b k1 k3)
                (kk_of k1 k2 k3) (kk0_of b k1 k2 k3) (fit_zeta1 b k1 k2 k3) (fit_zeta2 b k1 k2 k3)
                (Rgt_not_eq _ _ Hk) eq_refl) as (P11 & P22 & P33 & P13 & P23 & P12).
  rewrite Hc in *. clear Hc.
  pose proof PI_RGT_0 as HPI.
  destruct i, j;
    (erewrite sum3_ext; [|intro m; rewrite !sheared_rows by assumption; cbv zeta; reflexivity]);
    unfold entry, power_spectra_raw, forward_energy; cbv zeta; cbn [phi11 phi22 phi33 phi13 phi23 phi12].
  - etransitivity; [exact P11|]. reflexivity.
  - etransitivity; [exact P12|]. reflexivity.
  - etransitivity; [exact P13|]. field. repeat split; lra.
  - etransitivity; [|etransitivity; [exact P12|reflexivity]]. apply sum3_ext; intro; ring.
  - etransitivity; [exact P22|]. reflexivity.
  - etransitivity; [exact P23|]. field. repeat split; lra.
  - etransitivity; [|etransitivity; [exact P13|field; repeat split; lra]]. apply sum3_ext; intro; ring.
  - etransitivity; [|etransitivity; [exact P23|field; repeat split; lra]]. apply sum3_ext; intro; ring.
  - etransitivity; [exact P33|]. field. repeat split; lra.
Qed.

Lemma fit_tensor_is_covariance : forall E0 L b k1 k2 k3 i j, k1 <> 0 -> 0 < L -> 0 <= E0 ->
  covariance (times_1j (sheared_kernel E0 L b k1 k2 k3)) i j
  = RtoC (entry (power_spectra_raw (forward_energy vklike_energy E0 L b k1 k2 k3) b k1 k2 k3) i j).
Proof.
  intros. rewrite covariance_1j. f_equal. apply sheared_cov; assumption.
Qed.

Lemma mann_lifetimes_agree : forall hyp Gamma L k1 k2 k3, kk_of k1 k2 k3 <> 0 -> 0 < L ->
  mann_sim_tau hyp Gamma L k1 k2 k3
  = Gamma * mann_lifetime hyp (L * sqrt (kk_of k1 k2 k3)).
Proof.
  intros hyp Gamma L k1 k2 k3 Hk HL. unfold mann_sim_tau, mann_lifetime.
  assert (Hp : 0 < kk_of k1 k2 k3) by (pose proof (kk_nonneg k1 k2 k3); lra).
  assert (Hq : 0 < sqrt (kk_of k1 k2 k3)) by (apply sqrt_lt_R0; assumption).
  set (kk := kk_of k1 k2 k3) in *.
  assert (Hx : 0 < L * sqrt kk) by nra.
  assert (Hsq : (L * sqrt kk)^2 = kk * L^2).
  { rewrite Rpow_mult_distr, pow2_sqrt by lra. ring. }
  assert (H1 : Rpower (kk * L^2) (-1/3) = Rpower (L * sqrt kk) (-2/3)).
  { rewrite <- Hsq. rewrite <- (Rpower_pow 2) by assumption. rewrite Rpower_mult. f_equal. simpl. lra. }
  assert (H2 : -1 / (kk * L^2) = - Rpower (L * sqrt kk) (-2)).
  { replace (-2) with (- INR 2) by (simpl; lra). rewrite Rpower_Ropp, Rpower_pow by assumption.
    rewrite Hsq. field. split; lra. }
  rewrite H1, H2. unfold Rdiv. ring.
Qed.

Lemma mann_kernel_matches_fit : forall hyp E0 L Gamma k1 k2 k3 i j,
  k1 <> 0 -> 0 < L -> 0 <= E0 ->
  forall env beta, le_type env = MANN -> le_L env = L -> le_T env = Gamma -> le_hyp env = hyp ->
  eddy_lifetime env k1 k2 k3 = Ok beta ->
  covariance (times_1j (mann_kernel hyp E0 L Gamma k1 k2 k3)) i j
  = RtoC (entry (power_spectra_raw (forward_energy vklike_energy E0 L beta k1 k2 k3) beta k1 k2 k3) i j).
Proof.
  intros hyp E0 L Gamma k1 k2 k3 i j H HL HE env beta Ht HLe HTe Hhe Hb.
  unfold eddy_lifetime in Hb. rewrite Ht, HLe, HTe, Hhe in Hb. simpl in Hb.
  assert (Hk : kk_of k1 k2 k3 <> 0) by (apply Rgt_not_eq; apply kk_pos; assumption).
  assert (Hbeta : beta = mann_sim_tau hyp Gamma L k1 k2 k3).
  { rewrite mann_lifetimes_agree by assumption. congruence. }
  unfold mann_kernel, sim_kernel, sim_beta.
  destruct (Req_EM_T (kk_of k1 k2 k3) 0); [contradiction|].
  rewrite <- Hbeta. apply fit_tensor_is_covariance; assumption.
Qed.

(** Incompressibility for every wave vector. *)
Lemma sheared_div : forall E0 L b k1 k2 k3 j,
  (kk_of k1 k2 k3 = 0 -> b = 0) ->
  sum3 (fun i => vec k1 k2 k3 i * sheared_kernel E0 L b k1 k2 k3 i j) = 0.
Proof.
  intros E0 L b k1 k2 k3 j Hb0.
  destruct (Req_dec k1 0) as [Hk1|Hk1].
  - subst k1. unfold sum3, sheared_kernel, vec.
    rewrite sim_zeta1_k1zero, sim_zeta2_k1zero.
    destruct (Req_dec (kk_of 0 k2 k3) 0) as [Hz|Hz].
    + assert (k2 = 0) by (unfold kk_of in Hz; nra).
      assert (k3 = 0) by (unfold kk_of in Hz; nra).
      subst. ring.
    + rewrite sim_zeta3_regular by assumption. rewrite k1_zero_kk0.
      replace (kk_of 0 k2 k3 / kk_of 0 k2 k3) with 1 by (field; assumption).
      unfold k30_of. destruct j; simpl; ring.
  - pose proof (zeta_identity b k1 k2 k3 Hk1) as Hid.
    unfold sum3. rewrite !sheared_rows by assumption. cbv zeta. simpl vec.
    set (c := kernel_const _ _ _). set (z1 := fit_zeta1 _ _ _ _) in *.
    set (z2 := fit_zeta2 _ _ _ _) in *. set (z3 := kk0_of _ _ _ _ / _) in *.
    set (k30 := k30_of _ _ _) in *.
    destruct j; unfold cross_mat.
    + transitivity (c * k2 * (k30 - (k1 * z1 + k2 * z2 + k3 * z3))); [ring|].
      rewrite Hid. ring.
    + transitivity (- c * k1 * (k30 - (k1 * z1 + k2 * z2 + k3 * z3))); [ring|].
      rewrite Hid. ring.
    + ring.
Qed.

Lemma sim_kernel_divfree : forall E0 L tau k1 k2 k3 j,
  kernel_div (vec k1 k2 k3) (times_1j (sim_kernel E0 L tau k1 k2 k3)) j = RtoC 0.
Proof.
  intros. rewrite kernel_div_1j. unfold sim_kernel.
  rewrite sheared_div.
  - unfold Cmult, RtoC, Ci. simpl. f_equal; ring.
  - intro Hz. unfold sim_beta. destruct (Req_EM_T (kk_of k1 k2 k3) 0); [reflexivity|contradiction].
Qed.

Lemma vk_kernel_divfree : forall E0 L k1 k2 k3 j,
  kernel_div (vec k1 k2 k3) (times_1j (vk_kernel E0 L k1 k2 k3)) j = RtoC 0.
Proof.
  intros. rewrite kernel_div_1j. unfold vk_kernel, sum3, cross_mat, vec.
  destruct j; unfold Cmult, RtoC, Ci; simpl; f_equal; ring.
Qed.

Lemma vk_kernel_cov : forall E0 L k1 k2 k3 i j, 0 < L -> 0 <= E0 ->
  covariance (times_1j (vk_kernel E0 L k1 k2 k3)) i j
  = RtoC (E0 * Rpower L (17/3) / (4 * PI * Rpower (1 + L^2 * normsq (vec k1 k2 k3)) (17/6))
          * (normsq (vec k1 k2 k3) * delta i j - vec k1 k2 k3 i * vec k1 k2 k3 j)).
Proof.
  intros E0 L k1 k2 k3 i j HL HE. rewrite covariance_1j. f_equal.
  pose proof (kernel_const_sq E0 L _ HE (kk_nonneg k1 k2 k3) HL) as Hc.
  assert (Hn : normsq (vec k1 k2 k3) = kk_of k1 k2 k3).
  { unfold normsq, sum3, vec, kk_of. ring. }
  rewrite Hn. unfold vk_kernel.
  transitivity (kernel_const E0 L (kk_of k1 k2 k3) * kernel_const E0 L (kk_of k1 k2 k3)
                * (kk_of k1 k2 k3 * delta i j - vec k1 k2 k3 i * vec k1 k2 k3 j)).
  - set (c := kernel_const _ _ _). unfold sum3, cross_mat, kk_of, vec, delta.
    destruct i, j; ring.
  - rewrite Hc. pose proof PI_RGT_0.
    assert (0 < Rpower (1 + L^2 * kk_of k1 k2 k3) (17/6)) by (apply exp_pos).
    field. lra.
Qed.

(** Parity (Hermitian kernels). *)
Lemma cross_mat_opp : forall c a1 a2 a3 i j,
  cross_mat c (-a1) (-a2) (-a3) i j = - cross_mat c a1 a2 a3 i j.
Proof. intros. destruct i, j; simpl; ring. Qed.

Lemma kk_opp : forall k1 k2 k3, kk_of (-k1) (-k2) (-k3) = kk_of k1 k2 k3.
Proof. intros. unfold kk_of. ring. Qed.

Lemma sheared_opp : forall E0 L b k1 k2 k3 i j,
  sheared_kernel E0 L b (-k1) (-k2) (-k3) i j = - sheared_kernel E0 L b k1 k2 k3 i j.
Proof.
  intros E0 L b k1 k2 k3 i j.
  assert (Hz1 : sim_zeta1 b (-k1) (-k2) (-k3) = sim_zeta1 b k1 k2 k3).
  { destruct (Req_dec k1 0) as [->|H].
    - rewrite Ropp_0. rewrite !sim_zeta1_k1zero. reflexivity.
    - rewrite !sim_zeta1_regular by lra. apply zeta1_parity; assumption. }
  assert (Hz2 : sim_zeta2 b (-k1) (-k2) (-k3) = sim_zeta2 b k1 k2 k3).
  { destruct (Req_dec k1 0) as [->|H].
    - rewrite Ropp_0. rewrite !sim_zeta2_k1zero. reflexivity.
    - rewrite !sim_zeta2_regular by lra. apply zeta1_parity; assumption. }
  assert (H0 : kk0_of b (-k1) (-k2) (-k3) = kk0_of b k1 k2 k3) by (unfold kk0_of, k30_of; ring).
  assert (Hz3 : sim_zeta3 b (-k1) (-k2) (-k3) = sim_zeta3 b k1 k2 k3).
  { unfold sim_zeta3. rewrite H0, kk_opp. reflexivity. }
  unfold sheared_kernel. rewrite Hz1, Hz2, Hz3, H0.
  replace (k30_of b (-k1) (-k3)) with (- k30_of b k1 k3) by (unfold k30_of; ring).
  destruct i; rewrite !cross_mat_opp; ring.
Qed.

Lemma conj_1j : forall A B i j, A i j = - B i j -> times_1j A i j = Cconj (times_1j B i j).
Proof.
  intros. unfold times_1j. rewrite H. unfold Cmult, Cconj, RtoC, Ci. simpl. f_equal; ring.
Qed.

Lemma sim_kernel_hermitian : forall E0 L tau,
  (forall k1 k2 k3, tau (-k1) (-k2) (-k3) = tau k1 k2 k3) ->
  hermitian_kernel (fun k1 k2 k3 => times_1j (sim_kernel E0 L tau k1 k2 k3)).
Proof.
  intros E0 L tau Heven k1 k2 k3 i j. apply conj_1j. unfold sim_kernel, sim_beta.
  rewrite kk_opp. destruct (Req_EM_T (kk_of k1 k2 k3) 0).
  - apply sheared_opp.
  - rewrite Heven. apply sheared_opp.
Qed.

Lemma mann_kernel_hermitian : forall hyp E0 L Gamma,
  hermitian_kernel (fun k1 k2 k3 => times_1j (mann_kernel hyp E0 L Gamma k1 k2 k3)).
Proof.
  intros. apply sim_kernel_hermitian. intros. unfold mann_sim_tau. rewrite kk_opp. reflexivity.
Qed.

Lemma vk_kernel_hermitian : forall E0 L,
  hermitian_kernel (fun k1 k2 k3 => times_1j (vk_kernel E0 L k1 k2 k3)).
Proof.
  intros E0 L k1 k2 k3 i j. apply conj_1j. unfold vk_kernel. rewrite kk_opp. apply cross_mat_opp.
Qed.

(** ** The fitted tensor *)

Lemma raw_as_rows : forall E0 b k1 k2 k3, k1 <> 0 -> 0 <= E0 ->
  exists A : mat3, forall i j,
    entry (power_spectra_raw E0 b k1 k2 k3) i j = sum3 (fun m => A i m * A j m).
Proof.
  intros E0 b k1 k2 k3 H HE.
  pose proof (kk_pos k1 k2 k3 H) as Hk. pose proof (kk0_pos b k1 k2 k3 H) as Hk0.
  set (c := sqrt (E0 / (4*PI) / kk0_of b k1 k2 k3 ^ 2)).
  assert (Hc : c * c = E0 / (4*PI) / kk0_of b k1 k2 k3 ^ 2).
  { apply sqrt_sqrt. pose proof PI_RGT_0. apply Rmult_le_pos; [apply Rmult_le_pos|].
    - assumption.
    - left; apply Rinv_0_lt_compat; lra.
    - left; apply Rinv_0_lt_compat; apply pow_lt; assumption. }
  exists (fun i j => match i with
  | X1 => cross_mat c k1 k2 (k30_of b k1 k3) X1 j + fit_zeta1 b k1 k2 k3 * cross_mat c k1 k2 (k30_of b k1 k3) X3 j
  | X2 => cross_mat c k1 k2 (k30_of b k1 k3) X2 j + fit_zeta2 b k1 k2 k3 * cross_mat c k1 k2 (k30_of b k1 k3) X3 j
  | X3 => kk0_of b k1 k2 k3 / kk_of k1 k2 k3 * cross_mat c k1 k2 (k30_of b k1 k3) X3 j
  end).
  pose proof (row_products c k1 k2 (k30_of b k1 k3)
                (kk_of k1 k2 k3) (kk0_of b k1 k2 k3) (fit_zeta1 b k1 k2 k3) (fit_zeta2 b k1 k2 k3)
                (Rgt_not_eq _ _ Hk) eq_refl) as (P11 & P22 & P33 & P13 & P23 & P12).
  rewrite Hc in *. pose proof PI_RGT_0 as HPI. clear Hc. clearbody c.
  intros i j. symmetry.
  destruct i, j; unfold entry, power_spectra_raw; cbv zeta; cbn [phi11 phi22 phi33 phi13 phi23 phi12].
  - etransitivity; [exact P11|]. reflexivity.
  - etransitivity; [exact P12|]. reflexivity.
  - etransitivity; [exact P13|]. field. repeat split; lra.
  - etransitivity; [|etransitivity; [exact P12|reflexivity]]. apply sum3_ext; intro; ring.
  - etransitivity; [exact P22|]. reflexivity.
  - etransitivity; [exact P23|]. field. repeat split; lra.
  - etransitivity; [|etransitivity; [exact P13|field; repeat split; lra]]. apply sum3_ext; intro; ring.
  - etransitivity; [|etransitivity; [exact P23|field; repeat split; lra]]. apply sum3_ext; intro; ring.
  - etransitivity; [exact P33|]. field. repeat split; lra.
Qed.

Lemma raw_psd : forall E0 b k1 k2 k3 x, k1 <> 0 -> 0 <= E0 ->
  0 <= quad_form (entry (power_spectra_raw E0 b k1 k2 k3)) x.
Proof.
  intros E0 b k1 k2 k3 x H HE.
  destruct (raw_as_rows E0 b k1 k2 k3 H HE) as [A HA].
  replace (quad_form (entry (power_spectra_raw E0 b k1 k2 k3)) x)
    with (sum3 (fun m => (sum3 (fun i => x i * A i m))^2)).
  - unfold sum3. repeat apply Rplus_le_le_0_compat; apply pow2_ge_0.
  - unfold quad_form, sum3. rewrite !HA. unfold sum3. ring.
Qed.

Lemma raw_schwarz : forall E0 b k1 k2 k3 i j, k1 <> 0 -> 0 <= E0 ->
  let P := entry (power_spectra_raw E0 b k1 k2 k3) in
  0 <= P i i /\ (P i j)^2 <= P i i * P j j.
Proof.
  intros E0 b k1 k2 k3 i j H HE P. unfold P.
  destruct (raw_as_rows E0 b k1 k2 k3 H HE) as [A HA]. rewrite !HA.
  unfold sum3. split.
  - pose proof (pow2_ge_0 (A i X1)). pose proof (pow2_ge_0 (A i X2)). pose proof (pow2_ge_0 (A i X3)). nra.
  - set (a1 := A i X1). set (a2 := A i X2). set (a3 := A i X3).
    set (b1 := A j X1). set (b2 := A j X2). set (b3 := A j X3).
    assert (Hl : (a1*a1+a2*a2+a3*a3)*(b1*b1+b2*b2+b3*b3) - (a1*b1+a2*b2+a3*b3)^2
                 = (a1*b2-a2*b1)^2 + (a1*b3-a3*b1)^2 + (a2*b3-a3*b2)^2) by ring.
    pose proof (pow2_ge_0 (a1*b2-a2*b1)). pose proof (pow2_ge_0 (a1*b3-a3*b1)).
    pose proof (pow2_ge_0 (a2*b3-a3*b2)). lra.
Qed.

(** The fitted tensor is incompressible too. *)
Lemma raw_divfree : forall E0 b k1 k2 k3 j, k1 <> 0 ->
  sum3 (fun i => vec k1 k2 k3 i * entry (power_spectra_raw E0 b k1 k2 k3) i j) = 0.
Proof.
  intros E0 b k1 k2 k3 j H.
  pose proof (kk_pos k1 k2 k3 H) as Hk. pose proof (kk0_pos b k1 k2 k3 H) as Hk0.
  pose proof (zeta_identity b k1 k2 k3 H) as Hid.
  assert (Hz3 : k30_of b k1 k3 = k3 * (kk0_of b k1 k2 k3 / kk_of k1 k2 k3) +
     (k1 * fit_zeta1 b k1 k2 k3 + k2 * fit_zeta2 b k1 k2 k3)) by lra.
  assert (HK : kk0_of b k1 k2 k3 = k1^2 + k2^2 + (k30_of b k1 k3)^2) by reflexivity.
  unfold sum3, entry, power_spectra_raw, vec; cbv zeta; cbn [phi11 phi22 phi33 phi13 phi23 phi12].
  set (z1 := fit_zeta1 b k1 k2 k3) in *. set (z2 := fit_zeta2 b k1 k2 k3) in *.
  set (k30 := k30_of b k1 k3) in *. set (kk0 := kk0_of b k1 k2 k3) in *.
  set (kk := kk_of k1 k2 k3) in *. set (E := E0 / (4*PI)).
  set (w := kk0 / kk) in *.
  assert (Hw : kk0 = w * kk) by (unfold w; field; lra).
  destruct j.
  - replace (E / (kk * kk0) * (- k1 * k30 + (k1 ^ 2 + k2 ^ 2) * z1))
      with (E / kk0^2 * (w * (- k1 * k30 + (k1 ^ 2 + k2 ^ 2) * z1)))
      by (unfold w; field; lra).
    transitivity (E / kk0^2 * (k1 * (kk0 - k1 ^ 2 - 2 * k1 * k30 * z1 + (k1 ^ 2 + k2 ^ 2) * z1 ^ 2)
      + k2 * (- k1 * k2 - k1 * k30 * z2 - k2 * k30 * z1 + (k1 ^ 2 + k2 ^ 2) * z1 * z2)
      + k3 * w * (- k1 * k30 + (k1 ^ 2 + k2 ^ 2) * z1))); [ring|].
    replace (k3 * w) with (k30 - k1 * z1 - k2 * z2) by lra.
    rewrite HK. ring.
  - replace (E / (kk * kk0) * (- k2 * k30 + (k1 ^ 2 + k2 ^ 2) * z2))
      with (E / kk0^2 * (w * (- k2 * k30 + (k1 ^ 2 + k2 ^ 2) * z2)))
      by (unfold w; field; lra).
    transitivity (E / kk0^2 * (k2 * (kk0 - k2 ^ 2 - 2 * k2 * k30 * z2 + (k1 ^ 2 + k2 ^ 2) * z2 ^ 2)
      + k1 * (- k1 * k2 - k1 * k30 * z2 - k2 * k30 * z1 + (k1 ^ 2 + k2 ^ 2) * z1 * z2)
      + k3 * w * (- k2 * k30 + (k1 ^ 2 + k2 ^ 2) * z2))); [ring|].
    replace (k3 * w) with (k30 - k1 * z1 - k2 * z2) by lra.
    rewrite HK. ring.
  - replace (E / kk^2 * (k1^2 + k2^2)) with (E / (kk * kk0) * (w * (k1^2+k2^2)))
      by (unfold w; field; lra).
    transitivity (E / (kk * kk0) * (k1 * (- k1 * k30 + (k1 ^ 2 + k2 ^ 2) * z1)
      + k2 * (- k2 * k30 + (k1 ^ 2 + k2 ^ 2) * z2) + k3 * w * (k1^2+k2^2))); [ring|].
    replace (k3 * w) with (k30 - k1 * z1 - k2 * z2) by lra. ring.
Qed.

Lemma raw_mirror : forall E0 b k1 k2 k3, k1 <> 0 ->
  let P := power_spectra_raw E0 b k1 k2 k3 in
  let Q := power_spectra_raw E0 b k1 (-k2) k3 in
  phi11 Q = phi11 P /\ phi22 Q = phi22 P /\ phi33 Q = phi33 P /\ phi13 Q = phi13 P
  /\ phi12 Q = - phi12 P /\ phi23 Q = - phi23 P.
Proof.
  intros E0 b k1 k2 k3 H P Q. unfold P, Q, power_spectra_raw; cbv zeta; cbn [phi11 phi22 phi33 phi13 phi23 phi12].
  destruct (mirror_zeta b k1 k2 k3 H) as [Hz1 Hz2]. rewrite Hz1, Hz2.
  replace (kk0_of b k1 (-k2) k3) with (kk0_of b k1 k2 k3) by (unfold kk0_of; ring).
  replace (kk_of k1 (-k2) k3) with (kk_of k1 k2 k3) by (unfold kk_of; ring).
  replace ((-k2)^2) with (k2^2) by ring.
  repeat split; ring.
Qed.

Lemma raw_linear : forall c E0 b k1 k2 k3 i j,
  entry (power_spectra_raw (c * E0) b k1 k2 k3) i j
  = c * entry (power_spectra_raw E0 b k1 k2 k3) i j.
Proof.
  intros. destruct i, j; unfold entry, power_spectra_raw; cbv zeta; cbn [phi11 phi22 phi33 phi13 phi23 phi12];
  unfold Rdiv; ring.
Qed.

Lemma zeta_isotropic : forall k1 k2 k3, k1 <> 0 ->
  fit_zeta1 0 k1 k2 k3 = 0 /\ fit_zeta2 0 k1 k2 k3 = 0.
Proof.
  intros k1 k2 k3 H.
  assert (H1 : fit_C1 0 k1 k2 k3 = 0) by (unfold fit_C1, Rdiv; ring).
  assert (H2 : fit_C2 0 k1 k2 k3 = 0).
  { unfold fit_C2. replace (0 * k1 * sqrt (s_of k1 k2)) with 0 by ring.
    replace (kk0_of 0 k1 k2 k3 - k30_of 0 k1 k3 * k1 * 0) with (kk0_of 0 k1 k2 k3) by ring.
    rewrite atan2_0_pos by (apply kk0_pos; assumption). ring. }
  unfold fit_zeta1, fit_zeta2. rewrite H1, H2. unfold Rdiv. split; ring.
Qed.

Lemma raw_isotropic : forall E0 k1 k2 k3 i j, k1 <> 0 ->
  entry (power_spectra_raw E0 0 k1 k2 k3) i j = iso_tensor E0 (vec k1 k2 k3) i j.
Proof.
  intros E0 k1 k2 k3 i j H.
  pose proof (kk_pos k1 k2 k3 H) as Hk.
  destruct (zeta_isotropic k1 k2 k3 H) as [Hz1 Hz2].
  assert (Hn : normsq (vec k1 k2 k3) = kk_of k1 k2 k3) by (unfold normsq, sum3, vec, kk_of; ring).
  assert (H0 : kk0_of 0 k1 k2 k3 = kk_of k1 k2 k3) by (unfold kk0_of, k30_of, kk_of; ring).
  assert (H3 : k30_of 0 k1 k3 = k3) by (unfold k30_of; ring).
  unfold iso_tensor. rewrite Hn.
  pose proof PI_RGT_0 as HPI.
  destruct i, j; unfold entry, power_spectra_raw; cbv zeta; cbn [phi11 phi22 phi33 phi13 phi23 phi12 delta vec];
  rewrite ?Hz1, ?Hz2, ?H0, ?H3; try (field; lra).
  unfold kk_of in *. field. lra.
Qed.

Lemma sheared_isotropic : forall E0 L k1 k2 k3 i j,
  sheared_kernel E0 L 0 k1 k2 k3 i j = vk_kernel E0 L k1 k2 k3 i j.
Proof.
  intros E0 L k1 k2 k3 i j.
  assert (H0 : kk0_of 0 k1 k2 k3 = kk_of k1 k2 k3) by (unfold kk0_of, k30_of, kk_of; ring).
  assert (H3 : k30_of 0 k1 k3 = k3) by (unfold k30_of; ring).
  assert (Hz : sim_zeta1 0 k1 k2 k3 = 0 /\ sim_zeta2 0 k1 k2 k3 = 0).
  { destruct (Req_dec k1 0) as [->|H].
    - rewrite sim_zeta1_k1zero, sim_zeta2_k1zero. auto.
    - rewrite sim_zeta1_regular, sim_zeta2_regular by assumption. apply zeta_isotropic; assumption. }
  destruct Hz as [Hz1 Hz2].
  unfold sheared_kernel, vk_kernel. rewrite Hz1, Hz2, H0, H3.
  destruct (Req_dec (kk_of k1 k2 k3) 0) as [Hk|Hk].
  - assert (k1 = 0) by (unfold kk_of in Hk; nra).
    assert (k2 = 0) by (unfold kk_of in Hk; nra).
    assert (k3 = 0) by (unfold kk_of in Hk; nra). subst.
    destruct i, j; simpl; ring.
  - rewrite sim_zeta3_regular by assumption. rewrite H0.
    replace (kk_of k1 k2 k3 / kk_of k1 k2 k3) with 1 by (field; assumption).
    destruct i, j; simpl; ring.
Qed.
