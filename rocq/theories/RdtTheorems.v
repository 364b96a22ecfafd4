(** Property theorems about the spectral tensor and the simulation kernels. *)

From Coq Require Import Reals Lra.
From Coquelicot Require Import Coquelicot.
From Verif Require Import Prelude RdtModel SpectraModel RdtSpec RdtProofs RdtOde.
Open Scope R_scope.

(** C01: the covariance of the sheared simulation kernel is the tensor that
    calibration integrates, for every lifetime value. *)
Theorem C01_fit_tensor_is_simulation_covariance :
  forall E0 L beta k1 k2 k3 i j, k1 <> 0 -> 0 < L -> 0 <= E0 ->
  covariance (times_1j (sheared_kernel E0 L beta k1 k2 k3)) i j
  = RtoC (entry (power_spectra_raw (forward_energy vklike_energy E0 L beta k1 k2 k3)
                                   beta k1 k2 k3) i j).
Proof. exact fit_tensor_is_covariance. Qed.
Print Assumptions C01_fit_tensor_is_simulation_covariance.

Example C01_case :
  covariance (times_1j (sheared_kernel 2 (3/5) 3 1 (-2) (1/2))) X1 X3
  = RtoC (entry (power_spectra_raw (forward_energy vklike_energy 2 (3/5) 3 1 (-2) (1/2))
                                   3 1 (-2) (1/2)) X1 X3).
Proof. apply C01_fit_tensor_is_simulation_covariance; lra. Qed.

(** C01, end to end: the Mann kernel against the tensor calibration computes with
    its own `MANN` lifetime and the same scales, whatever the hypergeometric
    function returns. *)
Theorem C01_mann_kernel_matches_calibration :
  forall hyp E0 L Gamma k1 k2 k3 i j, k1 <> 0 -> 0 < L -> 0 <= E0 ->
  forall env beta, le_type env = MANN -> le_L env = L -> le_T env = Gamma -> le_hyp env = hyp ->
  eddy_lifetime env k1 k2 k3 = Ok beta ->
  covariance (times_1j (mann_kernel hyp E0 L Gamma k1 k2 k3)) i j
  = RtoC (entry (power_spectra_raw (forward_energy vklike_energy E0 L beta k1 k2 k3)
                                   beta k1 k2 k3) i j).
Proof. exact mann_kernel_matches_fit. Qed.
Print Assumptions C01_mann_kernel_matches_calibration.

Example C01_mann_case :
  let env := LEnv MANN (3/5) 4 (fun x => 1 + x^2) 0 0 (fun _ => Err RuntimeError) in
  exists beta, eddy_lifetime env 1 2 3 = Ok beta /\
  covariance (times_1j (mann_kernel (fun x => 1 + x^2) 2 (3/5) 4 1 2 3)) X2 X3
  = RtoC (entry (power_spectra_raw (forward_energy vklike_energy 2 (3/5) beta 1 2 3)
                                   beta 1 2 3) X2 X3).
Proof.
  intro env. eexists. split; [reflexivity|].
  apply (C01_mann_kernel_matches_calibration (fun x => 1 + x^2) 2 (3/5) 4 1 2 3 X2 X3) with (env := env);
    try reflexivity; lra.
Qed.

(** C02: every column of the Mann kernel is orthogonal to its wave vector, with no
    exception for degenerate wave vectors. *)
Theorem C02_mann_kernel_divergence_free :
  forall hyp E0 L Gamma k1 k2 k3 j,
  kernel_div (vec k1 k2 k3) (times_1j (mann_kernel hyp E0 L Gamma k1 k2 k3)) j = RtoC 0.
Proof. exact (fun hyp E0 L Gamma => sim_kernel_divfree E0 L (mann_sim_tau hyp Gamma L)). Qed.
Print Assumptions C02_mann_kernel_divergence_free.

(** C02 for the kernel of a fitted network (identical assembly). *)
Theorem C02_drd_kernel_divergence_free :
  forall net E0 L Gamma h_ref k1 k2 k3 j,
  kernel_div (vec k1 k2 k3) (times_1j (drd_kernel net E0 L Gamma h_ref k1 k2 k3)) j = RtoC 0.
Proof. exact (fun net E0 L Gamma h_ref => sim_kernel_divfree E0 L (drd_sim_tau net Gamma h_ref)). Qed.
Print Assumptions C02_drd_kernel_divergence_free.

(** The degenerate wave vector k1 = 0 with k2, k3 nonzero, where the code divides
    by zero, is covered. *)
Example C02_case : forall hyp,
  kernel_div (vec 0 1 2) (times_1j (mann_kernel hyp 2 (3/5) 4 0 1 2)) X1 = RtoC 0.
Proof. intro hyp. apply C02_mann_kernel_divergence_free. Qed.

(** C03: positive semi-definiteness. *)
Theorem C03_tensor_positive_semidefinite :
  forall E0 beta k1 k2 k3 x, k1 <> 0 -> 0 <= E0 ->
  0 <= quad_form (entry (power_spectra_raw E0 beta k1 k2 k3)) x.
Proof. exact raw_psd. Qed.
Print Assumptions C03_tensor_positive_semidefinite.

(** C03: non-negative auto-spectra and the Cauchy-Schwarz bound. *)
Theorem C03_tensor_schwarz :
  forall E0 beta k1 k2 k3 i j, k1 <> 0 -> 0 <= E0 ->
  let P := entry (power_spectra_raw E0 beta k1 k2 k3) in
  0 <= P i i /\ (P i j)^2 <= P i i * P j j.
Proof. exact raw_schwarz. Qed.
Print Assumptions C03_tensor_schwarz.

Example C03_case : 0 <= quad_form (entry (power_spectra_raw 2 3 1 (-2) (1/2))) (vec 1 (-4) 2).
Proof. apply C03_tensor_positive_semidefinite; lra. Qed.

(** C04, pointwise part: the mirror symmetry in k2. *)
Theorem C04_tensor_mirror :
  forall E0 beta k1 k2 k3, k1 <> 0 ->
  let P := power_spectra_raw E0 beta k1 k2 k3 in
  let Q := power_spectra_raw E0 beta k1 (-k2) k3 in
  phi11 Q = phi11 P /\ phi22 Q = phi22 P /\ phi33 Q = phi33 P /\ phi13 Q = phi13 P
  /\ phi12 Q = - phi12 P /\ phi23 Q = - phi23 P.
Proof. exact raw_mirror. Qed.
Print Assumptions C04_tensor_mirror.

Example C04_case :
  phi12 (power_spectra_raw 2 3 1 (-2) 5) = - phi12 (power_spectra_raw 2 3 1 2 5).
Proof. apply (C04_tensor_mirror 2 3 1 2 5). lra. Qed.

(** C06: isotropic limit of the fitted tensor. *)
Theorem C06_tensor_isotropic_limit :
  forall E0 k1 k2 k3 i j, k1 <> 0 ->
  entry (power_spectra_raw E0 0 k1 k2 k3) i j = iso_tensor E0 (vec k1 k2 k3) i j.
Proof. exact raw_isotropic. Qed.
Print Assumptions C06_tensor_isotropic_limit.

(** C06: isotropic limit of the simulation kernel. *)
Theorem C06_kernel_isotropic_limit :
  forall E0 L k1 k2 k3 i j,
  sheared_kernel E0 L 0 k1 k2 k3 i j = vk_kernel E0 L k1 k2 k3 i j.
Proof. exact sheared_isotropic. Qed.
Print Assumptions C06_kernel_isotropic_limit.

Example C06_case : phi11 (power_spectra_raw 2 0 1 2 3) = 2 / (4 * PI * 196) * 13.
Proof.
  change (phi11 (power_spectra_raw 2 0 1 2 3)) with (entry (power_spectra_raw 2 0 1 2 3) X1 X1).
  rewrite C06_tensor_isotropic_limit by lra.
  unfold iso_tensor, normsq, vec, sum3, delta. field. apply Rgt_not_eq. apply PI_RGT_0.
Qed.

(** C07: Hermitian symmetry of the Mann kernel. *)
Theorem C07_mann_kernel_hermitian : forall hyp E0 L Gamma,
  hermitian_kernel (fun k1 k2 k3 => times_1j (mann_kernel hyp E0 L Gamma k1 k2 k3)).
Proof. exact mann_kernel_hermitian. Qed.
Print Assumptions C07_mann_kernel_hermitian.

(** C07: Hermitian symmetry of the von Karman kernel. *)
Theorem C07_vk_kernel_hermitian : forall E0 L,
  hermitian_kernel (fun k1 k2 k3 => times_1j (vk_kernel E0 L k1 k2 k3)).
Proof. exact vk_kernel_hermitian. Qed.
Print Assumptions C07_vk_kernel_hermitian.

(** C07: the assembled kernel for any lifetime that is even under k -> -k. *)
Theorem C07_sheared_kernel_hermitian : forall E0 L tau,
  (forall k1 k2 k3, tau (-k1) (-k2) (-k3) = tau k1 k2 k3) ->
  hermitian_kernel (fun k1 k2 k3 => times_1j (sim_kernel E0 L tau k1 k2 k3)).
Proof. exact sim_kernel_hermitian. Qed.
Print Assumptions C07_sheared_kernel_hermitian.

Example C07_case :
  hermitian_kernel (fun k1 k2 k3 => times_1j (sim_kernel 2 3 (fun a b c => Rabs a + (b * c)^2) k1 k2 k3)).
Proof.
  apply C07_sheared_kernel_hermitian. intros. rewrite Rabs_Ropp. f_equal. ring.
Qed.

(** C08: the von Karman kernel is orthogonal to k. *)
Theorem C08_vk_kernel_divergence_free :
  forall E0 L k1 k2 k3 j,
  kernel_div (vec k1 k2 k3) (times_1j (vk_kernel E0 L k1 k2 k3)) j = RtoC 0.
Proof. exact vk_kernel_divfree. Qed.
Print Assumptions C08_vk_kernel_divergence_free.

(** C08: covariance of the von Karman kernel. *)
Theorem C08_vk_kernel_covariance :
  forall E0 L k1 k2 k3 i j, 0 < L -> 0 <= E0 ->
  covariance (times_1j (vk_kernel E0 L k1 k2 k3)) i j
  = RtoC (E0 * Rpower L (17/3) / (4 * PI * Rpower (1 + L^2 * normsq (vec k1 k2 k3)) (17/6))
          * (normsq (vec k1 k2 k3) * delta i j - vec k1 k2 k3 i * vec k1 k2 k3 j)).
Proof. exact vk_kernel_cov. Qed.
Print Assumptions C08_vk_kernel_covariance.

Example C08_case : covariance (times_1j (vk_kernel 2 1 1 1 1)) X1 X2
  = RtoC (2 * Rpower 1 (17/3) / (4 * PI * Rpower (1 + 1^2 * normsq (vec 1 1 1)) (17/6)) * (-1)).
Proof.
  rewrite C08_vk_kernel_covariance by lra. f_equal. f_equal. unfold normsq, vec, sum3, delta. ring.
Qed.

(** C09, pointwise part: linearity in the energy density. *)
Theorem C09_tensor_linear :
  forall c E0 beta k1 k2 k3 i j,
  entry (power_spectra_raw (c * E0) beta k1 k2 k3) i j
  = c * entry (power_spectra_raw E0 beta k1 k2 k3) i j.
Proof. exact raw_linear. Qed.
Print Assumptions C09_tensor_linear.

Example C09_case : phi33 (power_spectra_raw (5 * 2) 3 1 2 3) = 5 * phi33 (power_spectra_raw 2 3 1 2 3).
Proof. exact (C09_tensor_linear 5 2 3 1 2 3 X3 X3). Qed.

(** C65: along the distorted wave vector k(b) = (k1, k2, k30 - b k1) every column
    of the sheared kernel solves the linearised rapid-distortion equations in the
    shear b ... *)
Theorem C65_kernel_solves_rapid_distortion :
  forall k1 k2 k30, k1 <> 0 -> forall E0 L b i j,
  is_derive (fun t => sheared_kernel E0 L t k1 k2 (k30 - t*k1) i j) b
    (rdt_rhs (vec k1 k2 (k30 - b*k1)) (sheared_kernel E0 L b k1 k2 (k30 - b*k1) X3 j) i).
Proof. exact sheared_solves. Qed.
Print Assumptions C65_kernel_solves_rapid_distortion.

(** ... and starts, at zero shear, from the isotropic von Karman kernel. *)
Theorem C65_kernel_initial_state :
  forall E0 L k1 k2 k30 i j,
  sheared_kernel E0 L 0 k1 k2 (k30 - 0*k1) i j = vk_kernel E0 L k1 k2 k30 i j.
Proof.
  exact (fun E0 L k1 k2 k30 i j => eq_trans
    (f_equal (fun z => sheared_kernel E0 L 0 k1 k2 z i j)
       (eq_trans (f_equal (fun u => k30 - u) (Rmult_0_l k1)) (Rminus_0_r k30)))
    (sheared_isotropic E0 L k1 k2 k30 i j)).
Qed.
Print Assumptions C65_kernel_initial_state.

Example C65_case :
  is_derive (fun t => sheared_kernel 2 (3/5) t 1 2 (3 - t*1) X1 X2) 4
    (rdt_rhs (vec 1 2 (3 - 4*1)) (sheared_kernel 2 (3/5) 4 1 2 (3 - 4*1) X3 X2) X1).
Proof. apply C65_kernel_solves_rapid_distortion. lra. Qed.

(** C70: the fitted tensor is incompressible. *)
Theorem C70_fitted_tensor_divergence_free :
  forall E0 beta k1 k2 k3 j, k1 <> 0 ->
  sum3 (fun i => vec k1 k2 k3 i * entry (power_spectra_raw E0 beta k1 k2 k3) i j) = 0.
Proof. exact raw_divfree. Qed.
Print Assumptions C70_fitted_tensor_divergence_free.

Example C70_case :
  sum3 (fun i => vec 1 2 3 i * entry (power_spectra_raw 2 4 1 2 3) i X2) = 0.
Proof. apply C70_fitted_tensor_divergence_free. lra. Qed.
