(** Property theorems about the variance of the low-frequency field as a function of
    the anisotropy angle. *)

From Coq Require Import Reals List Arith Lra Lia.
From Coquelicot Require Import Coquelicot.
From Verif Require Import Prelude LowModel LowSpec AnisoSpec AnisoProofs.
Import ListNotations.
Open Scope R_scope.

(** C128: whenever the anisotropy angle is not 45 degrees, the spectrum which the
    generator realises carries more variance than the configured sigma2, by a factor
    bounded away from one. *)
Theorem C128_refuted : forall quad cfg w, low_construct quad cfg = Ok w ->
  0 < lc_L cfg -> lc_L cfg <= 10^6 -> 0 < lc_sigma2 cfg -> 0 < lc_psi cfg < PI / 2 -> lc_psi cfg <> PI / 4 ->
  half_line_integral (low_shape (lc_L cfg) (lc_zi cfg)) (quad (low_shape (lc_L cfg) (lc_zi cfg))) ->
  exists K0, 0 < K0 /\ forall K, K0 <= K ->
  (1 + cos (2 * lc_psi cfg)^2 / 32) * lc_sigma2 cfg
  < variance1 (lw_c w) (lc_L cfg) (lc_psi cfg) (lc_zi cfg) K + variance2 (lw_c w) (lc_L cfg) (lc_psi cfg) (lc_zi cfg) K.
Proof. exact variance_too_large. Qed.
Print Assumptions C128_refuted.

Example C128_case : exists quad w, low_construct quad aniso_cfg = Ok w /\
  half_line_integral (low_shape (lc_L aniso_cfg) (lc_zi aniso_cfg)) (quad (low_shape (lc_L aniso_cfg) (lc_zi aniso_cfg))).
Proof. exact aniso_case. Qed.

Example C128_angle : 0 < lc_psi aniso_cfg < PI / 2 /\ lc_psi aniso_cfg <> PI / 4 /\ 0 < lc_sigma2 aniso_cfg.
Proof. pose proof PI_RGT_0. cbn. repeat split; lra. Qed.

(** C128: at 45 degrees the two components have equal variance and their sum is sigma2
    times the captured fraction of the integral used for the normalisation. *)
Theorem C128_isotropic_partial : forall quad cfg w, low_construct quad cfg = Ok w ->
  0 < lc_L cfg -> 0 <= lc_sigma2 cfg -> lc_psi cfg = PI / 4 ->
  forall K, 0 <= K ->
  variance1 (lw_c w) (lc_L cfg) (lc_psi cfg) (lc_zi cfg) K = variance2 (lw_c w) (lc_L cfg) (lc_psi cfg) (lc_zi cfg) K
  /\ variance1 (lw_c w) (lc_L cfg) (lc_psi cfg) (lc_zi cfg) K + variance2 (lw_c w) (lc_L cfg) (lc_psi cfg) (lc_zi cfg) K
  = lc_sigma2 cfg * (RInt (E_exact 1 (lc_L cfg) (lc_zi cfg)) 0 K / quad (low_shape (lc_L cfg) (lc_zi cfg))).
Proof. exact isotropic_variance. Qed.
Print Assumptions C128_isotropic_partial.

(** C129: the angle orders the two variances: below 45 degrees the streamwise component
    is the stronger one, above it the lateral one, by at least a quarter of |cos 2 psi|
    times the energy. *)
Theorem C129_anisotropy : forall c L psi zi K, 0 < psi < PI / 2 -> 0 < L -> 0 <= c -> 0 <= K ->
  polar_integrable (density1 c L psi zi) (kappa_edge psi K) /\ polar_integrable (density2 c L psi zi) (kappa_edge psi K) /\
  (psi < PI / 4 -> cos (2 * psi) / 4 * RInt (E_exact c L zi) 0 K <= variance1 c L psi zi K - variance2 c L psi zi K) /\
  (psi = PI / 4 -> variance1 c L psi zi K = variance2 c L psi zi K) /\
  (PI / 4 < psi -> - cos (2 * psi) / 4 * RInt (E_exact c L zi) 0 K <= variance2 c L psi zi K - variance1 c L psi zi K).
Proof. exact anisotropy_order. Qed.
Print Assumptions C129_anisotropy.

Example C129_case : 0 < cos (2 * (PI / 6)) /\ 0 < RInt (E_exact 1 1 1) 0 2.
Proof. exact anisotropy_case. Qed.
