(** Model of the rapid-distortion spectral tensor used for fitting and of the
    spectral kernels used for simulation.  All definitions are pointwise in the
    wave vector: the code evaluates the same expressions elementwise on arrays. *)

From Coq Require Import Reals.
From Verif Require Import Prelude.
Open Scope R_scope.

(** The six independent entries in the order the code returns them
    (drdmannturb/spectra_fitting/one_point_spectra.py L610-611:
    uu, vv, ww, uw, vw, uv). *)
Record tensor6 : Type := T6
  { phi11 : R; phi22 : R; phi33 : R; phi13 : R; phi23 : R; phi12 : R }.

(** one_point_spectra.py L573: k30 = k3 + beta * k1. *)
Definition k30_of (beta k1 k3 : R) : R := k3 + beta * k1.

(** one_point_spectra.py L574: squared norm of the distorted wave vector. *)
Definition kk0_of (beta k1 k2 k3 : R) : R := k1^2 + k2^2 + (k30_of beta k1 k3)^2.

(** one_point_spectra.py L575. *)
Definition kk_of (k1 k2 k3 : R) : R := k1^2 + k2^2 + k3^2.

(** one_point_spectra.py L576. *)
Definition s_of (k1 k2 : R) : R := k1^2 + k2^2.

(** one_point_spectra.py L583. *)
Definition fit_C1 (beta k1 k2 k3 : R) : R :=
  let k30 := k30_of beta k1 k3 in
  let kk0 := kk0_of beta k1 k2 k3 in
  beta * k1^2 * (kk0 - 2 * k30^2 + beta * k1 * k30) / (kk_of k1 k2 k3 * s_of k1 k2).

(** one_point_spectra.py L584. *)
Definition fit_C2 (beta k1 k2 k3 : R) : R :=
  let k30 := k30_of beta k1 k3 in
  let kk0 := kk0_of beta k1 k2 k3 in
  let s := s_of k1 k2 in
  k2 * kk0 / sqrt (s^3) * atan2 (beta * k1 * sqrt s) (kk0 - k30 * k1 * beta).

(** one_point_spectra.py L586. *)
Definition fit_zeta1 (beta k1 k2 k3 : R) : R :=
  fit_C1 beta k1 k2 k3 - k2 / k1 * fit_C2 beta k1 k2 k3.

(** one_point_spectra.py L587. *)
Definition fit_zeta2 (beta k1 k2 k3 : R) : R :=
  fit_C1 beta k1 k2 k3 * k2 / k1 + fit_C2 beta k1 k2 k3.

(** one_point_spectra.py L566-595: the six entries before clipping.  [E0] is the
    value of `self.E0` at this wave vector before the in-place division of L588
    (callers guarantee k1 > 0; at k1 = 0 the code divides by zero). *)
Definition power_spectra_raw (E0 beta k1 k2 k3 : R) : tensor6 :=
  let k30 := k30_of beta k1 k3 in
  let kk0 := kk0_of beta k1 k2 k3 in
  let kk := kk_of k1 k2 k3 in
  let zeta1 := fit_zeta1 beta k1 k2 k3 in
  let zeta2 := fit_zeta2 beta k1 k2 k3 in
  let E := E0 / (4 * PI) in
  {| phi11 := E / kk0^2 * (kk0 - k1^2 - 2 * k1 * k30 * zeta1 + (k1^2 + k2^2) * zeta1^2);
     phi22 := E / kk0^2 * (kk0 - k2^2 - 2 * k2 * k30 * zeta2 + (k1^2 + k2^2) * zeta2^2);
     phi33 := E / kk^2 * (k1^2 + k2^2);
     phi13 := E / (kk * kk0) * (- k1 * k30 + (k1^2 + k2^2) * zeta1);
     phi23 := E / (kk * kk0) * (- k2 * k30 + (k1^2 + k2^2) * zeta2);
     phi12 := E / kk0^2 * (- k1 * k2 - k1 * k30 * zeta2 - k2 * k30 * zeta1
                           + (k1^2 + k2^2) * zeta1 * zeta2) |}.

(** one_point_spectra.py L603-605, L607-608: `torch.where(Phi < eps, eps, Phi)`. *)
Definition clip_low (eps x : R) : R := if Rlt_dec x eps then eps else x.

(** `torch.sign` (one_point_spectra.py L606). *)
Definition Rsign (x : R) : R :=
  if Rlt_dec 0 x then 1 else if Rlt_dec x 0 then -1 else 0.

(** one_point_spectra.py L606: `torch.where(|Phi13| < eps, eps * sign(Phi13), Phi13)`. *)
Definition clip_signed (eps x : R) : R :=
  if Rlt_dec (Rabs x) eps then eps * Rsign x else x.

(** one_point_spectra.py L598-608 (eps = 1e-12) and, with eps = 1e-32,
    L390-396 of `_PowerSpectra_coherence`. *)
Definition clip6 (eps : R) (t : tensor6) : tensor6 :=
  {| phi11 := clip_low eps (phi11 t);
     phi22 := clip_low eps (phi22 t);
     phi33 := clip_low eps (phi33 t);
     phi13 := clip_signed eps (phi13 t);
     phi23 := clip_low eps (phi23 t);
     phi12 := clip_low eps (phi12 t) |}.

(** one_point_spectra.py L598. *)
Definition eps_ops : R := / 10^12.
(** one_point_spectra.py L390. *)
Definition eps_coh : R := / 10^32.

(** one_point_spectra.py L533-611: `PowerSpectra`. *)
Definition power_spectra (E0 beta k1 k2 k3 : R) : tensor6 :=
  clip6 eps_ops (power_spectra_raw E0 beta k1 k2 k3).

(** one_point_spectra.py L365-398: `_PowerSpectra_coherence` (the same formulas
    on another grid, with another clipping constant). *)
Definition power_spectra_coherence (E0 beta k1 k2 k3 : R) : tensor6 :=
  clip6 eps_coh (power_spectra_raw E0 beta k1 k2 k3).

(** A real 3x3 array; the code's kernels are [1j] times such an array
    (covariance_kernels.py L119, L246). *)
Definition mat3 : Type := ix -> ix -> R.

(** Cross-product array assembled at
    drdmannturb/fluctuation_generation/covariance_kernels.py L112-117 and
    L212-217 (entries not assigned stay 0). *)
Definition cross_mat (c a1 a2 a3 : R) : mat3 := fun i j =>
  match i, j with
  | X1, X2 => - c * a3
  | X1, X3 => c * a2
  | X2, X1 => c * a3
  | X2, X3 => - c * a1
  | X3, X1 => - c * a2
  | X3, X2 => c * a1
  | _, _ => 0
  end.

(** covariance_kernels.py L109-110 and L206-207, [kk] being the squared norm of
    the (distorted) wave vector.  L > 0 and E0 > 0 in every use. *)
Definition kernel_const (E0 L kk : R) : R :=
  let c := E0 * Rpower L (17/3) / (4 * PI) in
  sqrt (c / Rpower (1 + L^2 * kk) (17/6)).

(** covariance_kernels.py L88-119: `VonKarmanCovariance.precompute_Spectrum`
    (imaginary part; the array is multiplied by 1j at L119). *)
Definition vk_kernel (E0 L k1 k2 k3 : R) : mat3 :=
  cross_mat (kernel_const E0 L (kk_of k1 k2 k3)) k1 k2 k3.

(** covariance_kernels.py L221-229 in extended reals; beta is finite. *)
Definition sim_C1 (beta k1 k2 k3 : R) : xr :=
  let k30 := k30_of beta k1 k3 in
  let kk0 := kk0_of beta k1 k2 k3 in
  xdiv (Fin (beta * k1^2 * (kk0 - 2 * k30^2 + beta * k1 * k30)))
       (Fin (kk_of k1 k2 k3 * s_of k1 k2)).

(** covariance_kernels.py L223-225. *)
Definition sim_C2 (beta k1 k2 k3 : R) : xr :=
  let k30 := k30_of beta k1 k3 in
  let kk0 := kk0_of beta k1 k2 k3 in
  let s := s_of k1 k2 in
  let numerator := beta * k1 * sqrt s in
  let denominator := kk0 - k30 * k1 * beta in
  xmul (xdiv (Fin (k2 * kk0)) (xpow s (3/2))) (Fin (atan2 numerator denominator)).

(** covariance_kernels.py L227 and L232. *)
Definition sim_zeta1 (beta k1 k2 k3 : R) : R :=
  nan_to_num (xsub (sim_C1 beta k1 k2 k3)
                   (xmul (xdiv (Fin k2) (Fin k1)) (sim_C2 beta k1 k2 k3))).

(** covariance_kernels.py L228 and L233. *)
Definition sim_zeta2 (beta k1 k2 k3 : R) : R :=
  nan_to_num (xadd (xmul (xdiv (Fin k2) (Fin k1)) (sim_C1 beta k1 k2 k3))
                   (sim_C2 beta k1 k2 k3)).

(** covariance_kernels.py L229 and L234. *)
Definition sim_zeta3 (beta k1 k2 k3 : R) : R :=
  nan_to_num (xdiv (Fin (kk0_of beta k1 k2 k3)) (Fin (kk_of k1 k2 k3))).

(** covariance_kernels.py L195 / nn_covariance.py L119: the lifetime is
    overwritten by 0 at the zero wave vector, [tau] being the lifetime
    (L192-194, resp. nn_covariance.py L116-118) elsewhere. *)
Definition sim_beta (tau : R -> R -> R -> R) (k1 k2 k3 : R) : R :=
  if Req_EM_T (kk_of k1 k2 k3) 0 then 0 else tau k1 k2 k3.

(** covariance_kernels.py L200-246: sheared kernel for a given lifetime value
    (imaginary part; multiplied by 1j at L246). *)
Definition sheared_kernel (E0 L beta k1 k2 k3 : R) : mat3 :=
  let k30 := k30_of beta k1 k3 in
  let tmp := cross_mat (kernel_const E0 L (kk0_of beta k1 k2 k3)) k1 k2 k30 in
  let zeta1 := sim_zeta1 beta k1 k2 k3 in
  let zeta2 := sim_zeta2 beta k1 k2 k3 in
  let zeta3 := sim_zeta3 beta k1 k2 k3 in
  fun i j =>
    match i with
    | X1 => tmp X1 j + zeta1 * tmp X3 j
    | X2 => tmp X2 j + zeta2 * tmp X3 j
    | X3 => zeta3 * tmp X3 j
    end.

(** covariance_kernels.py L184-246 and nn_covariance.py L108-170 (identical
    except for the lifetime). *)
Definition sim_kernel (E0 L : R) (tau : R -> R -> R -> R) (k1 k2 k3 : R) : mat3 :=
  sheared_kernel E0 L (sim_beta tau k1 k2 k3) k1 k2 k3.

(** covariance_kernels.py L192-194: Mann's lifetime; [hyp x] stands for
    scipy's `hyp2f1(1/3, 17/6, 4/3, x)`. *)
Definition mann_sim_tau (hyp : R -> R) (Gamma L k1 k2 k3 : R) : R :=
  let kk := kk_of k1 k2 k3 in
  Gamma * Rpower (kk * L^2) (-1/3) / sqrt (hyp (- 1 / (kk * L^2))).

(** covariance_kernels.py L184-246: `MannCovariance.precompute_Spectrum`. *)
Definition mann_kernel (hyp : R -> R) (E0 L Gamma k1 k2 k3 : R) : mat3 :=
  sim_kernel E0 L (mann_sim_tau hyp Gamma L) k1 k2 k3.

(** nn_covariance.py L116-118: lifetime of the DRD kernel; [net] is the value of
    the fitted network, evaluated at k * h_ref. *)
Definition drd_sim_tau (net : R -> R -> R -> R) (Gamma h_ref k1 k2 k3 : R) : R :=
  Gamma * net (k1 * h_ref) (k2 * h_ref) (k3 * h_ref).

(** nn_covariance.py L108-170: `NNCovariance.precompute_Spectrum`. *)
Definition drd_kernel (net : R -> R -> R -> R) (E0 L Gamma h_ref k1 k2 k3 : R) : mat3 :=
  sim_kernel E0 L (drd_sim_tau net Gamma h_ref) k1 k2 k3.

(** fluctuation_field_generator.py L146-155: energy scale, length scale and time
    scale of a DRD field from the fitted (L, T, M) (`exp_scales` of the reloaded
    problem), the friction velocity and the reference height. *)
Definition drd_load (L T M ustar zref : R) : R * R * R :=
  let M' := 4 * PI * Rpower L (-5/3) * M in
  (M' * ustar^2 * Rpower zref (-2/3), L * zref, T).
