(** Property theorems about the estimated spectra of low-frequency fields (C130). *)

From Coq Require Import String Reals List ZArith Bool Lia Lra.
From Coquelicot Require Import Coquelicot.
From Verif Require Import Prelude GenSpec LowModel LowSpec LowDemo EstSpec EstProofs EstLimit.
Import ListNotations.
Open Scope R_scope.

(** C130: on a domain which needs no enlargement, `generate` followed by
    `compute_spectrum` succeeds for every random state, and the average over seeds
    is the sum of the integrand of `analytical_spectrum` over the lateral wave
    numbers of the grid, at every reported wave number below the highest. *)
Theorem C130_estimates_defined : forall G (gauss : G -> R * G) quad cfg w tol, positive_lengths cfg -> low_construct quad cfg = Ok w -> plain_domain cfg ->
  0 <= lc_sigma2 cfg -> lc_L cfg <= 10^6 -> asked_L1 cfg <= 10^8 -> / 10^8 <= asked_dx cfg -> / 100 <= Rabs (cos (lc_psi cfg)) ->
  0 < tol < 2 * PI / asked_L1 cfg ->
  forall g, exists ks F1 F2, estimated gauss w tol g ks F1 F2 /\ length F1 = (2 ^ lc_e1 cfg / 2)%nat /\ length F2 = (2 ^ lc_e1 cfg / 2)%nat
  /\ forall a, (1 <= a)%nat -> (2 * a < 2 ^ lc_e1 cfg)%nat -> nth (a - 1) ks 0 = 2 * PI * INR a / asked_L1 cfg.
Proof. exact estimates_defined. Qed.
Print Assumptions C130_estimates_defined.

Theorem C130_mean_estimate : forall G (gauss : G -> R * G) quad cfg w ens tol, positive_lengths cfg -> low_construct quad cfg = Ok w -> plain_domain cfg ->
  0 <= lc_sigma2 cfg -> lc_L cfg <= 10^6 -> asked_L1 cfg <= 10^8 -> / 10^8 <= asked_dx cfg -> / 100 <= Rabs (cos (lc_psi cfg)) ->
  0 < tol < 2 * PI / asked_L1 cfg -> white gauss (2 ^ lc_e1 cfg * 2 ^ lc_e2 cfg) ens ->
  forall est1 est2 a, (1 <= a)%nat -> (2 * a < 2 ^ lc_e1 cfg)%nat ->
  (forall g, exists ks F1 F2, estimated gauss w tol g ks F1 F2 /\ nth_error F1 (a - 1) = Some (est1 g) /\ nth_error F2 (a - 1) = Some (est2 g)) ->
  let N2 := (2 ^ lc_e2 cfg)%nat in
  let k1 := 2 * PI * INR a / asked_L1 cfg in
  let dk := 2 * PI / asked_L2 cfg in
  mean ens est1 = Rsum (map (fun j => integrand11 (lw_c w) (lc_L cfg) (lc_psi cfg) (lc_zi cfg) k1 (dk * (INR j - INR N2 / 2)) * dk) (seq 1 (N2 - 1)))
  /\ mean ens est2 = Rsum (map (fun j => integrand22 (lw_c w) (lc_L cfg) (lc_psi cfg) (lc_zi cfg) k1 (dk * (INR j - INR N2 / 2)) * dk) (seq 0 N2)).
Proof. exact @mean_estimates. Qed.
Print Assumptions C130_mean_estimate.

(** C130: for wide domains with fixed spacing the average tends to the result of
    `analytical_spectrum` with the limit pi / dy. *)
Theorem C130_estimates_converge : forall quad cfg w0 tol a,
  low_construct quad cfg = Ok w0 -> positive_lengths cfg -> 5 <= lc_f1 cfg -> (1 <= lc_e1 cfg)%nat ->
  0 <= lc_sigma2 cfg -> lc_L cfg <= 10^6 -> asked_L1 cfg <= 10^8 -> / 10^8 <= asked_dx cfg -> / 100 <= Rabs (cos (lc_psi cfg)) ->
  0 < tol < 2 * PI / asked_L1 cfg -> (1 <= a)%nat -> (2 * a < 2 ^ lc_e1 cfg)%nat ->
  let k1 := 2 * PI * INR a / asked_L1 cfg in
  let B := PI / asked_dx cfg in
  let f1 := integrand11 (lw_c w0) (lc_L cfg) (lc_psi cfg) (lc_zi cfg) k1 in
  let f2 := integrand22 (lw_c w0) (lc_L cfg) (lc_psi cfg) (lc_zi cfg) k1 in
  ex_RInt f1 (- B) B /\ ex_RInt f2 (- B) B /\
  forall eps, 0 < eps -> exists n0, forall n, (n0 <= n)%nat ->
  exists w, low_construct quad (widened cfg n) = Ok w /\
  forall G (gauss : G -> R * G) ens est1 est2, white gauss (2 ^ lc_e1 cfg * 2 ^ n) ens ->
    (forall g, exists ks F1 F2, estimated gauss w tol g ks F1 F2 /\ nth_error F1 (a - 1) = Some (est1 g) /\ nth_error F2 (a - 1) = Some (est2 g)) ->
    Rabs (mean ens est1 - fst (analytical exact_quad w B k1)) <= eps
    /\ Rabs (mean ens est2 - snd (analytical exact_quad w B k1)) <= eps
    /\ fst (analytical exact_quad w B k1) = RInt f1 (- B) B /\ snd (analytical exact_quad w B k1) = RInt f2 (- B) B.
Proof. exact estimates_converge. Qed.
Print Assumptions C130_estimates_converge.

(** Four by four nodes, a family of 32 equally weighted seeds with centred
    uncorrelated draws. *)
Example C130_case : exists w, low_construct unit_quad plane_cfg = Ok w /\ positive_lengths plane_cfg /\ plain_domain plane_cfg
  /\ asked_L1 plane_cfg <= 10^8 /\ / 10^8 <= asked_dx plane_cfg /\ / 100 <= Rabs (cos (lc_psi plane_cfg)) /\ 0 < 1 / 2 < 2 * PI / asked_L1 plane_cfg
  /\ (2 * 1 < 2 ^ lc_e1 plane_cfg)%nat
  /\ white single_gauss (2 ^ lc_e1 plane_cfg * 2 ^ lc_e2 plane_cfg) (single_family 16)
  /\ mean (single_family 16) (fun _ => 1) = 1
  /\ exists est1 est2, forall g, exists ks F1 F2, estimated single_gauss w (1 / 2) g ks F1 F2 /\ nth_error F1 0 = Some (est1 g) /\ nth_error F2 0 = Some (est2 g).
Proof.
  destruct plane_exists as (w & HC). exists w. destruct plane_plain as (HD & Hp & L1 & D1). destruct (single_white 16) as (SW & SM & _); [lia|].
  assert (HT : 0 < 1/2 < 2 * PI / asked_L1 plane_cfg) by (rewrite L1; pose proof PI_RGT_0; pose proof PI2_3_2; lra).
  assert (H1 : asked_L1 plane_cfg <= 10^8) by (rewrite L1; lra).
  assert (H2 : / 10^8 <= asked_dx plane_cfg) by (rewrite D1; apply Rle_trans with (/ 1); [apply Rinv_le_contravar; lra|lra]).
  do 7 (split; [first [assumption|exact plane_positive]|]). split; [cbn; lia|]. split; [exact SW|]. split; [exact SM|].
  apply (estimates_exist _ single_gauss unit_quad plane_cfg w (1/2) 1 plane_positive HC HD); try assumption; cbn; lra || lia.
Qed.
