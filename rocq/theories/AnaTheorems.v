(** The analytical low-frequency spectra as approximations of integrals over all lateral wave
    numbers (C165).  `quad` of scipy is taken as the exact integral ([exact_quad], EstSpec.v). *)

From Coq Require Import String Reals List ZArith Bool Lia Lra.
From Coquelicot Require Import Coquelicot.
From Verif Require Import Prelude LowModel LowSpec LowMore LowDemo EstSpec AnaProofs AnaFinal.
Import ListNotations.
Open Scope R_scope.

(** C165: raising the limit raises both spectra, by no more than a power of the lower limit. *)
Theorem C165_truncation : forall quad cfg w k1 B B', low_construct quad cfg = Ok w -> positive_lengths cfg -> 0 <= lc_sigma2 cfg -> lc_L cfg <= 10^6 ->
  / 10^10 <= Rabs k1 -> / 10^10 <= Rabs (k1 * cos (lc_psi cfg)) -> sin (lc_psi cfg) <> 0 -> 0 < B -> B <= B' ->
  let F l := analytical exact_quad w l k1 in
  let a := sqrt 2 * Rabs (sin (lc_psi cfg)) in
  fst (F B) <= fst (F B') <= fst (F B) + 6 / (5 * PI) * lw_c w * Rpower (a * B) (-5/3)
  /\ snd (F B) <= snd (F B') <= snd (F B) + 6 / (11 * PI) * lw_c w * (k1 / B)^2 * Rpower (a * B) (-5/3).
Proof. exact ana_truncation. Qed.
Print Assumptions C165_truncation.

(** C165: the integrals over all lateral wave numbers exist, and this is the distance to them. *)
Theorem C165_limit : forall quad cfg w k1, low_construct quad cfg = Ok w -> positive_lengths cfg -> 0 <= lc_sigma2 cfg -> lc_L cfg <= 10^6 ->
  / 10^10 <= Rabs k1 -> / 10^10 <= Rabs (k1 * cos (lc_psi cfg)) -> sin (lc_psi cfg) <> 0 ->
  let F l := analytical exact_quad w l k1 in
  let a := sqrt 2 * Rabs (sin (lc_psi cfg)) in
  exists F1 F2, is_lim (fun l => fst (F l)) p_infty F1 /\ is_lim (fun l => snd (F l)) p_infty F2
  /\ forall B, 0 < B ->
     fst (F B) <= F1 <= fst (F B) + 6 / (5 * PI) * lw_c w * Rpower (a * B) (-5/3)
     /\ snd (F B) <= F2 <= snd (F B) + 6 / (11 * PI) * lw_c w * (k1 / B)^2 * Rpower (a * B) (-5/3).
Proof. exact ana_limit. Qed.
Print Assumptions C165_limit.

(** C165: towards small wave numbers the transverse spectrum vanishes like k1^2. *)
Theorem C165_small : forall quad cfg w k1 B, low_construct quad cfg = Ok w -> positive_lengths cfg -> 0 <= lc_sigma2 cfg -> lc_L cfg <= 10^6 ->
  / 10^10 <= Rabs k1 -> / 10^10 <= Rabs (k1 * cos (lc_psi cfg)) -> 0 < B ->
  0 <= snd (analytical exact_quad w B k1) <= 2 * sqrt 2 ^ 3 / PI * lw_c w * Rpower (lc_L cfg) (14/3) * B * k1^2.
Proof. exact ana_small. Qed.
Print Assumptions C165_small.

(** C165: the documented range of angles is needed: at angle zero, which is accepted, the
    streamwise spectrum grows beyond all bounds with the limit. *)
Theorem C165_angle_zero : forall quad cfg w k1, low_construct quad cfg = Ok w -> positive_lengths cfg -> 0 < lc_sigma2 cfg -> lc_L cfg <= 10^6 ->
  / 10^10 <= Rabs k1 -> sin (lc_psi cfg) = 0 ->
  forall M, exists B0, forall B, B0 <= B -> M <= fst (analytical exact_quad w B k1).
Proof. exact ana_unbounded. Qed.
Print Assumptions C165_angle_zero.

(** At 45 degrees, with the default limit 5, wave number 1 and scale c. *)
Example C165_case : exists w, low_construct unit_quad plane_cfg = Ok w
  /\ exists F1 F2, is_lim (fun l => fst (analytical exact_quad w l 1)) p_infty F1 /\ is_lim (fun l => snd (analytical exact_quad w l 1)) p_infty F2
  /\ 0 <= F1 - fst (analytical exact_quad w 5 1) <= 6 / 25 / PI * lw_c w
  /\ 0 <= F2 - snd (analytical exact_quad w 5 1) <= 6 / 1375 / PI * lw_c w.
Proof.
  destruct plane_exists as (w & HC). exists w. split; [exact HC|].
  assert (HS : 0 < sqrt 2) by (apply sqrt_lt_R0; lra).
  assert (HS2 : sqrt 2 <= 2). { rewrite <- (sqrt_square 2) at 2 by lra. apply sqrt_le_1; lra. }
  assert (H10 : / 10^10 <= / 2) by (apply Rinv_le_contravar; lra).
  assert (HH : / 2 <= 1 / sqrt 2) by (unfold Rdiv; rewrite Rmult_1_l; apply Rinv_le_contravar; assumption).
  destruct (c_nonneg unit_quad plane_cfg w HC plane_positive) as (Hc & _ & _); [cbn; lra|].
  assert (X : forall u, sqrt 2 * Rabs (1 / sqrt 2) * u = u).
  { intros u. rewrite Rabs_pos_eq by lra. field. lra. }
  destruct (C165_limit unit_quad plane_cfg w 1 HC plane_positive) as (F1 & F2 & L1 & L2 & HB).
  - cbn; lra.
  - cbn; lra.
  - rewrite Rabs_R1. lra.
  - cbn [plane_cfg lc_psi]. rewrite cos_PI4, Rmult_1_l, Rabs_pos_eq by lra. lra.
  - cbn [plane_cfg lc_psi]. rewrite sin_PI4. lra.
  - exists F1, F2. split; [exact L1|]. split; [exact L2|].
    destruct (HB 5 ltac:(lra)) as [H1 H2]. cbn [plane_cfg lc_psi] in H1, H2. rewrite sin_PI4, X in H1, H2.
    assert (P5 : 0 < Rpower 5 (-5/3) <= / 5).
    { split; [unfold Rpower; apply exp_pos|]. rewrite <- (Rpower_1 5) at 2 by lra. rewrite <- Rpower_Ropp. apply Rle_Rpower; lra. }
    pose proof PI_RGT_0 as HP. assert (HI : 0 < / PI) by (apply Rinv_0_lt_compat; exact HP).
    assert (HM : 0 <= / PI * lw_c w) by (apply Rmult_le_pos; lra).
    assert (Q : / PI * lw_c w * Rpower 5 (-5/3) <= / PI * lw_c w * / 5) by (apply Rmult_le_compat_l; lra).
    replace (6 / (5 * PI) * lw_c w * Rpower 5 (-5/3)) with (6 / 5 * (/ PI * lw_c w * Rpower 5 (-5/3))) in H1 by (field; lra).
    replace (6 / (11 * PI) * lw_c w * (1 / 5)^2 * Rpower 5 (-5/3)) with (6 / 275 * (/ PI * lw_c w * Rpower 5 (-5/3))) in H2 by (field; lra).
    replace (6 / 25 / PI * lw_c w) with (6 / 25 * (/ PI * lw_c w)) by (field; lra).
    replace (6 / 1375 / PI * lw_c w) with (6 / 1375 * (/ PI * lw_c w)) by (field; lra).
    split; lra.
Qed.

(** Angle zero. *)
Example C165_angle_zero_case : exists w, low_construct unit_quad (LowConfig 1 1 0 1 10 10 2 2) = Ok w
  /\ forall M, exists B0, forall B, B0 <= B -> M <= fst (analytical exact_quad w B 1).
Proof.
  assert (HP : positive_lengths (LowConfig 1 1 0 1 10 10 2 2)) by (unfold positive_lengths; cbn; lra).
  destruct plane_exists as (w0 & HC0).
  destruct (low_constructed unit_quad plane_cfg w0 HC0 plane_positive) as (_ & _ & HQ & _).
  destruct (low_construct_ok unit_quad (LowConfig 1 1 0 1 10 10 2 2) HP HQ) as (w & HC).
  exists w. split; [exact HC|]. apply (C165_angle_zero unit_quad (LowConfig 1 1 0 1 10 10 2 2)); try assumption; cbn [lc_sigma2 lc_L lc_psi].
  - lra.
  - lra.
  - rewrite Rabs_R1. rewrite <- Rinv_1. apply Rinv_le_contravar; lra.
  - apply sin_0.
Qed.
