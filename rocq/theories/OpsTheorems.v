(** Property theorems about quadrature, one-point spectra, coherence and the
    amplitude of reloaded models. *)

From Coq Require Import String Reals Lra Lia List Arith ZArith Psatz.
From Coquelicot Require Import Complex.
From Verif Require Import Prelude RdtModel SpectraModel RdtSpec RdtProofs SpectraProofs
  OpsModel OpsSpec OpsProofs CohProofs DrdProofs OpsMore.
Import ListNotations.
Open Scope R_scope.

(** A model used by the examples: von Karman energy and a lifetime which depends
    on all three wave numbers. *)
Definition demo : ops_env := OpsEnv 2 3 vklike_energy (fun k1 k2 k3 => 1 + k1^2 + k2^2 + k3^2).

Example demo_sensible : sensible demo /\ spanwise_even demo.
Proof.
  split; [|intros k1 k2 k3; simpl; ring].
  repeat split; simpl; try lra. intros x Hx. rewrite vklike_form by assumption. left. apply vk_energy_pos. assumption.
Qed.

(** C04, integrated: the unclipped uv and vw spectra integrate to exactly zero. *)
Theorem C04_integrated_cross_spectra_vanish : forall e p1 p2 N k1,
  spanwise_even e -> k1 <> 0 ->
  ops_forward_raw phi12 e p1 p2 N k1 = 0 /\ ops_forward_raw phi23 e p1 p2 N k1 = 0.
Proof. exact cross_vanish. Qed.
Print Assumptions C04_integrated_cross_spectra_vanish.

Example C04_integrated_case : ops_forward_raw phi12 demo (-3) 3 100 2 = 0.
Proof. apply C04_integrated_cross_spectra_vanish; [apply demo_sensible|lra]. Qed.

(** C05: the delivered uv and vw spectra are strictly positive, for every model. *)
Theorem C05_uv_vw_vanish_refuted : forall e p1 p2 N k1,
  p1 < p2 -> (2 <= N)%nat -> 0 < k1 ->
  ops_forward phi12 e p1 p2 N k1 <> 0 /\ ops_forward phi23 e p1 p2 N k1 <> 0.
Proof. exact cross_never_vanish. Qed.
Print Assumptions C05_uv_vw_vanish_refuted.

Theorem C05_uv_vw_spurious_level : forall e p1 p2 N k1,
  p1 < p2 -> (2 <= N)%nat -> 0 < k1 ->
  k1 * (/ 1000000000000 * (2 * Rpower 10 p2)^2) <= ops_forward phi12 e p1 p2 N k1
  /\ k1 * (/ 1000000000000 * (2 * Rpower 10 p2)^2) <= ops_forward phi23 e p1 p2 N k1.
Proof. exact cross_level. Qed.
Print Assumptions C05_uv_vw_spurious_level.

(** With the default grid the spurious value is at least 4e-6 k1. *)
Example C05_case : 4 / 1000000 * 5 <= ops_forward phi12 demo (-3) 3 100 5.
Proof.
  destruct (C05_uv_vw_spurious_level demo (-3) 3 100 5 ltac:(lra) ltac:(lia) ltac:(lra)) as [H _].
  rewrite Rpower10_3 in H. lra.
Qed.

(** C09, integrated. *)
Theorem C09_one_point_spectra_linear : forall sel c e p1 p2 N k1, selector sel ->
  ops_forward_raw sel (scale_M c e) p1 p2 N k1 = c * ops_forward_raw sel e p1 p2 N k1.
Proof. exact forward_raw_linear. Qed.
Print Assumptions C09_one_point_spectra_linear.

Theorem C09_auto_spectra_nonnegative : forall sel c e p1 p2 N k1, auto sel ->
  0 < k1 -> p1 < p2 -> sensible e -> 0 <= c ->
  0 <= ops_forward_raw sel (scale_M c e) p1 p2 N k1.
Proof. exact scaled_auto_nonneg. Qed.
Print Assumptions C09_auto_spectra_nonnegative.

Example C09_integrated_case :
  ops_forward_raw phi13 (scale_M 7 demo) (-3) 3 100 2 = 7 * ops_forward_raw phi13 demo (-3) 3 100 2
  /\ 0 <= ops_forward_raw phi22 (scale_M 7 demo) (-3) 3 100 2.
Proof.
  split.
  - apply C09_one_point_spectra_linear. unfold selector. tauto.
  - apply C09_auto_spectra_nonnegative; try lra; [unfold auto; tauto|apply demo_sensible].
Qed.

(** C17 *)
Theorem C17_grid_sound : forall p1 p2 N, p1 < p2 ->
  let g := sym_grid p1 p2 N in
  length g = (2 * N + 1)%nat /\ increasing g /\ symmetric g /\ In 0 g
  /\ ((2 <= N)%nat -> first_node g = - Rpower 10 p2 /\ last_node g = Rpower 10 p2).
Proof. exact grid_sound. Qed.
Print Assumptions C17_grid_sound.

Theorem C17_rule_linear : forall g2 g3 f h a b,
  quad23 g2 g3 (fun x y => a * f x y + b * h x y) = a * quad23 g2 g3 f + b * quad23 g2 g3 h.
Proof. exact quad23_linear. Qed.
Print Assumptions C17_rule_linear.

Theorem C17_rule_monotone : forall g2 g3 f h, increasing g2 -> increasing g3 ->
  (forall x y, In x g2 -> In y g3 -> f x y <= h x y) -> quad23 g2 g3 f <= quad23 g2 g3 h.
Proof. exact quad23_mono. Qed.
Print Assumptions C17_rule_monotone.

Theorem C17_rule_exact_on_bilinear : forall g2 g3 a b c d,
  let X := last_node g2 - first_node g2 in
  let Y := last_node g3 - first_node g3 in
  let X2 := (last_node g2 ^ 2 - first_node g2 ^ 2) / 2 in
  let Y2 := (last_node g3 ^ 2 - first_node g3 ^ 2) / 2 in
  quad23 g2 g3 (fun x y => a + b * x + c * y + d * x * y)
  = a * X * Y + b * X2 * Y + c * X * Y2 + d * X2 * Y2.
Proof. exact quad23_bilinear. Qed.
Print Assumptions C17_rule_exact_on_bilinear.

Theorem C17_rule_reflection_invariant : forall g2 g3 f, symmetric g2 -> symmetric g3 ->
  quad23 g2 g3 (fun x y => f (- x) y) = quad23 g2 g3 f
  /\ quad23 g2 g3 (fun x y => f x (- y)) = quad23 g2 g3 f.
Proof. exact quad23_reflect. Qed.
Print Assumptions C17_rule_reflection_invariant.

Example C17_case :
  length (sym_grid (-3) 3 100) = 201%nat /\ In 0 (sym_grid (-3) 3 100)
  /\ quad23 [-1; 0; 2] [0; 1] (fun x y => 1 + 2 * x + 3 * y + 4 * x * y) = 27/2.
Proof.
  destruct (C17_grid_sound (-3) 3 100 ltac:(lra)) as (H & _ & _ & H0 & _).
  split; [exact H|]. split; [exact H0|]. rewrite C17_rule_exact_on_bilinear.
  unfold last_node, first_node. simpl. field.
Qed.

(** C18 *)
Theorem C18_auto_spectra_positive : forall sel e p1 p2 N k1, auto sel ->
  p1 < p2 -> (2 <= N)%nat -> 0 < k1 ->
  0 < k1 * (/ 1000000000000 * (2 * Rpower 10 p2)^2) <= ops_forward sel e p1 p2 N k1.
Proof. exact auto_positive. Qed.
Print Assumptions C18_auto_spectra_positive.

Theorem C18_output_rows_positive : forall e p1 p2 N k1s i x,
  p1 < p2 -> (2 <= N)%nat -> (forall k, In k k1s -> 0 < k) -> (i < 3)%nat ->
  In x (nth i (ops_output e p1 p2 N k1s) []) -> 0 < x.
Proof. exact output_positive. Qed.
Print Assumptions C18_output_rows_positive.

Example C18_case : 0 < ops_forward phi33 demo (-3) 3 100 (1/10).
Proof.
  destruct (C18_auto_spectra_positive phi33 demo (-3) 3 100 (1/10)) as [H1 H2];
    [unfold auto; tauto|lra|lia|lra|lra].
Qed.

(** C19 *)
Theorem C19_coherence_in_unit_interval : forall g sel e k1 r,
  increasing g -> (2 <= length g)%nat -> auto sel ->
  0 <= coherence_on g sel e k1 r <= 1
  /\ coherence_on g sel e k1 0 = 1
  /\ coherence_on g sel e k1 (- r) = coherence_on g sel e k1 r.
Proof. exact coherence_laws. Qed.
Print Assumptions C19_coherence_in_unit_interval.

(** Every call of a problem's coherence evaluation, after any history. *)
Theorem C19_every_evaluation : forall q1 q2 N L0 h sel e k1 r,
  (forall e' k' r', In (e', k', r') h -> 0 < oe_L e') -> 0 < oe_L e -> auto sel ->
  0 <= fst (spectral_coherence (coh_run (calib_coh_cache q1 q2 N L0) h) sel e k1 r) <= 1.
Proof. exact coherence_any_history. Qed.
Print Assumptions C19_every_evaluation.

Example C19_case :
  0 <= fst (spectral_coherence (coh_run (calib_coh_cache (-3) 3 100 1) [(demo, 1, 2)]) phi22 demo 3 4) <= 1.
Proof.
  apply C19_every_evaluation; simpl; try lra; [|unfold auto; tauto].
  intros e' k' r' [H|[]]. inversion H. simpl. lra.
Qed.

(** C66: two settings which differ in the requested sizes and activations give the
    same network, so some request is not honoured. *)
Theorem C66_settings_reach_network_refuted :
  exists (p : nn_params nat) cfg, ops_network 0%nat p true = Ok cfg
  /\ tc_sizes cfg <> map Z.to_nat (hidden_layer_sizes p) /\ tc_acts cfg <> nn_activations p.
Proof. exact settings_ignored. Qed.
Print Assumptions C66_settings_reach_network_refuted.

Theorem C66_settings_ignored : forall A (relu : A) n h l1 l2 a1 a2 nu,
  ops_network relu (NNP n h l1 a1) nu = ops_network relu (NNP n h l2 a2) nu.
Proof. exact network_ignores. Qed.
Print Assumptions C66_settings_ignored.

(** C66, what does reach the network: the number of layers, the single width and the
    request to learn the exponent, which starts at -1/3.  Missing: the list of widths and
    the activations. *)
Theorem C66_built_partial : forall A (relu : A) p learn c,
  ops_network relu p learn = Ok c ->
  exists z, nlayers p = IsInt z /\ (0 < z)%Z /\ (0 < hidden_layer_size p)%Z
  /\ tc_sizes c = repeat (Z.to_nat (hidden_layer_size p)) (Z.to_nat z)
  /\ tc_acts c = repeat relu (Z.to_nat z)
  /\ tc_learn_nu c = learn /\ tc_nu c = -1/3.
Proof. exact network_built. Qed.
Print Assumptions C66_built_partial.

Example C66_built_case : exists c,
  ops_network 0%nat (NNP (IsInt 2) 10 [3%Z] [1%nat]) false = Ok c
  /\ tc_sizes c = [10; 10]%nat /\ tc_learn_nu c = false.
Proof. eexists. split; [reflexivity|]. split; reflexivity. Qed.

Example C66_case : ops_network 0%nat (NNP (IsInt 2) 10 [3%Z; 5%Z] [1%nat; 2%nat]) true
  = ops_network 0%nat (NNP (IsInt 2) 10 [] []) true.
Proof. apply C66_settings_ignored. Qed.

(** C67: whatever the model and k1, some separation and some earlier evaluation
    change the coherence reported by a calibration problem. *)
Theorem C67_coherence_memoryless_refuted : forall q1 q2 N L0 e k1,
  0 < oe_L e -> k1 <> 0 -> spanwise_even e ->
  exists r h,
    fst (spectral_coherence (coh_run (calib_coh_cache q1 q2 N L0) h) phi11 e k1 r)
    <> fst (spectral_coherence (calib_coh_cache q1 q2 N L0) phi11 e k1 r).
Proof. exact coherence_remembers. Qed.
Print Assumptions C67_coherence_memoryless_refuted.

(** A module built with use_coherence=True has no such memory. *)
Theorem C67_memoryless_with_own_grid : forall q1 q2 N L0 h sel e k1 r,
  spectral_coherence (coh_run (coh_cache_init true q1 q2 N L0) h) sel e k1 r
  = spectral_coherence (coh_cache_init true q1 q2 N L0) sel e k1 r.
Proof. exact coherence_own_grid. Qed.
Print Assumptions C67_memoryless_with_own_grid.

Example C67_case : exists r h,
    fst (spectral_coherence (coh_run (calib_coh_cache (-3) 3 100 1) h) phi11 demo 1 r)
    <> fst (spectral_coherence (calib_coh_cache (-3) 3 100 1) phi11 demo 1 r).
Proof. apply C67_coherence_memoryless_refuted; [simpl; lra|lra|apply demo_sensible]. Qed.

(** C72 *)
Theorem C72_drd_amplitude_refuted :
  exists L T M ustar zref b k1 k2 k3 i j, 0 < L /\ 0 < T /\ 0 < M /\ 0 < ustar /\ 0 < zref /\ k1 <> 0 /\
  let '(E0, Ls, _) := drd_load L T M ustar zref in
  covariance (times_1j (sheared_kernel E0 Ls b k1 k2 k3)) i j
  <> RtoC (ustar^2 * zref^3
           * entry (power_spectra_raw
                      (forward_energy vklike_energy M L b (k1*zref) (k2*zref) (k3*zref))
                      b (k1*zref) (k2*zref) (k3*zref)) i j).
Proof. exact drd_mismatch. Qed.
Print Assumptions C72_drd_amplitude_refuted.

(** The amplitude is off by exactly 4 pi L^(-5/3), for every fitted model. *)
Theorem C72_drd_amplitude_factor : forall L T M ustar zref b k1 k2 k3 i j,
  0 < L -> 0 <= M -> 0 < zref -> k1 <> 0 ->
  let '(E0, Ls, _) := drd_load L T M ustar zref in
  covariance (times_1j (sheared_kernel E0 Ls b k1 k2 k3)) i j
  = RtoC (4 * PI * Rpower L (-5/3)
          * (ustar^2 * zref^3
             * entry (power_spectra_raw
                        (forward_energy vklike_energy M L b (k1*zref) (k2*zref) (k3*zref))
                        b (k1*zref) (k2*zref) (k3*zref)) i j)).
Proof. exact drd_amplitude. Qed.
Print Assumptions C72_drd_amplitude_factor.

(** It is the fitted amplitude for one value of the fitted length scale only. *)
Theorem C72_factor_is_one_iff : forall L, 0 < L ->
  (4 * PI * Rpower L (-5/3) = 1 <-> L = Rpower (4 * PI) (3/5)).
Proof. exact drd_factor_unit. Qed.
Print Assumptions C72_factor_is_one_iff.

Example C72_case :
  let '(E0, Ls, _) := drd_load (7/10) 3 (1/5) (2/5) 80 in
  covariance (times_1j (sheared_kernel E0 Ls 2 (1/100) (1/50) (-1/40))) X1 X3
  = RtoC (4 * PI * Rpower (7/10) (-5/3)
          * ((2/5)^2 * 80^3
             * entry (power_spectra_raw
                        (forward_energy vklike_energy (1/5) (7/10) 2 (1/100*80) (1/50*80) (-1/40*80))
                        2 (1/100*80) (1/50*80) (-1/40*80)) X1 X3)).
Proof. apply (C72_drd_amplitude_factor (7/10) 3 (1/5) (2/5) 80 2 (1/100) (1/50) (-1/40) X1 X3); lra. Qed.

(** C73: the diagnostic fails after every history of calls. *)
Theorem C73_get_div_available_refuted : forall A (h : list ops_call) (v : A),
  get_div (ops_attrs h) v = Err AttributeError.
Proof. exact get_div_fails. Qed.
Print Assumptions C73_get_div_available_refuted.

Example C73_case : get_div (ops_attrs [CallExpScales; CallForward; CallPowerSpectra]) 1 = Err AttributeError.
Proof. apply C73_get_div_available_refuted. Qed.

(** C74: a second call of PowerSpectra returns other values. *)
Theorem C74_power_spectra_repeatable_refuted :
  exists E0 beta k1 k2 k3, 0 < k1 /\
  fst (power_spectra_call (snd (power_spectra_call E0 beta k1 k2 k3)) beta k1 k2 k3)
  <> fst (power_spectra_call E0 beta k1 k2 k3).
Proof. exact power_spectra_not_repeatable. Qed.
Print Assumptions C74_power_spectra_repeatable_refuted.

(** The n-th call sees the energy divided by (4 pi)^(n-1). *)
Theorem C74_repeated_calls_decay : forall n E0 beta k1 k2 k3,
  fst (power_spectra_call (Nat.iter n (fun E => snd (power_spectra_call E beta k1 k2 k3)) E0) beta k1 k2 k3)
  = power_spectra (E0 / (4 * PI) ^ n) beta k1 k2 k3.
Proof. exact repeated_calls. Qed.
Print Assumptions C74_repeated_calls_decay.

Example C74_case : fst (power_spectra_call (Nat.iter 2 (fun E => snd (power_spectra_call E 1 1 2 3)) 5) 1 1 2 3)
  = power_spectra (5 / (4 * PI) ^ 2) 1 1 2 3.
Proof. apply C74_repeated_calls_decay. Qed.

(** C75: the requested coherence grid is never the one used. *)
Theorem C75_coherence_grid_honoured_refuted : forall q1 q2 N L0 L, N <> 100%nat ->
  coh_grid_for (calib_coh_cache q1 q2 N L0) L <> map (fun x => x / L0) (sym_grid q1 q2 N)
  /\ coh_grid_for (calib_coh_cache q1 q2 N L0) L = map (fun x => x * (1 / L)) (sym_grid (-3) 3 100).
Proof. exact requested_grid_ignored. Qed.
Print Assumptions C75_coherence_grid_honoured_refuted.

Example C75_case : coh_grid_for (calib_coh_cache (-2) 2 50 1) 1 <> map (fun x => x / 1) (sym_grid (-2) 2 50).
Proof. apply (C75_coherence_grid_honoured_refuted (-2) 2 50 1 1). discriminate. Qed.

(** C76 *)
Theorem C76_clipping_error_bounded : forall sel e p1 p2 N k1,
  (auto sel \/ sel = phi13) -> 0 < k1 -> p1 < p2 -> (2 <= N)%nat -> sensible e ->
  Rabs (ops_forward sel e p1 p2 N k1 - ops_forward_raw sel e p1 p2 N k1)
  <= k1 * (/ 1000000000000 * (2 * Rpower 10 p2)^2).
Proof. exact clip_error. Qed.
Print Assumptions C76_clipping_error_bounded.

Example C76_case :
  Rabs (ops_forward phi13 demo (-3) 3 100 1 - ops_forward_raw phi13 demo (-3) 3 100 1) <= 4 / 1000000.
Proof.
  eapply Rle_trans; [apply C76_clipping_error_bounded; try lra; try lia; [tauto|apply demo_sensible]|].
  rewrite Rpower10_3. lra.
Qed.

(** C77 *)
Theorem C77_tensor_similarity : forall M L beta k1 k2 k3 i j, 0 < L -> k1 <> 0 ->
  entry (power_spectra_raw (forward_energy vklike_energy M L beta k1 k2 k3) beta k1 k2 k3) i j
  = Rpower L (11/3)
    * entry (power_spectra_raw (forward_energy vklike_energy M 1 beta (k1*L) (k2*L) (k3*L))
                               beta (k1*L) (k2*L) (k3*L)) i j.
Proof. exact tensor_similarity. Qed.
Print Assumptions C77_tensor_similarity.

Example C77_case :
  entry (power_spectra_raw (forward_energy vklike_energy 2 3 1 (1/2) 1 (-1)) 1 (1/2) 1 (-1)) X1 X2
  = Rpower 3 (11/3)
    * entry (power_spectra_raw (forward_energy vklike_energy 2 1 1 (1/2*3) (1*3) (-1*3)) 1 (1/2*3) (1*3) (-1*3)) X1 X2.
Proof. apply C77_tensor_similarity; lra. Qed.
