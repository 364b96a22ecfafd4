(** Property theorems about the numerical integration over the cross-stream wave
    numbers. *)

From Coq Require Import Reals List Arith Lra Lia.
From Coquelicot Require Import Coquelicot.
From Verif Require Import Prelude RdtModel SpectraModel OpsModel RdtProofs SpectraProofs OpsSpec OpsProofs
  QuadSpec QuadProofs QuadTensor QuadMore.
Import ListNotations.
Open Scope R_scope.

(** C125: for a model with continuous ingredients the exact cross-stream integral of
    every tensor entry exists and the quadrature of the code converges to it. *)
Theorem C125_unclipped_converges : forall sel e p2 k1, selector sel -> k1 <> 0 -> smooth_model e k1 ->
  box_integrable (undelivered sel e k1) (Rpower 10 p2) /\
  refines_to (fun p1 N => ops_forward_raw sel e p1 p2 N k1)
             (k1 * box_integral (undelivered sel e k1) (Rpower 10 p2)).
Proof. exact raw_converges. Qed.
Print Assumptions C125_unclipped_converges.

(** C125: the delivered auto-spectra and uw cross-spectrum come arbitrarily close to
    the exact integral, up to the clipping constant times the area. *)
Theorem C125_output_close : forall sel e p2 k1, (auto sel \/ sel = phi13) -> 0 < k1 -> smooth_model e k1 -> sensible e ->
  forall eps, 0 < eps -> exists P, forall p1, p1 <= P -> exists N0, forall N, (N0 <= N)%nat ->
  Rabs (ops_forward sel e p1 p2 N k1 - k1 * box_integral (undelivered sel e k1) (Rpower 10 p2))
  <= eps + k1 * (/ 10^12 * (2 * Rpower 10 p2)^2).
Proof. exact output_near'. Qed.
Print Assumptions C125_output_close.

(** C125: rows clipped from below converge to the integral of the floored entry. *)
Theorem C125_output_limit : forall sel e p2 k1, (auto sel \/ sel = phi12 \/ sel = phi23) -> k1 <> 0 -> smooth_model e k1 ->
  refines_to (fun p1 N => ops_forward sel e p1 p2 N k1)
             (k1 * box_integral (floored (/ 10^12) (undelivered sel e k1)) (Rpower 10 p2)).
Proof. exact output_floored. Qed.
Print Assumptions C125_output_limit.

(** C125: the lifetimes other than the network are continuous ... *)
Theorem C125_lifetimes_continuous : forall env k1 (beta : R -> R -> R), le_type env <> TAUNET -> 0 < le_L env -> k1 <> 0 ->
  (le_type env = MANN -> forall t, t < 0 -> continuity_pt (le_hyp env) t /\ 0 < le_hyp env t) ->
  (forall k2 k3, eddy_lifetime env k1 k2 k3 = Ok (beta k2 k3)) ->
  plane_continuous beta.
Proof. exact lifetime_continuous. Qed.
Print Assumptions C125_lifetimes_continuous.

(** C125: ... and so are both energy spectra. *)
Theorem C125_energy_continuous : forall p q x, 0 < x ->
  continuity_pt vklike_energy x /\ continuity_pt (learnable_energy p q) x.
Proof. exact energy_continuous. Qed.
Print Assumptions C125_energy_continuous.

Example C125_case : let env := LEnv TWOTHIRD 2 3 (fun _ => 0) 0 0 (fun _ => Err RuntimeError) in
  let e := OpsEnv 2 5 vklike_energy (fun k1 k2 k3 => 3 * Rpower (2 * sqrt (kk_of k1 k2 k3)) (-2/3)) in
  (forall k2 k3, eddy_lifetime env 1 k2 k3 = Ok (oe_beta e 1 k2 k3)) /\ smooth_model e 1 /\ sensible e.
Proof.
  cbv zeta.
  set (env := LEnv TWOTHIRD 2 3 (fun _ => 0) 0 0 (fun _ => Err RuntimeError)).
  set (e := OpsEnv 2 5 vklike_energy (fun k1 k2 k3 => 3 * Rpower (2 * sqrt (kk_of k1 k2 k3)) (-2/3))).
  assert (H : forall k2 k3, eddy_lifetime env 1 k2 k3 = Ok (oe_beta e 1 k2 k3)) by (intros; reflexivity).
  split; [exact H|]. split.
  - split; [cbn; lra|]. split; [intros x Hx; apply (C125_energy_continuous 0 0 x Hx)|].
    apply (C125_lifetimes_continuous env 1 (oe_beta e 1)); [discriminate|cbn; lra|lra|discriminate|exact H].
  - split; [|split; cbn; lra]. intros x Hx. cbn. rewrite vklike_form by assumption. left. apply vk_energy_pos. assumption.
Qed.

(** C126: the coherence computed on the grid converges to the coherence of the
    floored spectral density over the square, whatever the separation. *)
Theorem C126_coherence_converges : forall sel e L p2 k1 r, auto sel -> k1 <> 0 -> 0 < L -> smooth_model e k1 ->
  refines_to (fun p1 N => fst (spectral_coherence (coh_cache_init true p1 p2 N L) sel e k1 r))
             (exact_coherence (floored (/ 10^32) (undelivered sel e k1)) (Rpower 10 p2 / L) r).
Proof. exact coherence_limit. Qed.
Print Assumptions C126_coherence_converges.

Example C126_case : smooth_model flat_model 1 /\ sensible flat_model /\ auto phi33.
Proof. split; [apply flat_smooth|]. split; [apply flat_smooth|]. unfold auto; tauto. Qed.

(** C127: more grid points per side without a smaller first node do not lead to the
    integral: there is a model for which the error stays above a positive constant. *)
Theorem C127_points_alone_refuted : exists e k1, 0 < k1 /\ smooth_model e k1 /\ sensible e /\
  forall p1 p2, p1 < p2 -> exists delta, 0 < delta /\ forall N, (2 <= N)%nat ->
  delta <= ops_forward phi33 e p1 p2 N k1 - k1 * box_integral (undelivered phi33 e k1) (Rpower 10 p2).
Proof. exact points_alone_witness. Qed.
Print Assumptions C127_points_alone_refuted.
