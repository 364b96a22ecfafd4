(** Property theorems about energy spectra, lifetimes, networks and scales. *)

From Coq Require Import Reals Lra List Arith ZArith Lia.
From Verif Require Import Prelude RdtModel SpectraModel SpectraSpec SpectraProofs RdtProofs.
Import ListNotations.
Open Scope R_scope.

(** C10 *)
Theorem C10_energy_spectra_agree : forall x, 0 < x ->
  vklike_energy x = vk_energy x /\ learnable_energy 4 (17/6) x = vk_energy x.
Proof. exact (fun x H => conj (vklike_form x H) (learnable_is_vk x H)). Qed.
Print Assumptions C10_energy_spectra_agree.

Theorem C10_energy_positive_below_inertial : forall x, 0 < x ->
  0 < vk_energy x /\ vk_energy x < Rpower x (-5/3).
Proof. exact (fun x H => conj (vk_energy_pos x H) (vk_below_inertial x H)). Qed.
Print Assumptions C10_energy_positive_below_inertial.

Theorem C10_ratio_increasing : forall x y, 0 < x -> x < y -> inertial_ratio x < inertial_ratio y.
Proof. exact inertial_ratio_increasing. Qed.
Print Assumptions C10_ratio_increasing.

(** The ratio tends to 1 at a quadratic rate. *)
Theorem C10_ratio_towards_one : forall x, 0 < x ->
  1 - 17/6 / x^2 <= inertial_ratio x < 1.
Proof. exact (fun x H => conj (inertial_ratio_lower x H) (inertial_ratio_lt_1 x H)). Qed.
Print Assumptions C10_ratio_towards_one.

Example C10_case : vklike_energy 3 = vk_energy 3 /\ inertial_ratio 2 < inertial_ratio 3.
Proof. split; [apply C10_energy_spectra_agree; lra|apply C10_ratio_increasing; lra]. Qed.

(** C11 *)
Theorem C11_lifetime_ignores_signs : forall env Ws acts nu s1 s2 s3 k1 k2 k3,
  le_net env = taunet_forward Ws acts nu ->
  (s1 = 1 \/ s1 = -1) -> (s2 = 1 \/ s2 = -1) -> (s3 = 1 \/ s3 = -1) ->
  eddy_lifetime env (s1*k1) (s2*k2) (s3*k3) = eddy_lifetime env k1 k2 k3.
Proof. exact lifetime_sign_blind. Qed.
Print Assumptions C11_lifetime_ignores_signs.

Example C11_case : let Ws := [[[1;2;3]]; [[1];[-1];[2]]] in
  let env := LEnv TAUNET 2 3 (fun x => x) 0 0 (taunet_forward Ws [exp] (1/2)) in
  eddy_lifetime env (-1*5) (1*6) (-1*7) = eddy_lifetime env 5 6 7 /\ is_ok (eddy_lifetime env 5 6 7).
Proof.
  intros Ws env. split.
  - apply (C11_lifetime_ignores_signs env Ws [exp] (1/2)); auto.
  - eexists. unfold eddy_lifetime, env, Ws. simpl. reflexivity.
Qed.

(** C12 *)
Theorem C12_rational_head_positive : forall nu x, x <> 0 ->
  exists r, rational_x nu x = Fin r /\ 0 < r
  /\ r = Rpower (Rabs x) (nu - 2/3) / Rpower (1 + x^2) (nu/2).
Proof. exact rational_x_positive. Qed.
Print Assumptions C12_rational_head_positive.

Theorem C12_rational_head_bounded : forall nu x, x <> 0 -> 0 <= nu ->
  rational nu x <= Rpower (Rabs x) (-2/3).
Proof. exact rational_le. Qed.
Print Assumptions C12_rational_head_bounded.

(** For the exponents below zero (the default is -1/3) the two-thirds law is a
    lower bound. *)
Theorem C12_rational_head_lower : forall nu x, x <> 0 -> nu <= 0 ->
  Rpower (Rabs x) (-2/3) <= rational nu x.
Proof. exact rational_ge. Qed.
Print Assumptions C12_rational_head_lower.

Theorem C12_rational_head_two_thirds : forall x, rational 0 x = Rpower (Rabs x) (-2/3).
Proof. exact rational_nu0. Qed.
Print Assumptions C12_rational_head_two_thirds.

(** At a zero argument the head is infinite for every exponent below 2/3. *)
Theorem C12_rational_head_zero_argument : forall nu, nu < 2/3 -> rational_x nu 0 = PInf.
Proof. exact rational_x_zero. Qed.
Print Assumptions C12_rational_head_zero_argument.

Example C12_case : exists r, rational_x (-1/3) (-2) = Fin r /\ 0 < r.
Proof.
  destruct (C12_rational_head_positive (-1/3) (-2)) as [r [H1 [H2 _]]]; [lra|]. exists r. auto.
Qed.

(** C13 *)
Theorem C13_two_thirds_homogeneous_in_k : forall env c k1 k2 k3,
  le_type env = TWOTHIRD -> 0 < le_L env -> 0 < c -> kk_of k1 k2 k3 <> 0 ->
  exists t, eddy_lifetime env k1 k2 k3 = Ok t /\
            eddy_lifetime env (c*k1) (c*k2) (c*k3) = Ok (Rpower c (-2/3) * t).
Proof. exact twothird_scale. Qed.
Print Assumptions C13_two_thirds_homogeneous_in_k.

Theorem C13_two_thirds_homogeneous_in_L : forall env c L T k1 k2 k3,
  le_type env = TWOTHIRD -> 0 < L -> 0 < c -> kk_of k1 k2 k3 <> 0 ->
  exists t, eddy_lifetime (with_scales env L T) k1 k2 k3 = Ok t /\
            eddy_lifetime (with_scales env (c*L) T) k1 k2 k3 = Ok (Rpower c (-2/3) * t).
Proof. exact twothird_length_scale. Qed.
Print Assumptions C13_two_thirds_homogeneous_in_L.

(** Every lifetime model is linear in the time scale. *)
Theorem C13_linear_in_time_scale : forall env L T c k1 k2 k3 t,
  eddy_lifetime (with_scales env L T) k1 k2 k3 = Ok t ->
  eddy_lifetime (with_scales env L (c*T)) k1 k2 k3 = Ok (c * t).
Proof. exact lifetime_linear_T. Qed.
Print Assumptions C13_linear_in_time_scale.

Theorem C13_constant_lifetime : forall env k1 k2 k3, le_type env = CONST ->
  eddy_lifetime env k1 k2 k3 = Ok (le_T env).
Proof. exact const_lifetime. Qed.
Print Assumptions C13_constant_lifetime.

Example C13_case : let env := LEnv TWOTHIRD 2 3 (fun x => x) 0 0 (fun _ => Err RuntimeError) in
  exists t, eddy_lifetime env 1 2 3 = Ok t /\ eddy_lifetime env (8*1) (8*2) (8*3) = Ok (Rpower 8 (-2/3) * t).
Proof. apply C13_two_thirds_homogeneous_in_k; simpl; try lra. reflexivity. unfold kk_of. lra. Qed.

(** C14 is false of the code: the scales enter the fitted line and are then
    applied once more. *)
Theorem C14_mann_approximation_scales_once_refuted :
  exists A alpha L T k, 0 < A /\ 0 < L /\ 0 < T /\ 0 < k /\
  mann_approx_lifetime (fun x => A * Rpower x alpha) L T L T k
  <> T * (A * Rpower (L * k) alpha).
Proof. exact mann_approx_refuted. Qed.
Print Assumptions C14_mann_approximation_scales_once_refuted.

(** Exact deviation: a spurious factor T * L^alpha for every power law. *)
Theorem C14_mann_approximation_factor : forall A alpha L T k, 0 < A -> 0 < L -> 0 < T -> 0 < k ->
  mann_approx_lifetime (fun x => A * Rpower x alpha) L T L T k
  = (T * Rpower L alpha) * (T * (A * Rpower (L * k) alpha)).
Proof. exact mann_approx_double_scaling. Qed.
Print Assumptions C14_mann_approximation_factor.

Example C14_case : mann_approx_lifetime (fun x => 2 * Rpower x (-2/3)) 1 3 1 3 5
  = (3 * Rpower 1 (-2/3)) * (3 * (2 * Rpower (1 * 5) (-2/3))).
Proof. apply C14_mann_approximation_factor; lra. Qed.

(** C15 *)
Theorem C15_calibration_scales : forall L G S, 0 < L -> 0 < G -> 0 < S ->
  exists p, calib_initial_params L G S = Ok p /\ exp_scales p = (L, G, S).
Proof. exact calib_scales. Qed.
Print Assumptions C15_calibration_scales.

Theorem C15_calibration_scales_rejected : forall L G S, ~ (0 < L /\ 0 < G /\ 0 < S) ->
  calib_initial_params L G S = Err AssertionError.
Proof. exact calib_scales_reject. Qed.
Print Assumptions C15_calibration_scales_rejected.

Example C15_case : exists p, calib_initial_params (59/100) (39/10) (32/10) = Ok p
  /\ exp_scales p = (59/100, 39/10, 32/10).
Proof. apply C15_calibration_scales; lra. Qed.

(** C16 is false of the code: log10 is taken on entry and exp on exit. *)
Theorem C16_standalone_scales_refuted : exists L G S p, 0 < L /\ 0 < G /\ 0 < S /\
  ops_initial_params L G S = Ok p /\ exp_scales p <> (L, G, S).
Proof. exact ops_scales_refuted. Qed.
Print Assumptions C16_standalone_scales_refuted.

(** The scales come back only when all three equal 1. *)
Theorem C16_standalone_scales_only_unit : forall L G S, 0 < L -> 0 < G -> 0 < S ->
  exists p, ops_initial_params L G S = Ok p /\
  (exp_scales p = (L, G, S) <-> L = 1 /\ G = 1 /\ S = 1).
Proof. exact ops_scales_only_unit. Qed.
Print Assumptions C16_standalone_scales_only_unit.

Example C16_case : exists p, ops_initial_params 2 3 4 = Ok p /\
  (exp_scales p = (2, 3, 4) <-> 2 = 1 /\ 3 = 1 /\ 4 = 1).
Proof. apply C16_standalone_scales_only_unit; lra. Qed.

(** C21: accepted exactly when documented, ValueError otherwise. *)
Theorem C21_network_accepts_documented : forall A (relu : A) n sz act learn nu,
  (forall z hs acts, n = IsInt z -> (0 < z)%Z -> sizes_accepted z sz hs -> acts_accepted relu z act acts ->
     exists c, taunet_init relu n sz act learn nu = Ok c /\ tc_sizes c = hs /\ tc_acts c = acts
               /\ tc_learn_nu c = learn /\ tc_nu c = nu)
  /\ (forall c, taunet_init relu n sz act learn nu = Ok c ->
       exists z, n = IsInt z /\ (0 < z)%Z /\ sizes_accepted z sz (tc_sizes c)
                 /\ acts_accepted relu z act (tc_acts c))
  /\ (forall e, taunet_init relu n sz act learn nu = Err e -> e = ValueError).
Proof. exact taunet_init_documented. Qed.
Print Assumptions C21_network_accepts_documented.

(** C21: the layers chain from 3 inputs to 3 outputs, one more than hidden layers. *)
Theorem C21_network_layers_chain : forall A (relu : A) n sz act learn nu c,
  taunet_init relu n sz act learn nu = Ok c ->
  chain 3 (tc_layers c) 3 /\ length (tc_layers c) = S (length (tc_sizes c))
  /\ length (tc_acts c) = length (tc_sizes c)
  /\ (forall p, In p (tc_layers c) -> (0 < fst p)%nat /\ (0 < snd p)%nat).
Proof. exact taunet_layers. Qed.
Print Assumptions C21_network_layers_chain.

(** C21: number of trainable scalars. *)
Theorem C21_network_parameter_count : forall A (relu : A) n sz act learn nu c,
  taunet_init relu n sz act learn nu = Ok c ->
  exists h hs, tc_sizes c = h :: hs /\
  num_params c = (3 * h + sum_adjacent (h :: hs) + 3 * last (h :: hs) 0
                  + (if learn then 1 else 0))%nat.
Proof. exact taunet_count. Qed.
Print Assumptions C21_network_parameter_count.

Example C21_case : exists c, taunet_init tt (IsInt 2) (SizeList [10; 7]%Z) ActNone true 0 = Ok c
  /\ num_params c = (3*10 + 10*7 + 3*7 + 1)%nat
  /\ taunet_init tt (IsInt 2) (SizeList [10]%Z) ActNone true 0 = Err ValueError
  /\ taunet_init tt (IsInt 0) (SizeInt 10%Z) ActNone true 0 = Err ValueError.
Proof. eexists. split; [reflexivity|]. repeat split. Qed.

(** C22: no shape mismatch for any accepted specification. *)
Theorem C22_forward_shape_correct : forall A (relu : A) n sz act learn nu c Ws acts k,
  taunet_init relu n sz act learn nu = Ok c ->
  Forall2 (fun (l : nat * nat) W => has_shape (snd l) (fst l) W) (tc_layers c) Ws ->
  length acts = length (tc_acts c) -> length k = 3%nat ->
  is_ok (taunet_forward Ws acts nu k).
Proof. exact taunet_shape_correct. Qed.
Print Assumptions C22_forward_shape_correct.

(** C22: the network with zero weights is the rational law of |k|. *)
Theorem C22_zero_weights_rational_law : forall Ws acts nu k t, Forall zero_weights Ws ->
  taunet_forward Ws acts nu k = Ok t -> t = rational nu (sqrt (Rsum (map (fun a => a^2) k))).
Proof. exact taunet_zero_weights. Qed.
Print Assumptions C22_zero_weights_rational_law.

Example C22_case : taunet_forward [[[0;0;0]; [0;0;0]]; [[0;0];[0;0];[0;0]]] [exp] (1/2) [1;-2;2]
  = Ok (rational (1/2) (sqrt (Rsum (map (fun a => a^2) [1;-2;2])))).
Proof.
  destruct (C22_forward_shape_correct unit tt (IsInt 1) (SizeInt 2) ActNone false (1/2)
    (TauCfg [2%nat] (layer_shapes [2%nat]) [tt] false (1/2))
    [[[0;0;0]; [0;0;0]]; [[0;0];[0;0];[0;0]]] [exp] [1;-2;2]) as [t Ht].
  - reflexivity.
  - cbn. repeat constructor.
  - reflexivity.
  - reflexivity.
  - rewrite Ht. f_equal. apply (C22_zero_weights_rational_law [[[0;0;0]; [0;0;0]]; [[0;0];[0;0];[0;0]]] [exp]); [|assumption].
    unfold zero_weights. repeat constructor.
Qed.

(** C61 is false of the code: the simulation evaluates the network at
    k * h_ref, calibration at (k * h_ref) * LengthScale. *)
Theorem C61_simulated_lifetime_is_fitted_refuted :
  exists (Ws : list weights) (acts : list (R -> R)) (nu L h_ref T k1 k2 k3 : R)
    (env : lifetime_env) (net : R -> R -> R -> R),
  0 < L /\ 0 < h_ref /\ 0 < T /\
  le_type env = TAUNET /\ le_L env = L /\ le_T env = T /\ le_net env = taunet_forward Ws acts nu /\
  (forall x y z, taunet_forward Ws acts nu [x; y; z] = Ok (net x y z)) /\
  eddy_lifetime env (k1 * h_ref) (k2 * h_ref) (k3 * h_ref) <> Ok (drd_sim_tau net T h_ref k1 k2 k3).
Proof. exact drd_lifetime_mismatch. Qed.
Print Assumptions C61_simulated_lifetime_is_fitted_refuted.

(** The two agree when the fitted length scale is 1. *)
Theorem C61_simulated_lifetime_unit_length_scale :
  forall (netf : list R -> res R) net T h_ref k1 k2 k3 env,
  le_type env = TAUNET -> le_L env = 1 -> le_T env = T -> le_net env = netf ->
  (forall x y z, netf [x; y; z] = Ok (net x y z)) ->
  eddy_lifetime env (k1 * h_ref) (k2 * h_ref) (k3 * h_ref) = Ok (drd_sim_tau net T h_ref k1 k2 k3).
Proof. exact drd_lifetime_unit_length. Qed.
Print Assumptions C61_simulated_lifetime_unit_length_scale.

Example C61_case : let netf := fun k : list R => Ok (Rsum k) in
  eddy_lifetime (LEnv TAUNET 1 3 (fun x => x) 0 0 netf) (1*40) (2*40) (3*40)
  = Ok (drd_sim_tau (fun x y z => x + (y + (z + 0))) 3 40 1 2 3).
Proof.
  intro netf. apply (C61_simulated_lifetime_unit_length_scale netf); reflexivity.
Qed.
