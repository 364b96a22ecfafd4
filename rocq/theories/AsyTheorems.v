(** Asymptotic laws of lifetimes and energy spectra (C153-C155), and continuity of
    learned lifetimes (C125). *)

From Coq Require Import Reals List Lra Lia Psatz.
From Coquelicot Require Import Coquelicot.
From Verif Require Import Prelude RdtModel SpectraModel OpsModel HypSpec HypProofs HypSeries AsyModel AsySpec AsyProofs AsyMore AsyFinal QuadSpec.
Import ListNotations.
Open Scope R_scope.

(** C153: Euler's integral is the hypergeometric function: inside the unit disc it is
    the sum of the hypergeometric series. *)
Theorem C153_series : forall z, -1 < z <= 0 ->
  is_series (gauss_term (1/3) (17/6) (4/3) z) (euler_integral z).
Proof. exact euler_series. Qed.
Print Assumptions C153_series.

(** C153: Mann's lifetime lies between the two-thirds law and a multiple of it. *)
Theorem C153_bounds : forall env k1 k2 k3, le_type env = MANN -> hypergeometric (le_hyp env) ->
  0 < le_L env -> 0 < le_T env -> 0 < wave_number k1 k2 k3 ->
  let x := le_L env * wave_number k1 k2 k3 in
  exists t, eddy_lifetime env k1 k2 k3 = Ok t
  /\ le_T env * Rpower x (-2/3) <= t <= le_T env * Rpower x (-2/3) * Rpower (1 + / x^2) (17/12).
Proof. exact mann_delivered_bounds. Qed.
Print Assumptions C153_bounds.

(** C153: smaller eddies live shorter. *)
Theorem C153_decreasing : forall env k1 k2 k3 l1 l2 l3 t u, le_type env = MANN -> hypergeometric (le_hyp env) ->
  0 < le_L env -> 0 < le_T env -> 0 < wave_number k1 k2 k3 -> wave_number k1 k2 k3 < wave_number l1 l2 l3 ->
  eddy_lifetime env k1 k2 k3 = Ok t -> eddy_lifetime env l1 l2 l3 = Ok u -> 0 < u < t.
Proof. exact mann_delivered_decreasing. Qed.
Print Assumptions C153_decreasing.

(** C153: the inertial range. *)
Theorem C153_inertial_law : forall env k1 k2 k3 t, le_type env = MANN -> hypergeometric (le_hyp env) ->
  0 < le_L env -> 0 < wave_number k1 k2 k3 -> along_ray (eddy_lifetime env) k1 k2 k3 t ->
  law_at_infinity t (-2/3) (le_T env * Rpower (le_L env * wave_number k1 k2 k3) (-2/3)).
Proof. exact mann_large_delivered. Qed.
Print Assumptions C153_inertial_law.

(** C153: the large scales, with one constant for all models and directions. *)
Theorem C153_large_scale_law : exists c0, 0 < c0 /\ forall env k1 k2 k3 t, le_type env = MANN -> hypergeometric (le_hyp env) ->
  0 < le_L env -> 0 < wave_number k1 k2 k3 -> along_ray (eddy_lifetime env) k1 k2 k3 t ->
  law_at_zero t (-1) (c0 * le_T env / (le_L env * wave_number k1 k2 k3)).
Proof. exact mann_small_delivered. Qed.
Print Assumptions C153_large_scale_law.

(** C153: continuity across the stream. *)
Theorem C153_continuous : forall env k1 (beta : R -> R -> R), le_type env = MANN -> hypergeometric (le_hyp env) ->
  0 < le_L env -> k1 <> 0 -> (forall k2 k3, eddy_lifetime env k1 k2 k3 = Ok (beta k2 k3)) -> plane_continuous beta.
Proof. exact mann_continuous. Qed.
Print Assumptions C153_continuous.

Example C153_case : let env := LEnv MANN (3/5) (39/10) euler_integral 0 0 (fun _ => Err RuntimeError) in
  hypergeometric (le_hyp env) /\ 0 < wave_number 1 2 2 /\ wave_number 1 2 2 < wave_number 2 4 4
  /\ along_ray (eddy_lifetime env) 1 2 2
       (fun c => 39/10 * mann_lifetime euler_integral (3/5 * wave_number (c*1) (c*2) (c*2))).
Proof.
  cbv zeta. split; [intros z Hz; reflexivity|]. split; [unfold wave_number; apply sqrt_lt_R0; lra|].
  split; [unfold wave_number; apply sqrt_lt_1; lra|].
  intros c Hc. apply (mann_value (LEnv MANN (3/5) (39/10) euler_integral 0 0 (fun _ => Err RuntimeError))). reflexivity.
Qed.

(** C154: with rectified units and an augmented wave vector different from 0, the
    learned lifetime follows nu - 2/3 at large and -2/3 at small scales. *)
Theorem C154_slopes_partial : forall env Ws acts nu k1 k2 k3 a t,
  le_type env = TAUNET -> le_net env = taunet_forward Ws acts nu -> List.Forall is_relu acts ->
  mlp_forward Ws acts [Rabs (le_L env * k1); Rabs (le_L env * k2); Rabs (le_L env * k3)] = Ok a ->
  nonzero_vector a -> along_ray (eddy_lifetime env) k1 k2 k3 t ->
  law_at_infinity t (-2/3) (le_T env * Rpower (sqrt (Rsum (map (fun x => x^2) a))) (-2/3))
  /\ law_at_zero t (nu - 2/3) (le_T env * Rpower (sqrt (Rsum (map (fun x => x^2) a))) (nu - 2/3)).
Proof. exact net_laws. Qed.
Print Assumptions C154_slopes_partial.

(** C154: the augmented vector of a non-zero wave vector differs from 0 when the
    weights are small. *)
Theorem C154_small_weights_partial : forall Ws acts x a, List.Forall is_relu acts -> mlp_forward Ws acts x = Ok a ->
  fold_right Rmult 1 (map row_norm Ws) < 1 -> nonzero_vector x -> nonzero_vector a.
Proof. exact small_weights. Qed.
Print Assumptions C154_small_weights_partial.

(** C154: the network which a problem builds from the user's settings starts with the
    slopes -1 at large (up to the noise added to a learned exponent, nn_modules.py
    L164-167) and -2/3 at small scales. *)
Theorem C154_built_partial : forall relu p learn c env Ws noise k1 k2 k3 t, is_relu relu ->
  ops_network relu p learn = Ok c -> fold_right Rmult 1 (map row_norm Ws) < 1 ->
  le_type env = TAUNET -> le_net env = taunet_forward Ws (tc_acts c) (tc_nu c + if learn then noise else 0) -> 0 < le_L env -> 0 < le_T env ->
  0 < wave_number k1 k2 k3 -> along_ray (eddy_lifetime env) k1 k2 k3 t ->
  slope_at_zero t (-1 + if learn then noise else 0) /\ slope_at_infinity t (-2/3).
Proof. exact built_slopes. Qed.
Print Assumptions C154_built_partial.

Example C154_built_case : exists c, ops_network (Rmax 0) (NNP (IsInt 1) 2 [] []) true = Ok c /\ tc_acts c = [Rmax 0].
Proof. eexists. split; reflexivity. Qed.

(** C154 fails for other activations: a constructible network with a continuous
    activation whose lifetime does not decay with -2/3. *)
Theorem C154_slopes_refuted : exists r env Ws acts nu t, is_relu r
  /\ le_type env = TAUNET /\ 0 < le_L env /\ 0 < le_T env /\ le_net env = taunet_forward Ws acts nu
  /\ List.Forall (fun f => forall x, continuity_pt f x) acts
  /\ (exists c, taunet_init r (IsInt 1) (SizeInt 1) (ActList (map ActModule acts)) true nu = Ok c
      /\ Forall2 (fun (l : nat * nat) W => has_shape (snd l) (fst l) W) (tc_layers c) Ws)
  /\ along_ray (eddy_lifetime env) 1 0 0 t /\ ~ slope_at_infinity t (-2/3).
Proof. exact any_activation. Qed.
Print Assumptions C154_slopes_refuted.

(** C154 fails for the default activation with suitable weights: the lifetime of a
    default network is infinite at every wave vector. *)
Theorem C154_finite_refuted : exists r Ws acts c, is_relu r /\ List.Forall is_relu acts
  /\ taunet_init r (IsInt 1) (SizeInt 3) ActNone true (-1/3) = Ok c /\ tc_acts c = acts
  /\ Forall2 (fun (l : nat * nat) W => has_shape (snd l) (fst l) W) (tc_layers c) Ws
  /\ forall k1 k2 k3, exists a, mlp_forward Ws acts [Rabs k1; Rabs k2; Rabs k3] = Ok a
     /\ rational_x (-1/3) (sqrt (Rsum (map (fun x => x^2) a))) = PInf.
Proof. exact infinite_lifetime. Qed.
Print Assumptions C154_finite_refuted.

Example C154_case : let Ws := [[[1/2; 0; 0]; [0; -1/3; 1/4]]; [[1/2; -1/2]; [0; 1/3]; [1/4; 1/4]]] in
  List.Forall is_relu [Rmax 0]
  /\ fold_right Rmult 1 (map row_norm Ws) < 1
  /\ nonzero_vector [Rabs 1; Rabs 2; Rabs 3]
  /\ (exists a, mlp_forward Ws [Rmax 0] [Rabs 1; Rabs 2; Rabs 3] = Ok a)
  /\ exists t, along_ray (eddy_lifetime (LEnv TAUNET 1 4 (fun _ => 1) 0 0 (taunet_forward Ws [Rmax 0] (-1/3)))) 1 2 3 t.
Proof.
  cbv zeta. split; [repeat constructor|]. split.
  - unfold row_norm. cbn [map fold_right Rsum].
    rewrite !(Rabs_right (1/2)), (Rabs_right (1/4)), (Rabs_right (1/3)), Rabs_R0, (Rabs_left (-1/3)), (Rabs_left (-1/2)) by lra.
    repeat (match goal with |- context [Rmax ?a 0] => rewrite (Rmax_left a 0) by lra end).
    repeat (match goal with |- context [Rmax ?a ?b] => first [rewrite (Rmax_left a b) by lra | rewrite (Rmax_right a b) by lra] end).
    lra.
  - split; [exists (Rabs 1); split; [left; reflexivity|rewrite Rabs_R1; lra]|].
    split; [eexists; reflexivity|]. eexists. intros c Hc. cbn. reflexivity.
Qed.

(** C155: whatever slopes are requested, the spectrum of a problem without learnable
    exponents honours them exactly when they are those of von Karman's spectrum. *)
Theorem C155_requested_partial : forall ph pr k1 k2 k3 t, 0 < ph_L ph -> 0 < ph_Gamma ph -> 0 < ph_sigma ph ->
  0 < wave_number k1 k2 k3 -> pr_learnable pr = false -> along_ray (problem_energy ph pr) k1 k2 k3 t ->
  (slope_at_zero t (ph_alpha_low ph) <-> ph_alpha_low ph = 4)
  /\ (slope_at_infinity t (ph_alpha_high ph) <-> ph_alpha_high ph = -5/3).
Proof. exact default_slopes. Qed.
Print Assumptions C155_requested_partial.

(** C155: with learnable exponents the slopes are p and p - 2 q. *)
Theorem C155_learnable : forall ph pr k1 k2 k3 t, 0 < ph_L ph -> 0 < ph_Gamma ph -> 0 < ph_sigma ph ->
  0 < wave_number k1 k2 k3 -> pr_learnable pr = true -> along_ray (problem_energy ph pr) k1 k2 k3 t ->
  slope_at_zero t (pr_p pr) /\ slope_at_infinity t (pr_p pr - 2 * pr_q pr).
Proof. exact learned_slopes. Qed.
Print Assumptions C155_learnable.

(** C155 fails: requested slopes are ignored. *)
Theorem C155_requested_refuted : exists ph pr t, 0 < ph_L ph /\ 0 < ph_Gamma ph /\ 0 < ph_sigma ph /\ pr_learnable pr = false
  /\ along_ray (problem_energy ph pr) 1 0 0 t
  /\ ~ slope_at_zero t (ph_alpha_low ph) /\ ~ slope_at_infinity t (ph_alpha_high ph).
Proof. exact slopes_ignored. Qed.
Print Assumptions C155_requested_refuted.

Example C155_case : let ph := Phys (3/5) (39/10) (32/10) 4 (-5/3) 1 in
  exists t u, along_ray (problem_energy ph (Prob false 4 (17/6))) 1 2 2 t
           /\ along_ray (problem_energy ph (Prob true 2 2)) 1 2 2 u
           /\ 0 < wave_number 1 2 2.
Proof.
  cbv zeta. do 2 eexists. split; [apply ray_exists; cbn; lra|]. split; [apply ray_exists; cbn; lra|].
  unfold wave_number. apply sqrt_lt_R0. lra.
Qed.

(** C125: learned lifetimes with continuous activations are continuous where the
    augmented wave vector differs from 0. *)
Theorem C125_network_continuous : forall env Ws acts nu k1 (beta : R -> R -> R),
  le_type env = TAUNET -> le_net env = taunet_forward Ws acts nu ->
  List.Forall (fun f => forall x, continuity_pt f x) acts ->
  (forall k2 k3 a, mlp_forward Ws acts [Rabs (k1 * le_L env); Rabs (k2 * le_L env); Rabs (k3 * le_L env)] = Ok a -> nonzero_vector a) ->
  (forall k2 k3, eddy_lifetime env k1 k2 k3 = Ok (beta k2 k3)) ->
  plane_continuous beta.
Proof. exact network_continuous. Qed.
Print Assumptions C125_network_continuous.

Example C125_network_case : let Ws := [[[1/2; 0; 0]]; [[1/2]; [0]; [1/4]]] in
  let env := LEnv TAUNET 2 4 (fun _ => 1) 0 0 (taunet_forward Ws [Rmax 0] (-1/3)) in
  List.Forall (fun f => forall x, continuity_pt f x) [Rmax 0]
  /\ (forall k2 k3 a, mlp_forward Ws [Rmax 0] [Rabs (1 * le_L env); Rabs (k2 * le_L env); Rabs (k3 * le_L env)] = Ok a -> nonzero_vector a)
  /\ exists beta, forall k2 k3, eddy_lifetime env 1 k2 k3 = Ok (beta k2 k3).
Proof.
  cbv zeta. split; [|split].
  - constructor; [|constructor]. intros x. apply relu_cont.
  - intros k2 k3 a H. apply (C154_small_weights_partial _ _ _ _ (List.Forall_cons _ (fun x => eq_refl) (List.Forall_nil _)) H).
    + unfold row_norm. cbn [map fold_right Rsum].
      rewrite !(Rabs_right (1/2)), (Rabs_right (1/4)), Rabs_R0 by lra.
      repeat (match goal with |- context [Rmax ?a 0] => rewrite (Rmax_left a 0) by lra end).
      repeat (match goal with |- context [Rmax ?a ?b] => first [rewrite (Rmax_left a b) by lra | rewrite (Rmax_right a b) by lra] end).
      lra.
    + eexists. split; [left; reflexivity|]. cbn. rewrite Rabs_right by lra. lra.
  - eexists (fun k2 k3 => _). intros k2 k3. cbn. reflexivity.
Qed.
