(** Continuous dependence of the delivered spectra on the parameters (C161). *)

From Coq Require Import Reals List Lra Lia.
From Coquelicot Require Import Coquelicot.
From Verif Require LossModel.
From Verif Require Import Prelude RdtModel SpectraModel OpsModel OpsSpec SpectraSpec AsySpec QuadSpec SensSpec SensProofs SensFinal.
Import ListNotations.
Open Scope R_scope.

(** C161: a family of models with continuous ingredients has continuous one-point spectra,
    in every row but uw. *)
Theorem C161_rows_partial : forall (U : UniformSpace) (e : U -> ops_env) p sel p1 p2 N k1,
  (auto sel \/ sel = phi12 \/ sel = phi23) -> steady e k1 p -> k1 <> 0 ->
  continuous (fun q => ops_forward sel (e q) p1 p2 N k1) p.
Proof. exact rows_steady. Qed.
Print Assumptions C161_rows_partial.

(** C161: the uw row is continuous up to twice the integral of the clipping threshold. *)
Theorem C161_uw_partial : forall (U : UniformSpace) (e : U -> ops_env) p p1 p2 N k1,
  steady e k1 p -> 0 < k1 -> p1 < p2 -> (2 <= N)%nat ->
  forall eta, 0 < eta -> locally p (fun q =>
    Rabs (ops_forward phi13 (e q) p1 p2 N k1 - ops_forward phi13 (e p) p1 p2 N k1)
    <= eta + 2 * (k1 * (/ 10^12 * (2 * Rpower 10 p2)^2))).
Proof. exact uw_steady. Qed.
Print Assumptions C161_uw_partial.

(** C161 fails for the uw row: whatever the length scale, magnitude, energy spectrum, lifetime
    and grid, the row is discontinuous where the shear vanishes. *)
Theorem C161_uw_refuted : forall L M spec tau, 0 < L -> 0 < M ->
  (forall x, 0 < x -> 0 < spec x /\ continuity_pt spec x) ->
  (forall k1 k2 k3, k1 <> 0 -> 0 < tau k1 k2 k3) ->
  forall p1 p2 N k1, 0 < k1 -> p1 < p2 -> (2 <= N)%nat ->
  ~ continuous (fun shear => ops_forward phi13 (OpsEnv L M spec (fun k1 k2 k3 => shear * tau k1 k2 k3)) p1 p2 N k1) 0.
Proof. exact uw_jump. Qed.
Print Assumptions C161_uw_refuted.

(** C161: the auto-coherences on a fixed grid depend continuously on the parameters. *)
Theorem C161_coherence : forall (U : UniformSpace) (e : U -> ops_env) p sel g k1 r,
  auto sel -> steady e k1 p -> k1 <> 0 -> increasing g -> (2 <= length g)%nat ->
  continuous (fun q => fst (spectral_coherence (Some g) sel (e q) k1 r)) p.
Proof. exact coherence_steady. Qed.
Print Assumptions C161_coherence.

(** C161: the models with closed-form lifetimes have continuous ingredients, jointly in the
    length scale, time scale, magnitude, the coefficients of the line and the exponents. *)
Theorem C161_closed_forms : forall (U : UniformSpace) ty (L T M coef icpt a b : U -> R) hyp net
    (beta : U -> R -> R -> R -> R) p k1,
  ty <> TAUNET -> 0 < L p -> k1 <> 0 ->
  continuous L p -> continuous T p -> continuous M p -> continuous coef p -> continuous icpt p ->
  continuous a p -> continuous b p ->
  (ty = MANN -> forall t, t < 0 -> continuity_pt hyp t /\ 0 < hyp t) ->
  (forall q k2 k3, eddy_lifetime (LEnv ty (L q) (T q) hyp (coef q) (icpt q) net) k1 k2 k3 = Ok (beta q k1 k2 k3)) ->
  steady (fun q => OpsEnv (L q) (M q) (learnable_energy (a q) (b q)) (beta q)) k1 p
  /\ steady (fun q => OpsEnv (L q) (M q) vklike_energy (beta q)) k1 p.
Proof. exact mann_steady. Qed.
Print Assumptions C161_closed_forms.

(** C161: so have the models with learned lifetimes, jointly in every weight, the exponent nu
    and the scales, where the augmented wave vector differs from 0. *)
Theorem C161_network : forall (U : UniformSpace) WF acts (nu L T M a b : U -> R) hyp coef icpt
    (beta : U -> R -> R -> R -> R) p k1,
  0 < L p -> steady_weights WF p -> List.Forall (fun f => forall x, continuity_pt f x) acts ->
  continuous nu p -> continuous L p -> continuous T p -> continuous M p -> continuous a p -> continuous b p ->
  (forall k2 k3 v, mlp_forward (weights_at WF p) acts [Rabs (k1 * L p); Rabs (k2 * L p); Rabs (k3 * L p)] = Ok v -> nonzero_vector v) ->
  (forall q k2 k3, eddy_lifetime (LEnv TAUNET (L q) (T q) hyp coef icpt (taunet_forward (weights_at WF q) acts (nu q))) k1 k2 k3 = Ok (beta q k1 k2 k3)) ->
  steady (fun q => OpsEnv (L q) (M q) (learnable_energy (a q) (b q)) (beta q)) k1 p
  /\ steady (fun q => OpsEnv (L q) (M q) vklike_energy (beta q)) k1 p.
Proof. exact drd_steady. Qed.
Print Assumptions C161_network.

(** C161: the misfit of a fit of the three auto-spectra to non-zero data is a number which depends
    continuously on the parameters. *)
Theorem C161_misfit : forall (U : UniformSpace) (e : U -> ops_env) p p1 p2 N ks target, ks <> [] ->
  (forall k, In k ks -> 0 < k /\ steady e k p) -> p1 < p2 -> (2 <= N)%nat ->
  length target = (3 * length ks)%nat -> (forall v, In v target -> v <> 0) ->
  exists v : U -> R, continuous v p /\ forall q,
    LossModel.mse_term (concat (map (fun sel => map (fun k => ops_forward sel (e q) p1 p2 N k) ks) [phi11; phi22; phi33])) target = Ok (Fin (v q)).
Proof. exact misfit_steady. Qed.
Print Assumptions C161_misfit.

(** C161: so along every interval of one parameter there is a best fit. *)
Theorem C161_best_fit : forall (e : R -> ops_env) a b p1 p2 N ks target, a <= b -> ks <> [] ->
  (forall k p, In k ks -> a <= p <= b -> 0 < k /\ steady e k p) -> p1 < p2 -> (2 <= N)%nat ->
  length target = (3 * length ks)%nat -> (forall v, In v target -> v <> 0) ->
  let rows q := map (fun sel => map (fun k => ops_forward sel (e q) p1 p2 N k) ks) [phi11; phi22; phi33] in
  exists best low, a <= best <= b /\ LossModel.mse_term (concat (rows best)) target = Ok (Fin low)
  /\ forall q, a <= q <= b -> exists v, LossModel.mse_term (concat (rows q)) target = Ok (Fin v) /\ low <= v.
Proof. exact misfit_minimum. Qed.
Print Assumptions C161_best_fit.

(** The length scale varies between 1 and 2. *)
Example C161_best_fit_case : exists e : R -> ops_env, (forall k p, In k [1; 5] -> 1 <= p <= 2 -> 0 < k /\ steady e k p)
  /\ exists best low, 1 <= best <= 2
  /\ LossModel.mse_term (concat (map (fun sel => map (fun k => ops_forward sel (e best) (-3) 3 100 k) [1; 5]) [phi11; phi22; phi33])) [1; 2; 3; 4; 5; 6] = Ok (Fin low).
Proof.
  exists (fun q => OpsEnv q 1 vklike_energy (fun k1 k2 k3 => 3 * 1)).
  assert (H : forall k p, In k [1; 5] -> 1 <= p <= 2 -> 0 < k /\ steady (fun q => OpsEnv q 1 vklike_energy (fun k1 k2 k3 => 3 * 1)) k p).
  { intros k p [<-|[<-|[]]] Hp; (split; [lra|]);
      (apply (C161_closed_forms _ CONST (fun q => q) (fun _ => 3) (fun _ => 1) (fun _ => 0) (fun _ => 0) (fun _ => 0) (fun _ => 0) (fun _ => 1) (fun _ => Ok 1) (fun q k1 k2 k3 => 3 * 1) p);
        try lra; try apply continuous_const; try apply continuous_id; try discriminate; reflexivity). }
  split; [exact H|]. destruct (C161_best_fit (fun q => OpsEnv q 1 vklike_energy (fun k1 k2 k3 => 3 * 1)) 1 2 (-3) 3 100 [1; 5] [1; 2; 3; 4; 5; 6]) as (best & low & Hb & Hl & _); [lra|discriminate|exact H|lra|lia|reflexivity| |].
  - intros v Hv. repeat (destruct Hv as [<-|Hv]; [lra|]). destruct Hv.
  - exists best, low. split; assumption.
Qed.

(** The parameters are length scale and shear; the lifetime follows the two-thirds law. *)
Example C161_closed_forms_case : exists beta : R * R -> R -> R -> R -> R,
  steady (fun q : R * R => OpsEnv (fst q) 1 vklike_energy (beta q)) 2 (1, 3)
  /\ auto phi11 /\ (2:R) <> 0.
Proof.
  exists (fun q k1 k2 k3 => snd q * Rpower (fst q * sqrt (kk_of k1 k2 k3)) (-2/3)). split; [|split; [left; reflexivity|lra]].
  apply (C161_closed_forms _ TWOTHIRD (fun q : R * R => fst q) (fun q => snd q) (fun _ => 1) (fun _ => 0) (fun _ => 0) (fun _ => 0) (fun _ => 0) (fun _ => 1) (fun _ => Ok 1) _ (1, 3) 2);
    try (cbn [fst]; lra); try apply continuous_const; try apply continuous_fst; try apply continuous_snd; try discriminate. reflexivity.
Qed.

(** The parameter scales the second layer of a network. *)
Example C161_network_case : let WF := [[[fun _ => 1; fun _ => 0; fun _ => 0]]; [[fun q : R => q]; [fun _ => 0]; [fun _ => 0]]] in
  exists beta : R -> R -> R -> R -> R, steady (fun q => OpsEnv 1 1 vklike_energy (beta q)) 2 1
  /\ forall q k2 k3, eddy_lifetime (LEnv TAUNET 1 1 (fun _ => 1) 0 0 (taunet_forward (weights_at WF q) [Rmax 0] (-1/3))) 2 k2 k3 = Ok (beta q 2 k2 k3).
Proof.
  cbv zeta. set (WF := [[[fun _ => 1; fun _ => 0; fun _ => 0]]; [[fun q : R => q]; [fun _ => 0]; [fun _ => 0]]]).
  assert (E : exists beta : R -> R -> R -> R -> R, forall q k2 k3, eddy_lifetime (LEnv TAUNET 1 1 (fun _ => 1) 0 0 (taunet_forward (weights_at WF q) [Rmax 0] (-1/3))) 2 k2 k3 = Ok (beta q 2 k2 k3))
    by (eexists (fun q k1 k2 k3 => _); intros q k2 k3; cbn; reflexivity).
  destruct E as [beta E]. exists beta. split; [|exact E].
  apply (C161_network _ WF [Rmax 0] (fun _ => -1/3) (fun _ => 1) (fun _ => 1) (fun _ => 1) (fun _ => 1) (fun _ => 1) (fun _ => 1) 0 0 beta 1 2); try apply continuous_const; try lra; [| |  |exact E].
  - intros W r f [<-|[<-|[]]] HR HF.
    + destruct HR as [<-|[]]. destruct HF as [<-|[<-|[<-|[]]]]; apply continuous_const.
    + destruct HR as [<-|[<-|[<-|[]]]]; destruct HF as [<-|[]]; [apply continuous_id|apply continuous_const|apply continuous_const].
  - constructor; [|constructor]. intros x. apply AsyFinal.relu_cont.
  - intros k2 k3 v Hv. cbn in Hv. injection Hv as <-. eexists. split; [left; reflexivity|].
    rewrite !Rmult_1_r, (Rabs_right 2) by lra. rewrite Rmax_right; [lra|]. ring_simplify. pose proof (Rabs_pos k2). lra.
Qed.

(** The model without shear, and with the lifetime of the constant family. *)
Example C161_uw_case : forall x : R, 0 < x -> 0 < vklike_energy x /\ continuity_pt vklike_energy x.
Proof. intros x Hx. split; [unfold vklike_energy; apply Rmult_lt_0_compat; apply exp_pos|apply (QuadTensor.energy_continuous 0 0 x Hx)]. Qed.
