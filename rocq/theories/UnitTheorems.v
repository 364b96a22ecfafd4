(** Property theorems about the unit of length (C191). *)

From Coq Require Import Reals Lra Lia List Sorted.
From Verif Require Import Prelude RdtModel RdtProofs SpectraModel SpectraProofs OpsModel OpsSpec OpsProofs OpsTheorems LossModel LossSpec TotalSpec BalSpec BalProofs AutoModel AutoSpec AutoCases BalCases UnitSpec UnitProofs.
Import ListNotations.
Open Scope R_scope.

(** C191: the spectra of one and the same model depend on the unit of length, since the nodes of
    the integration are absolute wave numbers: for a fine enough unit the computed vv and ww
    spectra exceed every bound. *)
Theorem C191_refuted : forall sel e p1 p2 N k1, sel = phi22 \/ sel = phi33 -> p1 < p2 -> (1 <= N)%nat -> 0 < k1 ->
  (forall x, 0 < x -> 0 < oe_spec e x) -> 0 < oe_M e -> 0 < oe_L e ->
  forall B, exists s0, 0 < s0 /\ forall s, s0 <= s -> B < ops_forward sel (in_unit s e) p1 p2 N (k1 / s).
Proof. exact unit_unbounded. Qed.
Print Assumptions C191_refuted.

(** The default grid and a von Karman model. *)
Example C191_refuted_case : exists s, 0 < s
  /\ ops_forward phi33 (in_unit s demo) (-3) 3 100 (1 / s) <> ops_forward phi33 demo (-3) 3 100 1.
Proof.
  destruct (C191_refuted phi33 demo (-3) 3 100%nat 1) with (B := ops_forward phi33 demo (-3) 3 100 1) as (s0 & P & H);
    try (simpl; lra); try lia; [tauto| |].
  - intros x Hx. simpl. rewrite vklike_form by (exact Hx). apply vk_energy_pos. exact Hx.
  - exists s0. split; [exact P|]. specialize (H s0 (Rle_refl _)). lra.
Qed.

(** C191: the spectra do not depend on the unit if the exponents of the grid are shifted
    accordingly and no density is replaced by a bound in either unit. *)
Theorem C191_spectra_partial : forall s, 0 < s -> forall sel e p1 p2 N k1, selector sel -> 0 < oe_L e -> k1 <> 0 ->
  (forall k2 k3, In k2 (sym_grid p1 p2 N) -> In k3 (sym_grid p1 p2 N) ->
     kept sel (undelivered sel e k1 k2 k3) /\ kept sel (s^3 * undelivered sel e k1 k2 k3)) ->
  ops_forward sel (in_unit s e) (p1 - log10 s) (p2 - log10 s) N (k1 / s) = ops_forward sel e p1 p2 N k1.
Proof. exact forward_unit. Qed.
Print Assumptions C191_spectra_partial.

(** C191: the lifetime of the other unit is the one which the eddy lifetime function computes
    with the length scale of the other unit, for all types but the approximation whose line is
    fitted on fixed wave numbers. *)
Theorem C191_lifetime_partial : forall s, 0 < s -> forall env e, le_type env <> MANN_APPROX ->
  has_lifetime e env -> has_lifetime (in_unit s e) (lifetime_in_unit s env).
Proof. exact lifetime_unit. Qed.
Print Assumptions C191_lifetime_partial.

Example C191_lifetime_case :
  let env := LEnv TWOTHIRD 2 3 (fun x => x) 0 0 (fun _ => Ok 0) in
  let e := OpsEnv 2 3 vklike_energy (fun k1 k2 k3 => match eddy_lifetime env k1 k2 k3 with Ok b => b | Err _ => 0 end) in
  has_lifetime e env /\ has_lifetime (in_unit 1000 e) (lifetime_in_unit 1000 env).
Proof.
  intros env e. assert (H : has_lifetime e env) by (split; reflexivity).
  split; [exact H|]. apply C191_lifetime_partial; [lra|discriminate|exact H].
Qed.

(** C191: after every history of evaluations the coherence does not depend on the unit, with
    the grid parameters as they are, if no density is replaced by a bound in either unit. *)
Theorem C191_coherence_partial : forall s, 0 < s -> forall b q1 q2 N L0 h e sel k1 r,
  0 < L0 -> auto sel -> k1 <> 0 -> 0 < oe_L e -> List.Forall (fun q => 0 < oe_L (fst (fst q))) h ->
  let c := coh_run (coh_cache_init b q1 q2 N L0) h in
  let c' := coh_run (coh_cache_init b q1 q2 N (L0 * s)) (map (query_in_unit s) h) in
  coh_kept (coh_grid_for c (oe_L e)) sel e k1 -> coh_kept (coh_grid_for c' (oe_L e * s)) sel (in_unit s e) (k1 / s) ->
  fst (spectral_coherence c' sel (in_unit s e) (k1 / s) (r * s)) = fst (spectral_coherence c sel e k1 r).
Proof. exact coherence_history_unit. Qed.
Print Assumptions C191_coherence_partial.

(** A grid built when the operator was made, metres and millimetres. *)
Example C191_coherence_case : forall r, let e := model_at (demo_setting TWOTHIRD) demo_params 0 in
  let c := coh_cache_init true (-3) (-2) 1 1 in let c' := coh_cache_init true (-3) (-2) 1 1000 in
  fst (spectral_coherence c' phi33 (in_unit 1000 e) (2 / 1000) (r * 1000)) = fst (spectral_coherence c phi33 e 2 r).
Proof.
  intros r e c c'. assert (HL : oe_L e = 1) by (cbn; unfold moved; cbn; rewrite Rmult_0_l, Rplus_0_r; apply exp_0).
  assert (K : coh_kept (coh_grid_for c (oe_L e)) phi33 e 2).
  { intros k2 k3 I2 I3. unfold c, coh_cache_init, coh_grid_for in I2, I3. apply in_map_iff in I2, I3.
    destruct I2 as (y & <- & I2). destruct I3 as (z & <- & I3). unfold Rdiv. rewrite Rinv_1, !Rmult_1_r.
    assert (W : / 10^12 < undelivered phi33 e 2 y z) by (apply demo_ww; [lra|exact I2|exact I3|apply demo_bounds; [tauto|lra]]).
    left. eapply Rlt_trans; [|exact W]. apply Rinv_lt_contravar; [apply Rmult_lt_0_compat; apply pow_lt; lra | apply Rlt_pow; [lra|lia]]. }
  unfold c' . replace 1000 with (1 * 1000) at 1 by ring.
  apply (C191_coherence_partial 1000 ltac:(lra) true (-3) (-2) 1%nat 1 [] e phi33 2 r); try lra; [unfold auto; tauto|constructor|exact K|].
  cbn [map coh_run fold_left]. rewrite coh_init_unit, coh_grid_unit by lra.
  apply coh_kept_unit; [lra|lra|unfold auto; tauto|lra|lra|exact K].
Qed.

(** C191: of the same curves the loss with lengths in the other unit is the loss with the
    weights of the two penalties divided by the unit and by its square. *)
Theorem C191_loss_partial : forall s, 0 < s -> forall p ks zref ys ds th coh, List.Forall (fun k => 0 < k) ks -> zref <> 0 ->
  loss_value p (waves_in_unit s ks) (zref * s) ys ds th coh = loss_value (reweighted (/ s) (/ s^2) p) ks zref ys ds th coh.
Proof. exact loss_unit. Qed.
Print Assumptions C191_loss_partial.

(** C191: with the grid shifted, and with these weights multiplied accordingly, the loss of every
    model is the same in both units, so the fits are. *)
Theorem C191_fit_partial : forall s, 0 < s -> forall p ks zref th p1 p2 N curves data e coh,
  List.Forall (fun k => 0 < k) ks -> zref <> 0 -> 0 < oe_L e ->
  all_kept e p1 p2 N curves ks -> all_kept (in_unit s e) (p1 - log10 s) (p2 - log10 s) N curves (waves_in_unit s ks) ->
  loss_value (reweighted s (s^2) p) (waves_in_unit s ks) (zref * s)
    (curves_of (in_unit s e) (p1 - log10 s) (p2 - log10 s) N curves (waves_in_unit s ks)) data th coh
  = loss_value p ks zref (curves_of e p1 p2 N curves ks) data th coh.
Proof. exact fit_unit. Qed.
Print Assumptions C191_fit_partial.

(** Two wave numbers, metres and centimetres. *)
Example C191_fit_case : let e := model_at (demo_setting TWOTHIRD) demo_params 0 in
  all_kept e (-3) (-2) 1 [phi33] [1; 2]
  /\ loss_value (LossParams (100 * 1) (100^2 * 2) 0 0) [1 / 100; 2 / 100] (40 * 100)
       (curves_of (in_unit 100 e) (-3 - log10 100) (-2 - log10 100) 1 [phi33] [1 / 100; 2 / 100]) [[1; 3]] None None
     = loss_value (LossParams 1 2 0 0) [1; 2] 40 (curves_of e (-3) (-2) 1 [phi33] [1; 2]) [[1; 3]] None None.
Proof.
  intros e. assert (HL : oe_L e = 1) by (cbn; unfold moved; cbn; rewrite Rmult_0_l, Rplus_0_r; apply exp_0).
  assert (Hk : List.Forall (fun k => 0 < k) [1; 2]) by (repeat constructor; lra).
  assert (K : all_kept e (-3) (-2) 1 [phi33] [1; 2]).
  { intros sel k1 k2 k3 [<-|[]] I1 I2 I3. left. split; [unfold auto; tauto|]. left.
    assert (H : 1 <= k1 <= 4) by (destruct I1 as [<-|[<-|[]]]; lra).
    apply demo_ww; [exact H|exact I2|exact I3|apply demo_bounds; [tauto|lra]]. }
  split; [exact K|].
  apply (C191_fit_partial 100 ltac:(lra) (LossParams 1 2 0 0) [1; 2] 40 None (-3) (-2) 1%nat [phi33] [[1; 3]] e None); try lra; try assumption.
  apply kept_unit; try assumption; lra.
Qed.

(** The hypotheses of [C191_spectra_partial] for the same model. *)
Example C191_spectra_case : let e := model_at (demo_setting TWOTHIRD) demo_params 0 in
  ops_forward phi33 (in_unit 100 e) (-3 - log10 100) (-2 - log10 100) 1 (2 / 100) = ops_forward phi33 e (-3) (-2) 1 2.
Proof.
  intros e. assert (HL : oe_L e = 1) by (cbn; unfold moved; cbn; rewrite Rmult_0_l, Rplus_0_r; apply exp_0).
  apply C191_spectra_partial; [lra|unfold selector; tauto|lra|lra|]. intros k2 k3 I2 I3.
  assert (W : / 10^12 < undelivered phi33 e 2 k2 k3) by (apply demo_ww; [lra|exact I2|exact I3|apply demo_bounds; [tauto|lra]]).
  assert (T0 : 0 < / 10^12) by (apply Rinv_0_lt_compat, pow_lt; lra).
  split; left; (split; [unfold auto; tauto|]); [lra|].
  apply Rle_trans with (1 * undelivered phi33 e 2 k2 k3); [lra|]. apply Rmult_le_compat_r; [lra|]. lra.
Qed.
