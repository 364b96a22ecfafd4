(** Property theorems about the unit of velocity (C192) and about generated data in other
    units (C191, C192). *)

From Coq Require Import Reals Lra Lia List Sorted.
From Verif Require Import Prelude RdtModel RdtProofs SpectraModel SpectraProofs OpsModel OpsSpec OpsProofs OpsTheorems DataModel LossModel LossSpec TotalSpec BalSpec BalProofs AutoModel AutoSpec AutoCases BalCases UnitSpec UnitProofs VelProofs.
Import ListNotations.
Open Scope R_scope.

(** C191: generated Kaimal and von Karman data do not depend on the unit of length. *)
Theorem C191_kaimal_partial : forall s, 0 < s -> forall zref ustar k1 i j,
  kaimal_at (zref * s) ustar (k1 / s) i j = kaimal_at zref ustar k1 i j.
Proof. exact kaimal_unit. Qed.
Print Assumptions C191_kaimal_partial.

Theorem C191_von_karman_partial : forall s, 0 < s -> forall L C k1, L <> 0 ->
  exists m m', von_karman_at L C k1 = Ok m /\ von_karman_at (L * s) (C * Rpower s (-2/3)) (k1 / s) = Ok m'
  /\ forall i j, m' i j = m i j.
Proof. exact von_karman_unit. Qed.
Print Assumptions C191_von_karman_partial.

(** Metres and centimetres; the values are not zero. *)
Example C191_data_case :
  kaimal_at (40 * 100) 2 (1 / 100) X1 X1 = kaimal_at 40 2 1 X1 X1
  /\ exists m m', von_karman_at 2 3 1 = Ok m /\ von_karman_at (2 * 100) (3 * Rpower 100 (-2/3)) (1 / 100) = Ok m' /\ m' X1 X1 = m X1 X1
     /\ exists v, m X1 X1 = Fin v /\ 0 < v.
Proof.
  split; [apply C191_kaimal_partial; lra|].
  destruct (C191_von_karman_partial 100 ltac:(lra) 2 3 1 ltac:(lra)) as (m & m' & E & E' & H). exists m, m'.
  split; [exact E|]. split; [exact E'|]. split; [apply H|].
  unfold von_karman_at, Reqb in E. destruct (Req_EM_T 2 0) as [C|_]; [lra|]. injection E as <-. cbv zeta.
  rewrite !xpow_pos by lra. set (w := Rpower _ (5/6)). assert (W : 0 < w) by (unfold w, Rpower; apply exp_pos).
  unfold Reqb. destruct (Req_EM_T w 0) as [C|_]; [lra|]. cbn [xmul].
  eexists. split; [reflexivity|]. rewrite Rmult_1_r. apply Rdiv_lt_0_compat; lra.
Qed.

(** C192: the spectra do not follow the unit of velocity, since densities below 1e-12 are
    replaced by 1e-12: for every model, grid and wave number they are too large once the unit is
    coarse enough. *)
Theorem C192_refuted : forall sel e p1 p2 N k1, auto sel -> p1 < p2 -> (1 <= N)%nat -> 0 < k1 ->
  exists c0, 0 < c0 /\ forall c, 0 < c < c0 -> c * ops_forward sel e p1 p2 N k1 < ops_forward sel (scale_M c e) p1 p2 N k1.
Proof. exact velocity_wrong. Qed.
Print Assumptions C192_refuted.

(** The default grid and a von Karman model. *)
Example C192_refuted_case : exists c, 0 < c /\ c * ops_forward phi11 demo (-3) 3 100 1 < ops_forward phi11 (scale_M c demo) (-3) 3 100 1.
Proof.
  destruct (C192_refuted phi11 demo (-3) 3 100%nat 1) as (c0 & P & H); [unfold auto; tauto|lra|lia|lra|].
  exists (c0 / 2). split; [lra|]. apply H. lra.
Qed.

(** C192: they follow it where no density is replaced in either unit. *)
Theorem C192_spectra_partial : forall sel e p1 p2 N k1 c, selector sel ->
  (forall k2 k3, In k2 (sym_grid p1 p2 N) -> In k3 (sym_grid p1 p2 N) ->
     kept sel (undelivered sel e k1 k2 k3) /\ kept sel (c * undelivered sel e k1 k2 k3)) ->
  ops_forward sel (scale_M c e) p1 p2 N k1 = c * ops_forward sel e p1 p2 N k1.
Proof. exact velocity_spectra. Qed.
Print Assumptions C192_spectra_partial.

Example C192_spectra_case : let e := model_at (demo_setting TWOTHIRD) demo_params 0 in
  ops_forward phi33 (scale_M 9 e) (-3) (-2) 1 2 = 9 * ops_forward phi33 e (-3) (-2) 1 2.
Proof.
  intros e. apply C192_spectra_partial; [unfold selector; tauto|]. intros k2 k3 I2 I3.
  assert (W : / 10^12 < undelivered phi33 e 2 k2 k3) by (apply demo_ww; [lra|exact I2|exact I3|apply demo_bounds; [tauto|lra]]).
  assert (T0 : 0 < / 10^12) by (apply Rinv_0_lt_compat, pow_lt; lra).
  split; left; (split; [unfold auto; tauto|lra]).
Qed.

(** C192: after every history of evaluations a coherence does not depend on the unit of
    velocity, where no density is replaced in either unit. *)
Theorem C192_coherence_partial : forall b q1 q2 N L0 h e sel k1 r c, 0 < c -> auto sel ->
  let g := coh_run (coh_cache_init b q1 q2 N L0) h in
  let g' := coh_run (coh_cache_init b q1 q2 N L0) (map (fun q => (scale_M c (fst (fst q)), snd (fst q), snd q)) h) in
  coh_kept (coh_grid_for g (oe_L e)) sel e k1 -> coh_kept (coh_grid_for g (oe_L e)) sel (scale_M c e) k1 ->
  fst (spectral_coherence g' sel (scale_M c e) k1 r) = fst (spectral_coherence g sel e k1 r).
Proof. exact velocity_history. Qed.
Print Assumptions C192_coherence_partial.

(** A history of one evaluation on a prepared grid. *)
Example C192_coherence_case : forall r, let e := model_at (demo_setting TWOTHIRD) demo_params 0 in
  let g := coh_run (coh_cache_init true (-3) (-2) 1 1) [(e, 3, 7)] in
  let g' := coh_run (coh_cache_init true (-3) (-2) 1 1) [(scale_M 9 e, 3, 7)] in
  fst (spectral_coherence g' phi33 (scale_M 9 e) 2 r) = fst (spectral_coherence g phi33 e 2 r).
Proof.
  intros r e g g'.
  assert (U : forall k2 k3, In k2 (coh_grid_for g (oe_L e)) -> In k3 (coh_grid_for g (oe_L e)) -> / 10^32 < undelivered phi33 e 2 k2 k3).
  { intros k2 k3 I2 I3. unfold g, coh_run in I2, I3. cbn [fold_left spectral_coherence snd coh_cache_init coh_grid_for] in I2, I3.
    apply in_map_iff in I2, I3. destruct I2 as (y & <- & I2). destruct I3 as (z & <- & I3). unfold Rdiv. rewrite Rinv_1, !Rmult_1_r.
    assert (W : / 10^12 < undelivered phi33 e 2 y z) by (apply demo_ww; [lra|exact I2|exact I3|apply demo_bounds; [tauto|lra]]).
    eapply Rlt_trans; [|exact W]. apply Rinv_lt_contravar; [apply Rmult_lt_0_compat; apply pow_lt; lra | apply Rlt_pow; [lra|lia]]. }
  assert (T0 : 0 < / 10^32) by (apply Rinv_0_lt_compat, pow_lt; lra).
  apply (C192_coherence_partial true (-3) (-2) 1%nat 1 [(e, 3, 7)] e phi33 2 r 9); [lra|unfold auto; tauto| |].
  - intros k2 k3 I2 I3. left. apply U; assumption.
  - intros k2 k3 I2 I3. rewrite undelivered_scale by (unfold selector; tauto). pose proof (U k2 k3 I2 I3). lra.
Qed.

(** C192: with all penalties and whatever its weights, the loss of the model with the
    magnitude in the other unit on data in the other unit is the loss in the first unit. *)
Theorem C192_fit_partial : forall c, 0 < c -> forall p ks zref th p1 p2 N curves data e coh,
  regular_curves ks (curves_of e p1 p2 N curves ks) -> regular_curves ks data ->
  all_kept e p1 p2 N curves ks -> all_kept (scale_M c e) p1 p2 N curves ks ->
  loss_value p ks zref (curves_of (scale_M c e) p1 p2 N curves ks) (map (map (Rmult c)) data) th coh
  = loss_value p ks zref (curves_of e p1 p2 N curves ks) data th coh.
Proof. exact velocity_fit. Qed.
Print Assumptions C192_fit_partial.

Example C192_fit_case : let e := scale_M 2 (model_at (demo_setting TWOTHIRD) demo_params 0) in
  loss_value (LossParams 1 2 0 0) [1; 2] 1 (curves_of (scale_M 9 e) (-3) (-2) 1 [phi33] [1; 2]) [[9 * 1; 9 * 3]] None None
  = loss_value (LossParams 1 2 0 0) [1; 2] 1 (curves_of e (-3) (-2) 1 [phi33] [1; 2]) [[1; 3]] None None.
Proof.
  intros e. destruct bal_case as (K & P1 & P2). fold e in K, P1, P2.
  apply (C192_fit_partial 9 ltac:(lra) (LossParams 1 2 0 0) [1; 2] 1 None (-3) (-2) 1%nat [phi33] [[1; 3]] e None).
  - split; [discriminate|]. repeat constructor; lra.
  - split; [discriminate|]. repeat constructor; lra.
  - apply scale_one, (kept_more (1/2) 1); [lra|exact K].
  - apply (kept_more (1/2) 9); [lra|exact K].
Qed.

(** C192: Kaimal data follow the unit of velocity; where a value is undefined it stays
    undefined. *)
Theorem C192_kaimal_partial : forall c, 0 < c -> forall zref ustar k1 i j,
  kaimal_at zref (c * ustar) k1 i j = xmul (Fin (c^2)) (kaimal_at zref ustar k1 i j).
Proof. exact kaimal_velocity. Qed.
Print Assumptions C192_kaimal_partial.

Example C192_kaimal_case : kaimal_at 40 (3 * 2) 1 X3 X3 = xmul (Fin (3^2)) (kaimal_at 40 2 1 X3 X3).
Proof. apply C192_kaimal_partial. lra. Qed.
