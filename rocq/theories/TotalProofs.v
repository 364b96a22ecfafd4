From Coq Require Import Reals Lra Lia Psatz List Arith ZArith Sorted Bool.
From Verif Require Import Prelude SpectraProofs LossModel LossSpec LossProofs TotalSpec.
Import ListNotations.
Open Scope R_scope.

Lemma average_mean : forall l, average l = Rmean l.
Proof. reflexivity. Qed.

Lemma sq_log_zip : forall m t, Forall (fun v => v <> 0) m -> Forall (fun v => v <> 0) t ->
  zip_with (fun a b => ln (Rabs a / Rabs b) * ln (Rabs a / Rabs b)) m t = sq_log_distances m t.
Proof.
  induction m as [|a m IH]; intros [|b t] Hm Ht; try reflexivity.
  inversion Hm; inversion Ht; subst. cbn [zip_with sq_log_distances]. rewrite IH by assumption. f_equal.
  pose proof (Rabs_pos_lt a H1). pose proof (Rabs_pos_lt b H5).
  unfold Rdiv. rewrite ln_mult by (try apply Rinv_0_lt_compat; assumption).
  rewrite ln_Rinv by assumption. ring.
Qed.

Lemma sq_log_app : forall m m' t t', length m = length t ->
  sq_log_distances (m ++ m') (t ++ t') = sq_log_distances m t ++ sq_log_distances m' t'.
Proof.
  induction m as [|a m IH]; intros m' [|b t] t' H; try discriminate; [reflexivity|].
  cbn [app sq_log_distances]. f_equal. apply IH. cbn in H. lia.
Qed.

Lemma sq_log_concat : forall n ms ts, length ms = length ts ->
  Forall (fun r => length r = n) ms -> Forall (fun r => length r = n) ts ->
  sq_log_distances (concat ms) (concat ts) = sq_log_distances_all ms ts.
Proof.
  induction ms as [|m ms IH]; intros [|t ts] H Hm Ht; try discriminate; [reflexivity|].
  inversion Hm; inversion Ht; subst. cbn [concat sq_log_distances_all].
  rewrite sq_log_app by congruence. f_equal. apply IH; try assumption. cbn in H. lia.
Qed.

Lemma concat_len : forall n (l : list (list R)), Forall (fun r => length r = n) l -> length (concat l) = (length l * n)%nat.
Proof. induction 1 as [|r l Hr Hl IH]; [reflexivity|]. cbn. rewrite app_length, Hr, IH. reflexivity. Qed.

Lemma concat_nz : forall (l : list (list R)), Forall (Forall (fun v => v <> 0)) l -> Forall (fun v => v <> 0) (concat l).
Proof. induction 1; cbn; [constructor|]. apply Forall_app. split; assumption. Qed.

Lemma regular_len : forall k y, regular_curves k y -> Forall (fun r => length r = length k) y.
Proof. intros k y [_ H]. revert H. apply Forall_impl. intros r [A _]. exact A. Qed.

Lemma regular_nz : forall k y, regular_curves k y -> Forall (Forall (fun v => v <> 0)) y.
Proof. intros k y [_ H]. revert H. apply Forall_impl. intros r [_ A]. exact A. Qed.

Lemma sq_log_length : forall m t, length m = length t -> length (sq_log_distances m t) = length m.
Proof. induction m as [|a m IH]; intros [|b t] H; try discriminate; [reflexivity|]. cbn in *. rewrite IH; lia. Qed.

Lemma mse_value : forall k ys ds, k <> [] -> regular_curves k ys -> regular_curves k ds -> length ys = length ds ->
  mse_term (concat ys) (concat ds) = Ok (Fin (average (sq_log_distances_all ys ds))).
Proof.
  intros k ys ds Hk Hy Hd Hl.
  pose proof (regular_len _ _ Hy) as Ly. pose proof (regular_len _ _ Hd) as Ld.
  assert (LC : length (concat ys) = length (concat ds)).
  { rewrite (concat_len _ _ Ly), (concat_len _ _ Ld), Hl. reflexivity. }
  pose proof (concat_nz _ (regular_nz _ _ Hy)) as Ny. pose proof (concat_nz _ (regular_nz _ _ Hd)) as Nd.
  unfold mse_term. rewrite sq_ratio_list, sq_log_zip, (sq_log_concat (length k)) by assumption.
  rewrite xmean_fin; [reflexivity|].
  rewrite <- (sq_log_concat (length k)) by assumption. intros E. apply (f_equal (@length R)) in E.
  rewrite sq_log_length, (concat_len _ _ Ly) in E by assumption. cbn in E.
  destruct Hy as [Hne _]. destruct ys; [contradiction|]. destruct k; [contradiction|]. cbn in E. lia.
Qed.

Lemma relu_mean_value : forall l, l <> [] ->
  xmean (map (fun v => xsquare (xrelu v)) (map Fin l)) = Fin (mean_sq_excess l).
Proof.
  intros l Hne. rewrite map_map.
  rewrite (map_ext _ (fun x => Fin ((Rmax 0 x)^2))).
  2: { intros x. cbn. rewrite (Rmax_comm x 0). f_equal. ring. }
  rewrite <- (map_map (fun x => (Rmax 0 x)^2) Fin). rewrite xmean_fin; [reflexivity|].
  destruct l; [contradiction|discriminate].
Qed.

Lemma weight_value : forall a v z, 0 < z -> xdiv (xmul (Fin a) (Fin v)) (Fin z) = Fin (a * (v / z)).
Proof.
  intros a v z Hz. unfold xmul, xdiv, Reqb. destruct (Req_EM_T z 0); [lra|]. f_equal. field. assumption.
Qed.

Lemma d2_row_bends : forall k y, wave_grid k -> length y = length k -> Forall (fun v => v <> 0) y ->
  d2_row (grid_h1 k) (grid_h2 k) y = map Fin (bends k y).
Proof.
  intros k y Hk Hl Hy. unfold d2_row. rewrite d1_row_slopes by assumption. rewrite xdiff_fin.
  rewrite zip_div_fin by (apply h2_pos; assumption). f_equal. clear Hy. revert y Hl.
  induction k as [|k0 k IH]; intros y Hl; [destruct y; [reflexivity|discriminate]|].
  destruct y as [|y0 y]; [discriminate|].
  destruct k as [|k1 k]; destruct y as [|y1 y]; try discriminate; [reflexivity|].
  destruct k as [|k2 k]; destruct y as [|y2 y]; try discriminate; [reflexivity|].
  specialize (IH (wave_grid_tail _ _ Hk) (y1 :: y2 :: y) ltac:(cbn in *; lia)).
  rewrite h2_cons3.
  change (slopes (k0 :: k1 :: k2 :: k) (y0 :: y1 :: y2 :: y))
    with ((ln (Rabs y1) - ln (Rabs y0)) / (ln k1 - ln k0) :: (ln (Rabs y2) - ln (Rabs y1)) / (ln k2 - ln k1)
          :: slopes (k2 :: k) (y2 :: y)).
  rewrite rdiff_cons2. cbn [zip_with bends]. f_equal; [|exact IH]. f_equal. field.
Qed.

Lemma bends_length : forall k y, length y = length k -> length (bends k y) = (length k - 2)%nat.
Proof.
  induction k as [|k0 k IH]; intros y Hl; [destruct y; [reflexivity|discriminate]|].
  destruct y as [|y0 y]; [discriminate|].
  destruct k as [|k1 k]; destruct y as [|y1 y]; try discriminate; [reflexivity|].
  destruct k as [|k2 k]; destruct y as [|y2 y]; try discriminate; [reflexivity|].
  specialize (IH (y1 :: y2 :: y) ltac:(cbn in *; lia)).
  cbn [bends length] in *. rewrite IH. lia.
Qed.

Lemma pen1_value : forall p k zref y, wave_grid k -> (2 <= length k)%nat -> regular_curves k y -> 0 < zref ->
  pen1 p k zref y = Ok (Fin (alpha_pen1 p * (mean_sq_excess (flat_map (slopes k) y) / zref))).
Proof.
  intros p k zref y Hk Hl [Hne Hy] Hz. unfold pen1. cbv zeta. rewrite Forall_forall in Hy.
  rewrite (concat_map_fin _ _ (slopes k)) by (intros row Hr; destruct (Hy row Hr); apply d1_row_slopes; assumption).
  rewrite relu_mean_value.
  - rewrite weight_value by assumption. rewrite flat_map_concat_map. reflexivity.
  - apply concat_map_nonempty; [assumption|]. intros row Hr E. destruct (Hy row Hr) as [Hlen _].
    apply slopes_length in Hlen. rewrite E in Hlen. simpl in Hlen. lia.
Qed.

Lemma pen2_value : forall p k zref y, wave_grid k -> (3 <= length k)%nat -> regular_curves k y -> 0 < zref ->
  pen2 p k zref y = Ok (Fin (alpha_pen2 p * (mean_sq_excess (flat_map (bends k) y) / zref^2))).
Proof.
  intros p k zref y Hk Hl [Hne Hy] Hz. unfold pen2. cbv zeta. rewrite Forall_forall in Hy.
  rewrite (concat_map_fin _ _ (bends k)) by (intros row Hr; destruct (Hy row Hr); apply d2_row_bends; assumption).
  rewrite relu_mean_value.
  - rewrite weight_value by (apply pow_lt; assumption). rewrite flat_map_concat_map. reflexivity.
  - apply concat_map_nonempty; [assumption|]. intros row Hr E. destruct (Hy row Hr) as [Hlen _].
    apply bends_length in Hlen. rewrite E in Hlen. simpl in Hlen. lia.
Qed.

Lemma reg_value : forall p t, t <> [] ->
  regularization p (ThVec t) = Ok (Fin (beta_reg p * average (map (fun v => v^2) t))).
Proof.
  intros p t Ht. cbn [regularization].
  rewrite (map_ext _ (fun v => Fin (v^2))) by (intros v; cbn; f_equal; ring).
  rewrite <- (map_map (fun v => v^2) Fin). rewrite xmean_fin; [reflexivity|].
  destruct t; [contradiction|discriminate].
Qed.

Lemma coh_value : forall c, proper_component c -> coh_mse (as_argument c) = Fin (mean_sq_difference (fst c) (snd c)).
Proof.
  intros [m d] [Hl Hne]. cbn [fst snd] in *. unfold coh_mse, as_argument. cbn [fst snd].
  assert (E : map xsquare (zip_with (fun a b => xsub (Fin a) b) m (map Fin d))
              = map Fin (map (fun p => (fst p - snd p)^2) (combine m d))).
  { clear Hne. revert d Hl. induction m as [|a m IH]; intros [|b d] Hl; try discriminate; [reflexivity|].
    cbn [map zip_with combine fst snd]. rewrite IH by (cbn in Hl; lia). f_equal. cbn. f_equal. ring. }
  rewrite E, xmean_fin; [reflexivity|]. destruct m; [contradiction|]. destruct d; discriminate.
Qed.

Lemma coherence_value : forall p u v w, proper_component u -> proper_component v -> proper_component w ->
  coherence_loss p (as_argument u) (as_argument v) (as_argument w)
  = Ok (Fin (gamma_coherence p * ((mean_sq_difference (fst u) (snd u) + mean_sq_difference (fst v) (snd v)
                                   + mean_sq_difference (fst w) (snd w)) / 3))).
Proof.
  intros p u v w Hu Hv Hw. unfold coherence_loss. rewrite !coh_value by assumption.
  cbn [xadd]. unfold xdiv, Reqb. destruct (Req_EM_T 3 0); [lra|]. reflexivity.
Qed.

Lemma Rltb_term : forall w v, (if Rltb 0 w then Ok (Fin (w * v)) else Ok (Fin 0)) = Ok (Fin (weighted_term w v)).
Proof. intros w v. unfold Rltb, weighted_term. destruct (Rlt_dec 0 w); reflexivity. Qed.

Lemma total_value : forall p k zref s ys ds th epoch coh,
  wave_grid k -> (3 <= length k)%nat -> regular_curves k ys -> regular_curves k ds -> length ys = length ds ->
  0 < zref ->
  (forall t, th = Some t -> t <> []) ->
  (forall u v w, coh = Some (u, v, w) -> proper_component u /\ proper_component v /\ proper_component w) ->
  fst (agg_eval p k zref s
        (EvalArgs ys ds (match th with Some t => ThVec t | None => ThNone end) epoch
           (match coh with Some (u, v, w) => Some (as_argument u, as_argument v, as_argument w) | None => None end)))
  = Ok (Fin (loss_value p k zref ys ds th coh)).
Proof.
  intros p k zref s ys ds th epoch coh Hk H3 Hy Hd Hl Hz Hth Hcoh.
  unfold agg_eval, eval_terms. cbn [ea_y ea_data ea_theta ea_epoch ea_coh].
  rewrite (mse_value k) by (try assumption; intros ->; cbn in H3; lia). cbn [bind].
  rewrite pen1_value, pen2_value by (try assumption; lia). rewrite !Rltb_term.
  unfold loss_value.
  assert (HT : forall x, (forall t, th = Some t -> t <> []) ->
    bind (if Rltb 0 (beta_reg p)
          then match (match th with Some t => ThVec t | None => ThNone end) with ThNone => Ok (Fin 0) | t => regularization p t end
          else Ok (Fin 0)) (fun r => Ok (x, r))
    = Ok (x, Fin (match th with Some t => weighted_term (beta_reg p) (average (map (fun v => v^2) t)) | None => 0 end))
      :> res ((xr * xr * xr * xr) * xr)).
  { intros x Ht. destruct th as [t|].
    - rewrite reg_value by (apply Ht; reflexivity). rewrite Rltb_term. reflexivity.
    - destruct (Rltb 0 (beta_reg p)); reflexivity. }
  destruct coh as [[[[mu du] [mv dv]] [mw dw]]|].
  - destruct (Hcoh _ _ _ eq_refl) as (Hu & Hv & Hw).
    rewrite coherence_value by assumption. rewrite Rltb_term. cbn [bind fst snd].
    rewrite HT by exact Hth. reflexivity.
  - cbn [bind]. rewrite HT by exact Hth. reflexivity.
Qed.

Lemma sq_all_length : forall n ms ts, length ms = length ts ->
  Forall (fun r => length r = n) ms -> Forall (fun r => length r = n) ts ->
  length (sq_log_distances_all ms ts) = (length ms * n)%nat.
Proof.
  induction ms as [|m ms IH]; intros [|t ts] H Hm Ht; try discriminate; [reflexivity|].
  inversion Hm; inversion Ht; subst. cbn [sq_log_distances_all length]. rewrite app_length, sq_log_length by congruence.
  rewrite IH by (try assumption; cbn in H; lia). reflexivity.
Qed.

Lemma documented_ratio : forall k ys ds, k <> [] -> regular_curves k ys -> regular_curves k ds -> length ys = length ds ->
  exists v, mse_term (concat ys) (concat ds) = Ok (Fin v) /\ documented_misfit k ys ds = INR (length ys) * v.
Proof.
  intros k ys ds Hk Hy Hd Hl. eexists. split; [apply (mse_value k); assumption|].
  unfold documented_misfit, average.
  rewrite (sq_all_length (length k)) by (try assumption; apply regular_len; assumption).
  rewrite mult_INR. field. split; apply not_0_INR.
  - destruct k; [contradiction|discriminate].
  - destruct Hy as [Hne _]. destruct ys; [contradiction|discriminate].
Qed.

Lemma documented_differs : forall k ys ds, k <> [] -> regular_curves k ys -> regular_curves k ds -> length ys = length ds ->
  (2 <= length ys)%nat -> ~ Forall2 (fun a b => Rabs a = Rabs b) (concat ys) (concat ds) ->
  exists v, mse_term (concat ys) (concat ds) = Ok (Fin v) /\ v < documented_misfit k ys ds.
Proof.
  intros k ys ds Hk Hy Hd Hl H2 Hn. destruct (documented_ratio k ys ds Hk Hy Hd Hl) as (v & E & D).
  exists v. split; [exact E|]. rewrite D.
  assert (LC : length (concat ys) = length (concat ds)).
  { rewrite (concat_len (length k)), (concat_len (length k) ds) by (apply regular_len; assumption). congruence. }
  destruct (mse_proper (concat ys) (concat ds) LC) as (w & E' & P & Z).
  - intros N. apply (f_equal (@length R)) in N. rewrite (concat_len (length k)) in N by (apply regular_len; assumption).
    destruct k; [contradiction|]. cbn in N. nia.
  - apply concat_nz, (regular_nz k); assumption.
  - apply concat_nz, (regular_nz k); assumption.
  - rewrite E in E'. injection E' as E'. subst w.
    assert (v <> 0) by (intros V; apply Hn, Z; exact V). assert (0 < v) by lra.
    apply (le_INR 2) in H2. cbn in H2. nra.
Qed.
