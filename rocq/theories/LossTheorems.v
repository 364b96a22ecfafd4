(** Property theorems about the calibration losses (C27-C32, C78-C81). *)

From Coq Require Import Reals Lra Lia List Arith Sorted Bool.
From Verif Require Import Prelude SpectraProofs LossModel LossSpec LossProofs LossMore.
Import ListNotations.
Open Scope R_scope.

(** C27 *)

Theorem C27_misfit_proper : forall model target, length model = length target -> model <> [] ->
  Forall (fun v => v <> 0) model -> Forall (fun v => v <> 0) target ->
  exists v, mse_term model target = Ok (Fin v) /\ 0 <= v
  /\ (v = 0 <-> Forall2 (fun a b => Rabs a = Rabs b) model target).
Proof. exact mse_proper. Qed.
Print Assumptions C27_misfit_proper.

Example C27_case : exists v, mse_term [2; 4] [2; -3] = Ok (Fin v) /\ 0 < v.
Proof.
  destruct (C27_misfit_proper [2; 4] [2; -3]) as (v & E & H & H0);
    try reflexivity; try discriminate; try (repeat constructor; lra).
  exists v. split; [exact E|]. destruct H as [H|H]; [exact H|]. exfalso.
  destruct H0 as [H0 _]. specialize (H0 (eq_sym H)). inversion H0 as [|a b l m _ H1]; subst.
  inversion H1 as [|a b l m H2 _]; subst. rewrite (Rabs_left (-3)), (Rabs_pos_eq 4) in H2 by lra. lra.
Qed.

Theorem C27_misfit_raises_exactly : forall model target, length model = length target ->
  (mse_term model target = Err ValueError <-> model = [] \/ common_zero model target).
Proof. exact mse_raises_iff. Qed.
Print Assumptions C27_misfit_raises_exactly.

Example C27_raises_case : mse_term [1; 0] [2; 0] = Err ValueError.
Proof. apply C27_misfit_raises_exactly; [reflexivity|]. right. repeat constructor. Qed.

Theorem C27_misfit_otherwise : forall model target, length model = length target -> model <> [] ->
  ~ common_zero model target ->
  exists x, mse_term model target = Ok x /\ (x = PInf \/ exists v, x = Fin v /\ 0 <= v).
Proof. exact mse_otherwise. Qed.
Print Assumptions C27_misfit_otherwise.

Example C27_otherwise_case : exists x, mse_term [0] [2] = Ok x.
Proof.
  destruct (C27_misfit_otherwise [0] [2]) as (x & E & _); [reflexivity|discriminate| |eauto].
  intro H. inversion H as [? ? |? ? ? ? G]; [lra|inversion G].
Qed.

Theorem C27_misfit_scale_invariant : forall c model target, c <> 0 ->
  mse_term (map (Rmult c) model) (map (Rmult c) target) = mse_term model target.
Proof. exact mse_scale. Qed.
Print Assumptions C27_misfit_scale_invariant.

Example C27_scale_case : mse_term [-2 * 3; -2 * 5] [-2 * 4; -2 * 0] = mse_term [3; 5] [4; 0].
Proof. apply (C27_misfit_scale_invariant (-2) [3; 5] [4; 0]). lra. Qed.

Theorem C27_misfit_symmetric : forall model target, mse_term model target = mse_term target model.
Proof. exact mse_symmetric. Qed.
Print Assumptions C27_misfit_symmetric.

Example C27_symmetric_case : mse_term [3; 5] [4; 7] = mse_term [4; 7] [3; 5].
Proof. apply C27_misfit_symmetric. Qed.

(** C28 *)

Theorem C28_first_order_penalty : forall p k zref y, wave_grid k -> (2 <= length k)%nat -> regular_curves k y ->
  0 < alpha_pen1 p -> 0 < zref ->
  exists v, pen1 p k zref y = Ok (Fin v) /\ 0 <= v /\ (v = 0 <-> Forall nonincreasing_abs y).
Proof. exact pen1_proper. Qed.
Print Assumptions C28_first_order_penalty.

Lemma demo_grid : wave_grid [1; 2; 4].
Proof. split; repeat constructor; lra. Qed.

Lemma demo_curves : regular_curves [1; 2; 4] [[8; -4; 2]; [1; 3; 1]].
Proof. split; [discriminate|]. repeat constructor; lra. Qed.

Example C28_first_order_case : exists v, pen1 (LossParams 1 1 1 1) [1; 2; 4] 40 [[8; -4; 2]; [1; 3; 1]] = Ok (Fin v) /\ 0 < v.
Proof.
  destruct (C28_first_order_penalty (LossParams 1 1 1 1) [1; 2; 4] 40 _ demo_grid ltac:(simpl; lia) demo_curves
              ltac:(simpl; lra) ltac:(lra)) as (v & E & H & H0).
  exists v. split; [exact E|]. destruct H as [H|H]; [exact H|]. exfalso.
  destruct H0 as [H0 _]. specialize (H0 (eq_sym H)).
  inversion H0 as [|? ? _ H1]; subst. inversion H1 as [|? ? H2 _]; subst.
  inversion H2 as [|? ? _ H3]; subst. inversion H3 as [|? ? H4]; subst.
  rewrite !Rabs_pos_eq in H4 by lra. lra.
Qed.

Theorem C28_second_order_penalty : forall p k zref y, wave_grid k -> (3 <= length k)%nat -> regular_curves k y ->
  0 < alpha_pen2 p -> 0 < zref ->
  exists v, pen2 p k zref y = Ok (Fin v) /\ 0 <= v
  /\ (v = 0 <-> Forall (fun row => nonincreasing (slopes k row)) y).
Proof. exact pen2_proper. Qed.
Print Assumptions C28_second_order_penalty.

Example C28_second_order_case : exists v, pen2 (LossParams 1 1 1 1) [1; 2; 4] 40 [[8; -4; 2]; [1; 3; 1]] = Ok (Fin v).
Proof.
  destruct (C28_second_order_penalty (LossParams 1 1 1 1) [1; 2; 4] 40 _ demo_grid ltac:(simpl; lia) demo_curves
              ltac:(simpl; lra) ltac:(lra)) as (v & E & _). eauto.
Qed.

Theorem C28_regulariser : forall p theta, theta <> [] -> 0 < beta_reg p ->
  exists v, regularization p (ThVec theta) = Ok (Fin v) /\ 0 <= v /\ (v = 0 <-> Forall (fun x => x = 0) theta).
Proof. exact regularization_proper. Qed.
Print Assumptions C28_regulariser.

Example C28_regulariser_case : exists v, regularization (LossParams 0 0 1 0) (ThVec [0; 3]) = Ok (Fin v) /\ v <> 0.
Proof.
  destruct (C28_regulariser (LossParams 0 0 1 0) [0; 3]) as (v & E & _ & H); [discriminate|simpl; lra|].
  exists v. split; [exact E|]. intro G. apply H in G. inversion G as [|? ? _ G1]; subst. inversion G1; subst. lra.
Qed.

(** C29 *)

Theorem C29_histories_are_successful_evaluations : forall p k zref h,
  let s := agg_run p k zref agg_init h in let t := successes p k zref h in
  h_mse s = map t_mse t /\ h_coh s = map t_coh t /\ h_pen1 s = map t_pen1 t /\ h_pen2 s = map t_pen2 t
  /\ h_reg s = map t_reg t /\ h_total s = map t_sum t.
Proof. exact run_histories. Qed.
Print Assumptions C29_histories_are_successful_evaluations.

Theorem C29_raising_leaves_state : forall p k zref s a e,
  fst (agg_eval p k zref s a) = Err e -> snd (agg_eval p k zref s a) = s.
Proof. exact eval_raises_unchanged. Qed.
Print Assumptions C29_raising_leaves_state.

Theorem C29_returned_total : forall p k zref s a v, fst (agg_eval p k zref s a) = Ok v ->
  exists t, eval_terms p k zref a = Ok t /\ v = t_sum t
  /\ h_total (snd (agg_eval p k zref s a)) = h_total s ++ [v].
Proof. exact eval_returns. Qed.
Print Assumptions C29_returned_total.

Definition plain : loss_params := LossParams 0 0 0 0.
Definition bad : eval_args := EvalArgs [[0; 1]] [[0; 1]] ThNone 1 None.
Definition good : eval_args := EvalArgs [[2; 4]] [[2; -3]] ThNone 2 None.

Lemma bad_raises : eval_terms plain [1; 2] 40 bad = Err ValueError.
Proof.
  unfold eval_terms, bad. simpl. rewrite (proj2 (C27_misfit_raises_exactly [0; 1] [0; 1] eq_refl)); [reflexivity|].
  right. constructor.
Qed.

Lemma good_returns : exists v, 0 < v /\ eval_terms plain [1; 2] 40 good = Ok (Fin v, Fin 0, Fin 0, Fin 0, Fin 0).
Proof.
  destruct C27_case as (v & E & Hv). exists v. split; [exact Hv|]. unfold eval_terms, good. simpl. rewrite E. simpl.
  unfold Rltb. destruct (Rlt_dec 0 0); [lra|]. reflexivity.
Qed.

Example C29_case : exists v, h_total (agg_run plain [1; 2] 40 agg_init [bad; good; bad; good]) = [Fin v; Fin v] /\ 0 < v.
Proof.
  destruct good_returns as (v & Hv & E). exists v. split; [|exact Hv].
  destruct (C29_histories_are_successful_evaluations plain [1; 2] 40 [bad; good; bad; good]) as (_ & _ & _ & _ & _ & H).
  rewrite H. unfold successes. simpl. rewrite bad_raises, E. simpl. repeat f_equal; lra.
Qed.

Example C29_raising_case : snd (agg_eval plain [1; 2] 40 agg_init bad) = agg_init.
Proof. apply (C29_raising_leaves_state _ _ _ _ _ ValueError). unfold agg_eval. rewrite bad_raises. reflexivity. Qed.

Example C29_total_case : exists v, fst (agg_eval plain [1; 2] 40 agg_init good) = Ok (Fin v) /\ 0 < v.
Proof.
  destruct good_returns as (v & Hv & E). unfold agg_eval. rewrite E. simpl. exists (v + 0 + 0 + 0 + 0).
  split; [reflexivity|lra].
Qed.

(** C30 *)

Theorem C30_ratios_partition_unity : forall p k zref h, 0 < zref ->
  Forall all_finite (successes p k zref h) ->
  Forall (fun x : nat * (xr * xr * xr * xr) => match x with
    | (e, (a, b, c, d)) =>
        (0 < e)%nat /\ exists ra rb rc rd, a = Fin ra /\ b = Fin rb /\ c = Fin rc /\ d = Fin rd
        /\ 0 <= ra /\ 0 <= rb /\ 0 <= rc /\ 0 <= rd /\ ra + rb + rc + rd = 1
    end) (la_ratios (agg_run p k zref agg_init h)).
Proof. exact run_ratios. Qed.
Print Assumptions C30_ratios_partition_unity.

Theorem C30_ratios_are_shares : forall p k zref h a, 0 < zref ->
  Forall all_finite (successes p k zref (h ++ [a])) ->
  (exists v, fst (agg_eval p k zref (agg_run p k zref agg_init h) a) = Ok v) -> (0 < ea_epoch a)%nat ->
  exists m c p1 p2 r,
  let s := agg_run p k zref agg_init (h ++ [a]) in
  h_mse s = map Fin m /\ h_coh s = map Fin c /\ h_pen1 s = map Fin p1 /\ h_pen2 s = map Fin p2 /\ h_reg s = map Fin r /\
  let M := moving_average in
  let T := M m + M c + M p1 + M p2 + M r in
  (0 < T -> la_ratios s = la_ratios (agg_run p k zref agg_init h)
     ++ [(ea_epoch a, (Fin (M m / T), Fin (M c / T), Fin ((M p1 + M p2) / T), Fin (M r / T)))]).
Proof. exact last_ratio. Qed.
Print Assumptions C30_ratios_are_shares.

Lemma plain_finite : Forall all_finite (successes plain [1; 2] 40 ([bad] ++ [good])).
Proof.
  destruct good_returns as (v & _ & E). unfold successes. simpl. rewrite bad_raises, E. simpl.
  repeat constructor; eexists; reflexivity.
Qed.

Example C30_case : la_ratios (agg_run plain [1; 2] 40 agg_init ([bad] ++ [good])) = [(2%nat, (Fin 1, Fin 0, Fin 0, Fin 0))].
Proof.
  destruct good_returns as (v & Hv & E).
  destruct (C30_ratios_are_shares plain [1; 2] 40 [bad] good ltac:(lra) plain_finite) as (m & c & p1 & p2 & r & Hm & Hc & H1 & H2 & Hr & H).
  { unfold agg_eval. rewrite E. eexists. reflexivity. }
  { simpl. lia. }
  destruct (C29_histories_are_successful_evaluations plain [1; 2] 40 ([bad] ++ [good])) as (G1 & G2 & G3 & G4 & G5 & _).
  cbv zeta in *. rewrite G1 in Hm. rewrite G2 in Hc. rewrite G3 in H1. rewrite G4 in H2. rewrite G5 in Hr.
  unfold successes in *. simpl in Hm, Hc, H1, H2, Hr. rewrite bad_raises, E in Hm, Hc, H1, H2, Hr. simpl in Hm, Hc, H1, H2, Hr.
  assert (S : forall x l, [Fin x] = map Fin l -> l = [x]).
  { intros x [|y [|z l]] G; simpl in G; try discriminate. injection G as ->. reflexivity. }
  apply S in Hm, Hc, H1, H2, Hr. subst. cbn [moving_average fold_left] in H. rewrite H by lra.
  unfold agg_run. cbn [fold_left]. unfold agg_eval. rewrite bad_raises. simpl.
  repeat f_equal; field; lra.
Qed.

Example C30_partition_case : Forall (fun x => (0 < fst x)%nat) (la_ratios (agg_run plain [1; 2] 40 agg_init ([bad] ++ [good]))).
Proof.
  apply Forall_forall. intros [e [[[a b] c] d]] Hin.
  pose proof (C30_ratios_partition_unity plain [1; 2] 40 ([bad] ++ [good]) ltac:(lra) plain_finite) as H.
  rewrite Forall_forall in H. apply (H _ Hin).
Qed.

(** C31 *)

Theorem C31_running_averages : forall p k zref h,
  let s := agg_run p k zref agg_init h in
  (forall l, h_mse s = map Fin l -> r_mse s = Fin (moving_average l))
  /\ (forall l, h_coh s = map Fin l -> r_coh s = Fin (moving_average l))
  /\ (forall l, h_pen1 s = map Fin l -> r_pen1 s = Fin (moving_average l))
  /\ (forall l, h_pen2 s = map Fin l -> r_pen2 s = Fin (moving_average l))
  /\ (forall l, h_reg s = map Fin l -> r_reg s = Fin (moving_average l)).
Proof. exact run_average. Qed.
Print Assumptions C31_running_averages.

Theorem C31_average_within_range : forall l lo hi, l <> [] -> Forall (fun x => lo <= x <= hi) l ->
  lo <= moving_average l <= hi.
Proof. exact moving_average_range. Qed.
Print Assumptions C31_average_within_range.

Example C31_case : moving_average [1; 2; 4] = 139/100 /\ 1 <= moving_average [1; 2; 4] <= 4.
Proof.
  split; [simpl; lra|]. apply C31_average_within_range; [discriminate|]. repeat constructor; lra.
Qed.

Example C31_run_case : exists v, 0 < v /\ r_mse (agg_run plain [1; 2] 40 agg_init [bad; good; good]) = Fin (moving_average [v; v]).
Proof.
  destruct good_returns as (v & Hv & E). exists v. split; [exact Hv|].
  apply (C31_running_averages plain [1; 2] 40 [bad; good; good]).
  destruct (C29_histories_are_successful_evaluations plain [1; 2] 40 [bad; good; good]) as (G1 & _).
  cbv zeta in *. rewrite G1. unfold successes. simpl. rewrite bad_raises, E. reflexivity.
Qed.

(** C32 *)

Theorem C32_advice_defined : forall epoch window s, (2 <= window)%nat ->
  exists a, should_adjust epoch window s = Ok a
  /\ match a with Keep _ => True | Reduce _ f => f = 1/2 \/ f = 3/10 \/ f = 7/10 end.
Proof. exact advice_total. Qed.
Print Assumptions C32_advice_defined.

Theorem C32_advice_never_increases : forall epoch window s a lr, (2 <= window)%nat ->
  should_adjust epoch window s = Ok a -> 0 < lr ->
  3/10 * lr <= apply_advice lr a <= lr /\ (apply_advice lr a = lr <-> exists r, a = Keep r).
Proof. exact advice_lr. Qed.
Print Assumptions C32_advice_never_increases.

Theorem C32_no_advice_before_window : forall epoch window s,
  ((epoch < window)%nat \/ (length (h_total s) < window)%nat) ->
  exists r, should_adjust epoch window s = Ok (Keep r).
Proof. exact advice_before_window. Qed.
Print Assumptions C32_no_advice_before_window.

Theorem C32_stagnation_rule : forall epoch window s pre l, (2 <= window <= epoch)%nat ->
  h_total s = pre ++ map Fin l -> length l = window ->
  let early := Rmean (firstn (window / 2) l) in let late := Rmean (skipn (window / 2) l) in
  (should_adjust epoch window s = Ok (Reduce Stagnation (1/2))
   <-> (early - late) / Rmax early (/ 100000000) < 1/100).
Proof. exact stagnation_rule. Qed.
Print Assumptions C32_stagnation_rule.

(** Boundary: a window of one evaluation is not supported. *)
Theorem C32_window_one_asserts : forall epoch s, (1 <= epoch)%nat -> h_total s <> [] ->
  should_adjust epoch 1 s = Err AssertionError.
Proof. exact window_one_asserts. Qed.
Print Assumptions C32_window_one_asserts.

Definition flat : agg :=
  Agg [Fin 1; Fin 1] [Fin 0; Fin 0] [Fin 0; Fin 0] [Fin 0; Fin 0] [Fin 0; Fin 0] [Fin 1; Fin 1]
      (Fin 1) (Fin 0) (Fin 0) (Fin 0) (Fin 0) [].

Example C32_case : should_adjust 50 2 flat = Ok (Reduce Stagnation (1/2)).
Proof.
  apply (C32_stagnation_rule 50 2 flat [] [1; 1]); [lia|reflexivity|reflexivity|].
  change (2 / 2)%nat with 1%nat. simpl. unfold Rmean, Rsum. simpl. rewrite Rmax_left by lra. lra.
Qed.

Example C32_rate_case : apply_advice 1 (Reduce Stagnation (1/2)) <= 1.
Proof. apply (C32_advice_never_increases 50 2 flat _ 1); [lia|exact C32_case|lra]. Qed.

Example C32_window_case : (exists r, should_adjust 50 3 flat = Ok (Keep r)) /\ should_adjust 50 1 flat = Err AssertionError.
Proof.
  split; [apply C32_no_advice_before_window; right; simpl; lia|].
  apply C32_window_one_asserts; [lia|discriminate].
Qed.

Example C32_defined_case : exists a, should_adjust 50 2 flat = Ok a.
Proof. destruct (C32_advice_defined 50 2 flat) as (a & H & _); [lia|eauto]. Qed.

(** C78 *)

Theorem C78_regulariser_without_network_refuted : forall p k zref s a x, 0 < beta_reg p ->
  ea_theta a = ThFloat x -> forall v, fst (agg_eval p k zref s a) <> Ok v.
Proof. exact float_theta_fails. Qed.
Print Assumptions C78_regulariser_without_network_refuted.

Example C78_case : forall v,
  fst (agg_eval (LossParams 0 0 1 0) [1; 2] 40 agg_init (EvalArgs [[2; 4]] [[2; 4]] (ThFloat 0) 0 None)) <> Ok v.
Proof. apply (C78_regulariser_without_network_refuted _ _ _ _ _ 0); [simpl; lra|reflexivity]. Qed.

(** C79 *)

Theorem C79_scales_bounded : forall st epoch mse coh,
  let '((a, b), _) := compute_loss_scales st epoch mse coh in 0 < a <= 100000000 /\ 0 < b <= 100000000.
Proof. exact scales_bounds. Qed.
Print Assumptions C79_scales_bounded.

Theorem C79_first_call_normalises : forall epoch mse coh, / 100000000 <= mse -> / 100000000 <= coh ->
  compute_loss_scales None epoch mse (Some coh) = ((1 / mse, 1 / coh), Some (mse, coh)).
Proof. exact scales_first. Qed.
Print Assumptions C79_first_call_normalises.

Theorem C79_scales_kept_between_updates : forall m0 c0 epoch mse coh, (epoch mod 10 <> 0)%nat ->
  snd (compute_loss_scales (Some (m0, c0)) epoch mse coh) = Some (m0, c0).
Proof. exact scales_between. Qed.
Print Assumptions C79_scales_kept_between_updates.

Example C79_case : compute_loss_scales None 3 4 (Some 2) = ((1 / 4, 1 / 2), Some (4, 2))
  /\ snd (compute_loss_scales (Some (4, 2)) 3 100 None) = Some (4, 2).
Proof.
  split; [apply C79_first_call_normalises; lra|apply C79_scales_kept_between_updates; simpl; lia].
Qed.

(** C80 *)

Theorem C80_loss_info_is_last_evaluation : forall p k zref h,
  let s := agg_run p k zref agg_init h in
  (successes p k zref h = [] -> get_current_loss_info s = None)
  /\ (forall t0 t, successes p k zref h = t0 ++ [t] ->
      exists rm rc q, get_current_loss_info s = Some (t_mse t, t_coh t, t_sum t, rm, rc, q)
      /\ (forall l, map t_mse (t0 ++ [t]) = map Fin l -> rm = Fin (moving_average l))
      /\ (forall l, map t_coh (t0 ++ [t]) = map Fin l -> rc = Fin (moving_average l))
      /\ (forall a b, rm = Fin a -> rc = Fin b -> q = Fin (a / Rmax b (/ 100000000)))).
Proof. exact info_spec. Qed.
Print Assumptions C80_loss_info_is_last_evaluation.

Example C80_case : get_current_loss_info (agg_run plain [1; 2] 40 agg_init [bad; bad]) = None.
Proof.
  apply C80_loss_info_is_last_evaluation. unfold successes. simpl. rewrite bad_raises. reflexivity.
Qed.

(** C81 *)

Theorem C81_coherence_misfit : forall p mu du mv dv mw dw, 0 < gamma_coherence p ->
  length mu = length du -> length mv = length dv -> length mw = length dw ->
  mu <> [] -> mv <> [] -> mw <> [] ->
  exists v, coherence_loss p (mu, map Fin du) (mv, map Fin dv) (mw, map Fin dw) = Ok (Fin v)
  /\ 0 <= v /\ (v = 0 <-> mu = du /\ mv = dv /\ mw = dw)
  /\ (Forall (fun x => 0 <= x <= 1) (mu ++ mv ++ mw ++ du ++ dv ++ dw) -> v <= gamma_coherence p).
Proof. exact coherence_loss_proper. Qed.
Print Assumptions C81_coherence_misfit.

Theorem C81_missing_data_raises : forall p mu du mv dv mw dw,
  length mu = length du -> length mv = length dv -> length mw = length dw ->
  In NaN du \/ In NaN dv \/ In NaN dw ->
  coherence_loss p (mu, du) (mv, dv) (mw, dw) = Err ValueError.
Proof. exact coherence_nan_raises. Qed.
Print Assumptions C81_missing_data_raises.

Example C81_case : (exists v, coherence_loss (LossParams 0 0 0 2) ([1/2], map Fin [1]) ([0], map Fin [0]) ([1], map Fin [1]) = Ok (Fin v) /\ v <= 2)
  /\ coherence_loss (LossParams 0 0 0 2) ([1/2; 1], [Fin 1; NaN]) ([0], [Fin 0]) ([1], [Fin 1]) = Err ValueError.
Proof.
  split.
  - destruct (C81_coherence_misfit (LossParams 0 0 0 2) [1/2] [1] [0] [0] [1] [1]) as (v & E & _ & _ & H);
      try reflexivity; try discriminate; [simpl; lra|]. exists v. split; [exact E|]. apply H. repeat constructor; lra.
  - apply C81_missing_data_raises; try reflexivity. left. right. left. reflexivity.
Qed.
