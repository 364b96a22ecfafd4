(** Property theorems: records of a calibration for TensorBoard (C176-C178). *)

From Coq Require Import String Reals List Arith Bool Lra Lia.
From Verif Require Import Prelude LossModel CalModel ProbModel LogModel LossSpec LogSpec.
From Verif Require Import CalMore LogProofs LogTrain LogCases LogMore.
Import ListNotations.
Open Scope R_scope.

(** C176 *)

Theorem C176_transparent : forall c opt sched epoch left s p k1 zref st h,
  snd (train_log c opt sched epoch left s) = train_run c opt sched epoch left s
  /\ snd (run_log p k1 zref st h) = agg_run p k1 zref st h.
Proof. intros c opt sched epoch left s p k1 zref st h. exact (conj (train_log_snd c opt sched left epoch s) (run_log_snd p k1 zref h st)). Qed.
Print Assumptions C176_transparent.

Theorem C176_sum : forall p k1 zref s a w l s', eval_log p k1 zref s a = (w, (Ok l, s')) ->
  of_evaluation (ea_epoch a) w /\ total_of (recorded_terms w) = l /\ NoDup (map ev_tag w).
Proof. exact evaluation_records. Qed.
Print Assumptions C176_sum.

Theorem C176_tags : forall p k1 zref s a w l s', eval_log p k1 zref s a = (w, (Ok l, s')) ->
  (In "Coherence Loss/Total"%string (map ev_tag w) <-> uses_coherence p a)
  /\ (In "1st Order Penalty"%string (map ev_tag w) <-> 0 < alpha_pen1 p)
  /\ (In "2nd Order Penalty"%string (map ev_tag w) <-> 0 < alpha_pen2 p)
  /\ (In "Regularization"%string (map ev_tag w) <-> uses_regularization p a).
Proof. exact tag_present. Qed.
Print Assumptions C176_tags.

Theorem C176_failed : forall p k1 zref s a w e s', eval_log p k1 zref s a = (w, (Err e, s')) ->
  s' = s /\ of_evaluation (ea_epoch a) w
  /\ (forall t, In t (map ev_tag w) -> ~ In t ["Component_Ratios/MSE"; "Component_Ratios/Coherence"; "Component_Ratios/Penalties"; "Component_Ratios/Regularization"]%string)
  /\ ((e = ValueError /\ exists ev, In ev w /\ ev_value ev = NaN /\ In (ev_tag ev) term_tags)
      \/ (e = AttributeError /\ (exists x, ea_theta a = ThFloat x) /\ 0 < beta_reg p /\ ~ In "Regularization"%string (map ev_tag w))).
Proof. exact failed_evaluation. Qed.
Print Assumptions C176_failed.

Theorem C176_ratios : forall p k1 zref h s k, (k < 4)%nat ->
  map (ratio_field k) (la_ratios (agg_run p k1 zref s h))
  = map (ratio_field k) (la_ratios s) ++ scalars (ratio_tag k) (fst (run_log p k1 zref s h)).
Proof. exact run_ratios. Qed.
Print Assumptions C176_ratios.

Example C176_case : (exists w l s', eval_log case_loss [1; 2; 4] 40 agg_init (case_args 3 true) = (w, (Ok (Fin l), s')))
  /\ uses_coherence case_loss (case_args 3 true)
  /\ exists w s', eval_log case_loss [1; 2; 4] 40 agg_init (EvalArgs [[0]] [[0]] ThNone 3 None) = (w, (Err ValueError, s')).
Proof.
  split; [|split].
  - destruct (case_eval 3 true agg_init) as (l & s' & E & _). rewrite <- eval_log_snd in E.
    destruct (eval_log _ _ _ _ _) as [w r]. cbn [snd] in E. rewrite E. do 3 eexists. reflexivity.
  - split; [discriminate|cbn; lra].
  - pose proof (eval_log_snd case_loss [1; 2; 4] 40 agg_init (EvalArgs [[0]] [[0]] ThNone 3 None)) as E.
    assert (F : agg_eval case_loss [1; 2; 4] 40 agg_init (EvalArgs [[0]] [[0]] ThNone 3 None) = (Err ValueError, agg_init)).
    { unfold agg_eval, eval_terms. cbn [ea_y ea_data concat app].
      replace (mse_term [0] [0]) with (@Err xr ValueError); [reflexivity|].
      symmetry. apply LossProofs.mse_raises_iff; [reflexivity|]. right. constructor. }
    rewrite F in E. destruct (eval_log _ _ _ _ _) as [w r]. cbn [snd] in E. rewrite E. do 2 eexists. reflexivity.
Qed.

(** C177 *)

Theorem C177_refuted : forall c opt sched m v s ls, counted c -> (forall e s, asks_at_least 2 (opt e s)) ->
  calibrate c opt sched m = (Ok (v, s), ls) -> (2 <= length ls)%nat ->
  exists e, In e (fst (calibrate_log c opt sched m)) /\ (length ls < ev_step e)%nat.
Proof. exact more_than_epochs. Qed.
Print Assumptions C177_refuted.

Theorem C177_duplicate_refuted : forall c opt sched m w r s, counted c ->
  calibrate_log c opt sched m = (w, (r, Some s)) -> (1 <= ts_ecount s)%nat ->
  ~ NoDup (map (fun e => (ev_tag e, ev_step e)) w).
Proof. exact step_zero_twice. Qed.
Print Assumptions C177_duplicate_refuted.

Theorem C177_evaluations_partial : forall c opt sched m w r s, counted c -> calibrate_log c opt sched m = (w, (r, Some s)) ->
  exists first blocks, w = first ++ concat blocks /\ of_evaluation 0 first
  /\ (forall i b, nth_error blocks i = Some b -> of_evaluation i b)
  /\ (forall i b v l, nth_error blocks i = Some b -> nth_error (ts_seen s) i = Some (v, l) -> total_of (recorded_terms b) = l)
  /\ ts_ecount s = length (ts_seen s) /\ (r = Ok tt -> length blocks = length (ts_seen s))
  /\ (length (ts_seen s) <= length blocks <= S (length (ts_seen s)))%nat.
Proof. exact calibration_blocks. Qed.
Print Assumptions C177_evaluations_partial.

Example C177_case : counted (case_cfg 3) /\ (forall e s, asks_at_least 2 (twice_opt e s))
  /\ (exists v s ls, calibrate (case_cfg 3) twice_opt (fun _ r => r) demo = (Ok (v, s), ls) /\ length ls = 3%nat)
  /\ exists w s, calibrate_log (case_cfg 3) twice_opt (fun _ r => r) demo = (w, (Ok tt, Some s)) /\ (6 <= ts_ecount s)%nat.
Proof.
  split; [apply case_counted|]. split; [exact case_asks|]. split.
  - apply case_run. lia.
  - apply (case_log 3). lia.
Qed.

(** C178 *)

Theorem C178_refuted : forall c opt sched m w s, counted c -> (forall m n, uses_coherence (tg_loss c) (tg_args c m n)) ->
  calibrate_log c opt sched m = (w, (Ok tt, Some s)) -> (1 <= ts_ecount s)%nat ->
  exists drawn, plot_loss_logs (series_of w) = Ok drawn
  /\ In ("MSE Loss"%string, skipn 2 (h_mse (ts_agg s))) drawn /\ In ("Coherence Loss/Total"%string, skipn 3 (h_coh (ts_agg s))) drawn.
Proof. exact shifted_curves. Qed.
Print Assumptions C178_refuted.

Theorem C178_penalties_partial : forall c opt sched m w s, counted c -> 0 < alpha_pen1 (tg_loss c) -> 0 < alpha_pen2 (tg_loss c) ->
  calibrate_log c opt sched m = (w, (Ok tt, Some s)) ->
  exists drawn, plot_loss_logs (series_of w) = Ok drawn
  /\ In ("MSE Loss"%string, skipn 2 (h_mse (ts_agg s))) drawn /\ In ("1st Order Penalty"%string, skipn 2 (h_pen1 (ts_agg s))) drawn
  /\ In ("2nd Order Penalty"%string, skipn 2 (h_pen2 (ts_agg s))) drawn.
Proof. exact aligned_curves. Qed.
Print Assumptions C178_penalties_partial.

Example C178_case : exists w s, calibrate_log (case_cfg 5) twice_opt (fun _ r => r) demo = (w, (Ok tt, Some s)) /\ (10 <= ts_ecount s)%nat
  /\ (forall m n, uses_coherence (tg_loss (case_cfg 5)) (tg_args (case_cfg 5) m n))
  /\ 0 < alpha_pen1 (tg_loss (case_cfg 5)) /\ 0 < alpha_pen2 (tg_loss (case_cfg 5)).
Proof.
  destruct (case_log 5) as (w & s & E & L); [lia|]. exists w, s. split; [exact E|]. split; [lia|]. split; [intros m n; apply case_uses|].
  cbn. lra.
Qed.

(** C178: the figure has one panel for every recorded quantity, which shows its values in the
    order they were recorded, without the first two. *)
Theorem C178_panels_partial : forall w drawn, plot_loss_logs (series_of w) = Ok drawn ->
  NoDup (map fst drawn) /\ (forall t, In t (map fst drawn) <-> In t (map ev_tag w))
  /\ forall t v, In (t, v) drawn -> v = skipn 2 (map ev_value (filter (fun e => String.eqb (ev_tag e) t) w)).
Proof. exact one_panel_each. Qed.
Print Assumptions C178_panels_partial.

Example C178_panels_case : exists drawn,
  plot_loss_logs (series_of [Event "a" (Fin 1) 0; Event "b" (Fin 2) 0; Event "a" (Fin 3) 1; Event "a" (Fin 4) 2]) = Ok drawn /\ NoDup (map fst drawn).
Proof.
  set (w := [Event _ _ _; Event _ _ _; Event _ _ _; Event _ _ _]). eexists. split; [reflexivity|].
  apply (proj1 (C178_panels_partial w _ eq_refl)).
Qed.
