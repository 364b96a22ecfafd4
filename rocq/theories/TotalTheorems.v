(** Property theorems about the value of the loss (C138, C139). *)

From Coq Require Import Reals Lra List Sorted.
From Verif Require Import Prelude LossModel LossSpec TotalSpec TotalProofs.
Import ListNotations.
Open Scope R_scope.

(** C138: for spectra without zeros on an increasing grid, the loss is the mean squared
    log-distance plus the weighted coherence misfit, penalties and mean squared
    parameter, each counted exactly when its weight is positive and its data given. *)

Theorem C138_value : forall p k zref s ys ds th epoch coh,
  wave_grid k -> (3 <= length k)%nat -> regular_curves k ys -> regular_curves k ds -> length ys = length ds ->
  0 < zref ->
  (forall t, th = Some t -> t <> []) ->
  (forall u v w, coh = Some (u, v, w) -> proper_component u /\ proper_component v /\ proper_component w) ->
  fst (agg_eval p k zref s
        (EvalArgs ys ds (match th with Some t => ThVec t | None => ThNone end) epoch
           (match coh with Some (u, v, w) => Some (as_argument u, as_argument v, as_argument w) | None => None end)))
  = Ok (Fin (loss_value p k zref ys ds th coh)).
Proof. exact total_value. Qed.
Print Assumptions C138_value.

Example C138_case :
  fst (agg_eval (LossParams 1 1 (1/2) 3) [1; 2; 4] 1 agg_init
         (EvalArgs [[1; 1; 1]] [[1; exp 1; 1]] (ThVec [2; 4]) 7
            (Some (([1], [Fin 0]), ([1; 0], [Fin 0; Fin 0]), ([1/2], [Fin (1/2)])))))
  = Ok (Fin (1/3 + 3 * ((1 + 1/2 + 0) / 3) + 0 + 0 + 1/2 * 10)).
Proof.
  pose proof (C138_value (LossParams 1 1 (1/2) 3) [1; 2; 4] 1 agg_init [[1; 1; 1]] [[1; exp 1; 1]] (Some [2; 4]) 7
                (Some (([1], [0]), ([1; 0], [0; 0]), ([1/2], [1/2])))) as H.
  unfold as_argument in H. cbn [fst snd map] in H. rewrite H.
  - do 2 f_equal. unfold loss_value, weighted_term, average, mean_sq_difference, mean_sq_excess, average. cbn.
    rewrite !(Rabs_pos_eq 1), (Rabs_pos_eq (exp 1)), ln_exp, ln_1 by (try lra; left; apply exp_pos).
    repeat destruct (Rlt_dec _ _); try lra.
    unfold Rdiv. rewrite ?Rminus_0_r, ?Rmult_0_l, ?Rminus_0_r, ?Rmult_0_l.
    rewrite !Rmax_left by lra. lra.
  - repeat constructor; lra.
  - repeat constructor.
  - split; [discriminate|]. repeat constructor; lra.
  - split; [discriminate|]. repeat constructor; try lra. apply Rgt_not_eq, exp_pos.
  - reflexivity.
  - lra.
  - intros t [= <-]. discriminate.
  - intros u v w [= <- <- <-]. repeat split; discriminate.
Qed.

(** C139: the reported misfit is the documented one, summed over the spectra and
    averaged over the wave numbers.  False of the code as soon as two spectra are fitted
    and the fit is not exact: the reported value is smaller. *)

Theorem C139_refuted : forall k ys ds, k <> [] -> regular_curves k ys -> regular_curves k ds -> length ys = length ds ->
  (2 <= length ys)%nat -> ~ Forall2 (fun a b => Rabs a = Rabs b) (concat ys) (concat ds) ->
  exists v, mse_term (concat ys) (concat ds) = Ok (Fin v) /\ v < documented_misfit k ys ds.
Proof. exact documented_differs. Qed.
Print Assumptions C139_refuted.

(** The reported value is the documented one divided by the number of spectra. *)
Theorem C139_ratio_partial : forall k ys ds, k <> [] -> regular_curves k ys -> regular_curves k ds ->
  length ys = length ds ->
  exists v, mse_term (concat ys) (concat ds) = Ok (Fin v) /\ documented_misfit k ys ds = INR (length ys) * v.
Proof. exact documented_ratio. Qed.
Print Assumptions C139_ratio_partial.

Example C139_case : exists v, mse_term [1; 1] [exp 1; 1] = Ok (Fin v) /\ v < documented_misfit [5] [[1]; [1]] [[exp 1]; [1]].
Proof.
  pose proof (exp_pos 1) as E. apply (C139_refuted [5] [[1]; [1]] [[exp 1]; [1]]).
  - discriminate.
  - split; [discriminate|]. repeat constructor; lra.
  - split; [discriminate|]. repeat constructor; lra.
  - reflexivity.
  - repeat constructor.
  - intros H. inversion H as [|? ? ? ? A _]; subst. rewrite !Rabs_pos_eq in A by lra.
    pose proof (exp_ineq1 1). lra.
Qed.
