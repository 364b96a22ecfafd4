(** A short history for the advice on the learning rate. *)

From Coq Require Import Reals List Arith Bool Lra Lia.
From Verif Require Import Prelude LossModel LossSpec LossProofs LossMore AdvSpec AdvProofs.
Import ListNotations.
Open Scope R_scope.

(** One datum 1 and the model value e^a: the misfit is a^2. *)
Definition off_by (a : R) : eval_args := EvalArgs [[exp a]] [[1]] ThNone 1 None.
Definition misfit_only : loss_params := LossParams 0 0 0 0.

Lemma off_by_terms : forall a, eval_terms misfit_only [1] 40 (off_by a) = Ok (Fin (a^2), Fin 0, Fin 0, Fin 0, Fin 0).
Proof.
  intros a. unfold eval_terms, off_by, misfit_only. cbn [ea_y ea_data ea_theta ea_coh concat app alpha_pen1 alpha_pen2 beta_reg gamma_coherence].
  assert (E : mse_term [exp a] [1] = Ok (Fin (a^2))).
  { unfold mse_term. cbn [zip_with map]. rewrite log_ratio_regular; [|apply Rgt_not_eq, exp_pos|lra].
    rewrite Rabs_R1, Rabs_pos_eq by (left; apply exp_pos). replace (exp a / 1) with (exp a) by lra. rewrite ln_exp.
    cbn [xsquare xmul]. change [Fin (a * a)] with (map Fin [a * a]). rewrite xmean_fin by discriminate.
    rewrite nan_guard_fin. unfold Rmean. cbn. do 2 f_equal. field. }
  rewrite E. cbn [bind]. rewrite (Rltb_false 0 0) by lra. reflexivity.
Qed.

Definition falling : agg := agg_run misfit_only [1] 40 agg_init [off_by 1; off_by (1/2)].

Lemma falling_window : window_of 2 falling (fun c => match c with Cmse => [1^2; (1/2)^2] | _ => [0; 0] end) [1^2 + 0 + 0 + 0 + 0; (1/2)^2 + 0 + 0 + 0 + 0].
Proof.
  destruct (run_histories misfit_only [1] 40 [off_by 1; off_by (1/2)]) as (H0 & H1 & H2 & H3 & H4 & H5). fold falling in H0, H1, H2, H3, H4, H5.
  unfold successes in *. cbn [flat_map] in *. rewrite !off_by_terms in *. cbn [app map t_mse t_coh t_pen1 t_pen2 t_reg t_sum xadd] in *.
  split; [|split; [reflexivity|exists []; rewrite H5; reflexivity]].
  intros c. destruct c; (split; [reflexivity|]); exists []; cbn [history]; [rewrite H0|rewrite H1|rewrite H2|rewrite H3|rewrite H4]; reflexivity.
Qed.

(** All terms present and comparable. *)
Definition even : agg :=
  Agg [Fin 2; Fin 1] [Fin 2; Fin 1] [Fin 2; Fin 1] [Fin 2; Fin 1] [Fin 2; Fin 1] [Fin 3; Fin 1] (Fin 1) (Fin 1) (Fin 1) (Fin 1) (Fin 1) [].

Lemma even_window : window_of 2 even (fun _ => [2; 1]) [3; 1].
Proof. split; [intros c; split; [reflexivity|exists []; destruct c; reflexivity]|]. split; [reflexivity|exists []; reflexivity]. Qed.

Lemma even_measures : improvement [3; 1] = 2/3 /\ deviation [3; 1] = 1.
Proof.
  assert (Z : / 10^8 <= 3) by lra.
  split.
  - unfold improvement. change (length [3; 1] / 2)%nat with 1%nat. unfold Rmean. cbn [firstn skipn Rsum fold_right length INR map].
    rewrite Rmax_left; [|cbn; lra]. cbn. lra.
  - unfold deviation, Rmean. cbn. replace (((3 - (3 + (1 + 0)) / (1 + 1)) * ((3 - (3 + (1 + 0)) / (1 + 1)) * 1) + ((1 - (3 + (1 + 0)) / (1 + 1)) * ((1 - (3 + (1 + 0)) / (1 + 1)) * 1) + 0)) / (1 + 1)) with 1 by field.
    apply sqrt_1.
Qed.
