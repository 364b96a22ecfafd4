(** A small calibration with all kinds of records. *)

From Coq Require Import String Reals List Arith Bool Lra Lia.
From Verif Require Import Prelude LossModel CalModel ProbModel LogModel LossSpec LogSpec.
From Verif Require Import LossProofs CalProofs CalMore LogProofs LogTrain.
Import ListNotations.
Open Scope R_scope.

(** Two curves at three wave numbers, fitted exactly; coherence data half as large as
    the model at one separation. *)
Definition case_y : list (list R) := [[8; -4; 2]; [1; 3; 1]].
Definition case_loss : loss_params := LossParams 1 1 0 2.
Definition case_coh : coh_pair * coh_pair * coh_pair := (([1/2], [Fin 1]), ([0], [Fin 0]), ([1], [Fin 1])).
Definition case_args (n : nat) (coh : bool) : eval_args :=
  EvalArgs case_y case_y ThNone n (if coh then Some case_coh else None).
Definition case_cfg (n : nat) : train_cfg :=
  TCfg case_loss [1; 2; 4] 40 (-1) n 1 (fun _ => case_args 0 false) (fun _ n => case_args n true).

(** An optimiser which evaluates the loss twice per step and keeps the parameters. *)
Definition twice_opt (_ : nat) (s : tstate) : strategy :=
  let v := get_parameters (ts_mod s) in Ask v (fun _ => Ask v (fun _ => Finish v)).

Lemma case_counted : forall n, counted (case_cfg n).
Proof. intros n. split; [intros m; split; reflexivity|reflexivity]. Qed.

Lemma case_asks : forall e s, asks_at_least 2 (twice_opt e s).
Proof. intros e s. cbn. exact (fun _ _ => I). Qed.

Lemma case_terms : forall n b, exists m c p1 p2,
  eval_terms case_loss [1; 2; 4] 40 (case_args n b) = Ok (Fin m, Fin c, Fin p1, Fin p2, Fin 0) /\ 0 <= m /\ 0 <= c /\ 0 <= p1 /\ 0 <= p2.
Proof.
  intros n b.
  assert (W : wave_grid [1; 2; 4]). { repeat constructor; lra. }
  assert (Y : regular_curves [1; 2; 4] case_y).
  { split; [discriminate|]. repeat constructor; lra. }
  destruct (mse_proper (concat case_y) (concat case_y)) as (m & Em & Pm & _); try reflexivity; try discriminate; try (repeat constructor; lra).
  destruct (pen1_proper case_loss [1; 2; 4] 40 case_y W) as (p1 & E1 & P1 & _); [cbn; lia|exact Y|cbn; lra|lra|].
  destruct (pen2_proper case_loss [1; 2; 4] 40 case_y W) as (p2 & E2 & P2 & _); [cbn; lia|exact Y|cbn; lra|lra|].
  destruct (coherence_loss_proper case_loss [1/2] [1] [0] [0] [1] [1]) as (c & Ec & Pc & _); try reflexivity; try discriminate; [cbn; lra|].
  exists m, (if b then c else 0), p1, p2. split; [|destruct b; repeat split; lra].
  unfold eval_terms, case_args. cbn [ea_y ea_data ea_theta ea_coh]. rewrite Em. cbn [bind].
  assert (T1 : Rltb 0 1 = true) by (apply Rltb_pos; lra). assert (T2 : Rltb 0 2 = true) by (apply Rltb_pos; lra).
  assert (T0 : Rltb 0 0 = false). { unfold Rltb. destruct (Rlt_dec 0 0); [lra|reflexivity]. }
  change (gamma_coherence case_loss) with 2. change (alpha_pen1 case_loss) with 1. change (alpha_pen2 case_loss) with 1. change (beta_reg case_loss) with 0.
  rewrite T0, T1. destruct b; cbn [bind case_coh].
  - rewrite T2. cbn [map] in Ec. rewrite Ec. cbn [bind]. rewrite E1. cbn [bind]. rewrite E2. reflexivity.
  - rewrite E1. cbn [bind]. rewrite E2. reflexivity.
Qed.

Lemma case_eval : forall n b s, exists l s', agg_eval case_loss [1; 2; 4] 40 s (case_args n b) = (Ok (Fin l), s') /\ 0 <= l.
Proof.
  intros n b s. destruct (case_terms n b) as (m & c & p1 & p2 & E & P). unfold agg_eval. rewrite E.
  do 2 eexists. split; [reflexivity|lra].
Qed.

Lemma case_closure : forall n v s, exists s' l, closure_eval (case_cfg n) v s = Ok s' /\ ts_mod s' = vector_to_parameters (ts_mod s) v
  /\ ts_loss s' = Fin l /\ 0 <= l.
Proof.
  intros n v s. unfold closure_eval. cbn [case_cfg tg_loss tg_k1 tg_zref tg_args].
  destruct (case_eval (ts_ecount s) true (ts_agg s)) as (l & a & -> & P). eexists. exists l. split; [reflexivity|]. repeat split. exact P.
Qed.

Lemma case_step : forall n e s, exists s' l, run_strategy (case_cfg n) (twice_opt e s) s = Ok s' /\ ts_mod s' = ts_mod s
  /\ ts_loss s' = Fin l /\ 0 <= l.
Proof.
  intros n e s. unfold twice_opt. cbn [run_strategy].
  destruct (case_closure n (get_parameters (ts_mod s)) s) as (s1 & l1 & -> & M1 & _).
  destruct (case_closure n (get_parameters (ts_mod s)) s1) as (s2 & l2 & -> & M2 & L2 & P2).
  eexists. exists l2. split; [reflexivity|]. cbn [ts_mod ts_loss]. rewrite M2, M1, !vtp_get. repeat split; assumption.
Qed.

Lemma case_train : forall n left epoch s q, mp_pq (ts_mod s) = Some q -> (epoch + left < 50)%nat -> (1 <= epoch)%nat ->
  exists s' ls, train (case_cfg n) twice_opt (fun _ r => r) epoch left s = (Ok s', ls) /\ length ls = left /\ ts_mod s' = ts_mod s.
Proof.
  intros n left. induction left as [|left IH]; intros epoch s q Q B K; cbn [train].
  - eexists. exists []. repeat split.
  - destruct (case_step n epoch s) as (s0 & l & -> & M & L & P). cbn [ts_mod ts_loss]. rewrite M, Q, L.
    cbn [xfinite negb case_cfg tg_tol xltb]. replace (Rltb l (-1)) with false by (symmetry; unfold Rltb; destruct (Rlt_dec l (-1)); [lra|reflexivity]).
    unfold lr_check. replace (epoch mod 50)%nat with epoch by (symmetry; apply Nat.mod_small; lia).
    destruct (epoch =? 0)%nat eqn:E; [apply Nat.eqb_eq in E; lia|]. cbv iota.
    match goal with |- context [train _ _ _ (S epoch) left ?x] => destruct (IH (S epoch) x q) as (s' & ls & H & LL & MM) end; [reflexivity || (cbn [ts_mod]; rewrite ?M; exact Q)|lia|lia|].
    fold (case_cfg n). rewrite H. eexists. eexists. split; [reflexivity|]. split; [cbn [fst snd length]; rewrite LL; reflexivity|]. rewrite MM. cbn [ts_mod]. first [exact M|reflexivity].
Qed.

Lemma case_run : forall n, (n < 49)%nat -> exists v s ls, calibrate (case_cfg n) twice_opt (fun _ r => r) demo = (Ok (v, s), ls) /\ length ls = n.
Proof.
  intros n B. unfold calibrate. cbn [case_cfg tg_loss tg_k1 tg_zref tg_args0 tg_nepochs].
  destruct (case_eval 0 false agg_init) as (l & a & -> & _). fold (case_cfg n).
  destruct (case_train n n 1 (TS demo (Fin l) a 0 (tg_lr (case_cfg n)) []) (4, 2)) as (s & ls & E & LL & M); [reflexivity|lia|lia|].
  rewrite E. cbn [fst snd bind]. rewrite M. eexists. exists s, ls. split; [reflexivity|exact LL].
Qed.
