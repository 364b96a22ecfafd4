(** Statements about the records of a calibration, put together for the theorems. *)

From Coq Require Import String Reals List Arith Bool Lra Lia.
From Verif Require Import Prelude LossModel CalModel ProbModel LogModel LossSpec LogSpec.
From Verif Require Import LossProofs CalProofs CalMore LogProofs LogTrain LogCases.
Import ListNotations.
Open Scope R_scope.

Lemma more_than_epochs : forall c opt sched m v s ls, counted c -> (forall e s, asks_at_least 2 (opt e s)) ->
  calibrate c opt sched m = (Ok (v, s), ls) -> (2 <= length ls)%nat ->
  exists e, In e (fst (calibrate_log c opt sched m)) /\ (length ls < ev_step e)%nat.
Proof.
  intros c opt sched m v s ls C A H L. destruct (steps_exceed c opt sched m v s ls 2 C A H) as (e & I1 & I2); [lia|].
  exists e. split; [exact I1|lia].
Qed.

Lemma case_log : forall n, (n < 49)%nat -> exists w s, calibrate_log (case_cfg n) twice_opt (fun _ r => r) demo = (w, (Ok tt, Some s))
  /\ (2 * n <= ts_ecount s)%nat.
Proof.
  intros n B. destruct (case_run n B) as (v & s & ls & E & L). destruct (calibrate_agree _ _ _ _ _ _ _ E) as (w & W).
  exists w, s. split; [exact W|].
  unfold calibrate in E. destruct (agg_eval _ _ _ _ _) as [[l|e] a]; [|discriminate E].
  destruct (train _ _ _ _ _ _) as [[s'|e] ls'] eqn:T; cbn [fst snd bind] in E; [|discriminate E].
  apply (train_count _ _ _ 2 case_asks) in T. cbn [ts_ecount] in T.
  destruct (calibrated_params _); cbn [bind] in E; [|discriminate E]. injection E as _ <- <-. lia.
Qed.

(** The coherence term of the example is not the same as no coherence. *)
Lemma case_uses : forall n m k, uses_coherence (tg_loss (case_cfg n)) (tg_args (case_cfg n) m k).
Proof. intros n m k. split; [discriminate|cbn; lra]. Qed.

Lemma tags_nodup : forall w seen, NoDup (tags_from seen w).
Proof.
  induction w as [|e w IH]; intros seen; [constructor|]. cbn [tags_from].
  destruct (existsb (String.eqb (ev_tag e)) seen); [apply IH|]. constructor; [|apply IH].
  rewrite tags_from_In. intros [_ N]. apply N. left. reflexivity.
Qed.

Lemma one_panel_each : forall w drawn, plot_loss_logs (series_of w) = Ok drawn ->
  NoDup (map fst drawn) /\ (forall t, In t (map fst drawn) <-> In t (map ev_tag w))
  /\ forall t v, In (t, v) drawn -> v = skipn 2 (map ev_value (filter (fun e => String.eqb (ev_tag e) t) w)).
Proof.
  intros w drawn E.
  assert (Q : drawn = map (fun t => (t, skipn 2 (scalars t w))) (rev (tags_from [] w))).
  { unfold plot_loss_logs in E. destruct (existsb _ _); [discriminate|]. unfold series_of in E.
    set (tags := tags_from [] w) in *. clearbody tags.
    assert (F : Ok drawn = Ok (map (fun s : string * list xr => (fst s, skipn 1 (snd s))) (rev (map (fun s : string * list xr => (fst s, skipn 1 (snd s))) (map (fun t => (t, scalars t w)) tags)))))
      by (destruct tags as [|t [|t' l]]; [discriminate|discriminate|symmetry; exact E]).
    injection F as F.
    rewrite F, map_map, <- map_rev, map_map. apply map_ext. intros u. cbn [fst snd]. f_equal. destruct (scalars u w) as [|? [|? ?]]; reflexivity. }
  subst drawn. rewrite map_map. cbn [fst]. rewrite map_id. split; [apply NoDup_rev, tags_nodup|]. split.
  - intros t. rewrite <- in_rev, tags_from_In. cbn. tauto.
  - intros t v I. apply in_map_iff in I. destruct I as (u & E1 & _). injection E1 as <- <-. reflexivity.
Qed.
