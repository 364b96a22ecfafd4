(** Model of the TensorBoard records written while a loss is evaluated
    (drdmannturb/spectra_fitting/loss_functions.py) and while a calibration runs
    (drdmannturb/spectra_fitting/calibration.py).  A record is a tag, a value and a step;
    the time stamps of the records and the format of the event file are not modelled. *)

From Coq Require Import String Reals List Arith ZArith Bool.
From Verif Require Import Prelude LossModel CalModel ProbModel.
Import ListNotations.
Open Scope R_scope.

(** One call `writer.add_scalar(tag, value, step)` (e.g. loss_functions.py L142). *)
Record event : Type := Event { ev_tag : string; ev_value : xr; ev_step : nat }.

(** A computation which writes records, may raise, and keeps what was written before an
    exception (loss_functions.py L142-149: the record precedes the test for NaN). *)
Definition logged (A : Type) : Type := (list event * res A)%type.

(** Sequencing of loss_functions.py L392-413: nothing is written after an exception. *)
Definition then_log {A B : Type} (x : logged A) (f : A -> logged B) : logged B :=
  match x with
  | (w, Err e) => (w, Err e)
  | (w, Ok a) => let '(w', r) := f a in (w ++ w', r)
  end.

(** A term which is switched off (loss_functions.py L396, L408, L412, L416): no record. *)
Definition silent {A : Type} (a : A) : logged A := ([], Ok a).

(** loss_functions.py L140-151: `MSE_term`. *)
Definition log_mse (model target : list R) (epoch : nat) : logged xr :=
  let v := xmean (map xsquare (zip_with log_ratio model target)) in
  ([Event "MSE Loss" v epoch], nan_guard v).

(** loss_functions.py L176-191: `Pen2ndOrder`. *)
Definition log_pen2 (p : loss_params) (k1 : list R) (zref : R) (y : list (list R)) (epoch : nat) : logged xr :=
  let d := concat (map (d2_row (grid_h1 k1) (grid_h2 k1)) y) in
  let v := xdiv (xmul (Fin (alpha_pen2 p)) (xmean (map (fun v => xsquare (xrelu v)) d))) (Fin (zref^2)) in
  ([Event "2nd Order Penalty" v epoch], nan_guard v).

(** loss_functions.py L218-232: `Pen1stOrder`. *)
Definition log_pen1 (p : loss_params) (k1 : list R) (zref : R) (y : list (list R)) (epoch : nat) : logged xr :=
  let d := concat (map (d1_row (grid_h1 k1)) y) in
  let v := xdiv (xmul (Fin (alpha_pen1 p)) (xmean (map (fun v => xsquare (xrelu v)) d))) (Fin zref) in
  ([Event "1st Order Penalty" v epoch], nan_guard v).

(** loss_functions.py L253-263: `Regularization`; a float has no `square`, so nothing is
    written. *)
Definition log_reg (p : loss_params) (theta : theta_arg) (epoch : nat) : logged xr :=
  match theta with
  | ThVec t =>
      let v := xmul (Fin (beta_reg p)) (xmean (map (fun v => xsquare (Fin v)) t)) in
      ([Event "Regularization" v epoch], nan_guard v)
  | ThFloat _ | ThNone => ([], Err AttributeError)
  end.

(** loss_functions.py L323-349: `CoherenceLoss`; the components are recorded without the
    weight. *)
Definition log_coherence (p : loss_params) (u v w : coh_pair) (epoch : nat) : logged xr :=
  let l := xmul (Fin (gamma_coherence p)) (xdiv (xadd (xadd (coh_mse u) (coh_mse v)) (coh_mse w)) (Fin 3)) in
  ([Event "Coherence Loss/Total" l epoch; Event "Coherence Loss/U-component" (coh_mse u) epoch;
    Event "Coherence Loss/V-component" (coh_mse v) epoch; Event "Coherence Loss/W-component" (coh_mse w) epoch],
   nan_guard l).

(** loss_functions.py L392-418: the terms in the order they are computed. *)
Definition log_terms (p : loss_params) (k1 : list R) (zref : R) (a : eval_args) : logged (xr * xr * xr * xr * xr) :=
  then_log (log_mse (concat (ea_y a)) (concat (ea_data a)) (ea_epoch a)) (fun m =>
  then_log (match ea_coh a with
            | Some (u, v, w) => if Rltb 0 (gamma_coherence p) then log_coherence p u v w (ea_epoch a) else silent (Fin 0)
            | None => silent (Fin 0)
            end) (fun c =>
  then_log (if Rltb 0 (alpha_pen1 p) then log_pen1 p k1 zref (ea_y a) (ea_epoch a) else silent (Fin 0)) (fun p1 =>
  then_log (if Rltb 0 (alpha_pen2 p) then log_pen2 p k1 zref (ea_y a) (ea_epoch a) else silent (Fin 0)) (fun p2 =>
  then_log (if Rltb 0 (beta_reg p)
            then match ea_theta a with ThNone => silent (Fin 0) | t => log_reg p t (ea_epoch a) end
            else silent (Fin 0)) (fun r =>
  silent (m, c, p1, p2, r)))))).

(** loss_functions.py L472-489: records of `log_component_ratios`, from the averages
    after the update of L427-429. *)
Definition ratio_events (epoch : nat) (s : agg) : list event :=
  if (0 <? epoch)%nat then
    let t := total_avg s in
    if xltb (Fin 0) t then
      [Event "Component_Ratios/MSE" (xdiv (r_mse s) t) epoch;
       Event "Component_Ratios/Coherence" (xdiv (r_coh s) t) epoch;
       Event "Component_Ratios/Penalties" (xdiv (xadd (r_pen1 s) (r_pen2 s)) t) epoch;
       Event "Component_Ratios/Regularization" (xdiv (r_reg s) t) epoch]
    else []
  else [].

(** loss_functions.py L382-443: `eval` with its records. *)
Definition eval_log (p : loss_params) (k1 : list R) (zref : R) (s : agg) (a : eval_args) : list event * (res xr * agg) :=
  match log_terms p k1 zref a with
  | (w, Err e) => (w, (Err e, s))
  | (w, Ok (m, c, p1, p2, r)) =>
      let s' := record_eval s (ea_epoch a) m c p1 p2 r in
      (w ++ ratio_events (ea_epoch a) s', (Ok (xadd (xadd (xadd (xadd m c) p1) p2) r), s'))
  end.

(** A history of evaluations on one aggregator (loss_functions.py L382-443); the caller
    catches exceptions. *)
Fixpoint run_log (p : loss_params) (k1 : list R) (zref : R) (s : agg) (h : list eval_args) : list event * agg :=
  match h with
  | [] => ([], s)
  | a :: h' =>
      let '(w, (_, s1)) := eval_log p k1 zref s a in
      let '(w', s2) := run_log p k1 zref s1 h' in
      (w ++ w', s2)
  end.

(** ** Calibration *)

(** calibration.py L442-484: the closure with the parameters set to [v]. *)
Definition closure_log (c : train_cfg) (v : list R) (s : tstate) : list event * (res unit * tstate) :=
  let m := vector_to_parameters (ts_mod s) v in
  match eval_log (tg_loss c) (tg_k1 c) (tg_zref c) (ts_agg s) (tg_args c m (ts_ecount s)) with
  | (w, (Ok l, a)) => (w, (Ok tt, TS m l a (S (ts_ecount s)) (ts_lr s) (ts_seen s ++ [(v, l)])))
  | (w, (Err e, a)) => (w, (Err e, TS m (ts_loss s) a (ts_ecount s) (ts_lr s) (ts_seen s)))
  end.

(** calibration.py L493: one optimiser step. *)
Fixpoint strategy_log (c : train_cfg) (t : strategy) (s : tstate) : list event * (res unit * tstate) :=
  match t with
  | Finish v => ([], (Ok tt, TS (vector_to_parameters (ts_mod s) v) (ts_loss s) (ts_agg s) (ts_ecount s)
                               (ts_lr s) (ts_seen s)))
  | Ask v k =>
      match closure_log c v s with
      | (w, (Err e, s1)) => (w, (Err e, s1))
      | (w, (Ok _, s1)) => let '(w', r) := strategy_log c (k (ts_loss s1)) s1 in (w ++ w', r)
      end
  end.

(** calibration.py L487-530: the training loop. *)
Fixpoint train_log (c : train_cfg) (opt : nat -> tstate -> strategy) (sched : nat -> R -> R)
    (epoch left : nat) (s : tstate) : list event * (res unit * tstate) :=
  match left with
  | O => ([], (Ok tt, s))
  | S left' =>
      match strategy_log c (opt epoch s) s with
      | (w, (Err e, s0)) => (w, (Err e, s0))
      | (w, (Ok _, s0)) =>
          let s1 := TS (ts_mod s0) (ts_loss s0) (ts_agg s0) (ts_ecount s0) (sched epoch (ts_lr s0)) (ts_seen s0) in
          match mp_pq (ts_mod s1) with
          | None => (w, (Err AttributeError, s1))
          | Some _ =>
              if negb (xfinite (ts_loss s1)) then (w, (Err RuntimeError, s1))
              else if xltb (ts_loss s1) (Fin (tg_tol c)) then (w, (Ok tt, s1))
              else
                match lr_check epoch s1 with
                | Err e => (w, (Err e, s1))
                | Ok s2 => let '(w', r) := train_log c opt sched (S epoch) left' s2 in (w ++ w', r)
                end
          end
      end
  end.

(** calibration.py L351-357, L436, L487-530: records of one call of `calibrate`, which
    starts with a new aggregator and a new writer; the state left behind if the initial
    evaluation succeeded. *)
Definition calibrate_log (c : train_cfg) (opt : nat -> tstate -> strategy) (sched : nat -> R -> R) (m : module_params)
    : list event * (res unit * option tstate) :=
  match eval_log (tg_loss c) (tg_k1 c) (tg_zref c) agg_init (tg_args0 c m) with
  | (w, (Err e, _)) => (w, (Err e, None))
  | (w, (Ok l, a)) =>
      let '(w', (r, s)) := train_log c opt sched 1 (tg_nepochs c) (TS m l a 0 (tg_lr c) []) in
      (w ++ w', (r, Some s))
  end.

(** ** Reading *)

(** `EventAccumulator.Scalars(tag)` (common.py L189): values of a tag in the order they
    were written.  The accumulator keeps all of up to 10000 records. *)
Definition scalars (tag : string) (w : list event) : list xr :=
  map ev_value (filter (fun e => String.eqb (ev_tag e) tag) w).

(** `EventAccumulator.Tags()["scalars"]` (common.py L185): tags in the order of their
    first records. *)
Fixpoint tags_from (seen : list string) (w : list event) : list string :=
  match w with
  | [] => []
  | e :: w' => if existsb (String.eqb (ev_tag e)) seen then tags_from seen w' else ev_tag e :: tags_from (ev_tag e :: seen) w'
  end.

(** common.py L185-191: the series shown by `plot_loss_logs`. *)
Definition series_of (w : list event) : list (string * list xr) := map (fun t => (t, scalars t w)) (tags_from [] w).

(** ** Where the records go *)

(** loss_functions.py L54: directory of the writer.  `torch.utils.tensorboard` uses the
    comment only if no directory is given: then the records go to a new directory named
    after the time and the host below "runs". *)
Definition writer_directory (log_dir : option string) (comment now host : string) : string :=
  match log_dir with
  | Some d => d
  | None => "runs/" ++ now ++ "_" ++ host ++ comment
  end.
