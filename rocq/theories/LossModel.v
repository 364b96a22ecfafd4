(** Model of drdmannturb/spectra_fitting/loss_functions.py: loss terms, the
    aggregator with its histories, and the advice derived from them.  Spectra are
    finite reals; the values computed from them are extended reals because the
    code tests for NaN.  Records for TensorBoard are the subject of LogModel.v. *)

From Coq Require Import Reals List Arith ZArith Bool.
From Verif Require Import Prelude.
Import ListNotations.
Open Scope R_scope.

(** ** torch primitives on extended reals *)

(** `torch.abs` (loss_functions.py L140). *)
Definition xabs (x : xr) : xr :=
  match x with
  | Fin r => Fin (Rabs r)
  | PInf | NInf => PInf
  | NaN => NaN
  end.

(** `torch.log` (loss_functions.py L140, L176, L218). *)
Definition xlog (x : xr) : xr :=
  match x with
  | Fin r => if Rlt_dec 0 r then Fin (ln r) else if Rlt_dec r 0 then NaN else NInf
  | PInf => PInf
  | NInf => NaN
  | NaN => NaN
  end.

(** `torch.relu` (loss_functions.py L179, L221): NaN is propagated. *)
Definition xrelu (x : xr) : xr :=
  match x with
  | Fin r => Fin (Rmax r 0)
  | PInf => PInf
  | NInf => Fin 0
  | NaN => NaN
  end.

(** `Tensor.square` (loss_functions.py L140). *)
Definition xsquare (x : xr) : xr := xmul x x.

(** Sum of a tensor, as in `torch.mean` (loss_functions.py L140). *)
Definition xsum (l : list xr) : xr := fold_right xadd (Fin 0) l.

(** `torch.mean` (loss_functions.py L140): NaN on an empty tensor. *)
Definition xmean (l : list xr) : xr := xdiv (xsum l) (Fin (INR (length l))).

(** `Tensor.isnan` (loss_functions.py L144). *)
Definition xisnan (x : xr) : bool := match x with NaN => true | _ => false end.

(** Python's `<` on floats: false when an operand is NaN (e.g.
    loss_functions.py L548). *)
Definition xltb (x y : xr) : bool :=
  match x, y with
  | NaN, _ | _, NaN => false
  | NInf, NInf => false
  | NInf, _ => true
  | _, NInf => false
  | PInf, _ => false
  | _, PInf => true
  | Fin a, Fin b => Rltb a b
  end.

(** Pointwise combination of two tensors of one shape, e.g. the quotient of
    loss_functions.py L140. *)
Fixpoint zip_with {A B C : Type} (f : A -> B -> C) (l : list A) (m : list B) : list C :=
  match l, m with
  | a :: l', b :: m' => f a b :: zip_with f l' m'
  | _, _ => []
  end.

(** `torch.diff` along the last dimension (loss_functions.py L60, L177): one row. *)
Definition xdiff (l : list xr) : list xr := zip_with xsub (tl l) l.

(** `torch.diff` of a finite row (loss_functions.py L60-61). *)
Definition rdiff (l : list R) : list R := zip_with Rminus (tl l) l.

(** A tensor is turned into a loss value: NaN raises ValueError (loss_functions.py
    L144-149, L183-189, L224-230, L257-261, L340-347). *)
Definition nan_guard (x : xr) : res xr := if xisnan x then Err ValueError else Ok x.

(** ** Parameters and grid *)

(** drdmannturb/parameters.py L151-159: weights of the loss terms. *)
Record loss_params : Type := LossParams
  { alpha_pen1 : R; alpha_pen2 : R; beta_reg : R; gamma_coherence : R }.

(** loss_functions.py L58-61: logarithmic grid and its spacings.  The wave numbers
    are positive (the code takes their logarithm). *)
Definition log_grid (k1 : list R) : list R := map ln k1.

(** loss_functions.py L60: h1. *)
Definition grid_h1 (k1 : list R) : list R := rdiff (log_grid k1).

(** loss_functions.py L61: h2, differences of the mid points
    0.5*(logk1[:-1] + logk1[1:]). *)
Definition grid_h2 (k1 : list R) : list R :=
  let g := log_grid k1 in
  rdiff (zip_with (fun a b => / 2 * (a + b)) (removelast g) (tl g)).

(** ** Terms *)

(** loss_functions.py L140: log(abs(model / target)) at one point. *)
Definition log_ratio (m t : R) : xr := xlog (xabs (xdiv (Fin m) (Fin t))).

(** loss_functions.py L116-151: `MSE_term`; model and target flattened, of the same
    shape (callers index both with the same list of curves). *)
Definition mse_term (model target : list R) : res xr :=
  nan_guard (xmean (map xsquare (zip_with log_ratio model target))).

(** loss_functions.py L176, L218: log|y| of one row. *)
Definition log_row (y : list R) : list xr := map (fun v => xlog (xabs (Fin v))) y.

(** loss_functions.py L219: first-order differences of one row. *)
Definition d1_row (h1 : list R) (y : list R) : list xr :=
  zip_with (fun d h => xdiv d (Fin h)) (xdiff (log_row y)) h1.

(** loss_functions.py L177: second-order differences of one row. *)
Definition d2_row (h1 h2 : list R) (y : list R) : list xr :=
  zip_with (fun d h => xdiv d (Fin h)) (xdiff (d1_row h1 y)) h2.

(** loss_functions.py L193-232: `Pen1stOrder` for the selected curves. *)
Definition pen1 (p : loss_params) (k1 : list R) (zref : R) (y : list (list R)) : res xr :=
  let d := concat (map (d1_row (grid_h1 k1)) y) in
  nan_guard (xdiv (xmul (Fin (alpha_pen1 p)) (xmean (map (fun v => xsquare (xrelu v)) d))) (Fin zref)).

(** loss_functions.py L153-191: `Pen2ndOrder` for the selected curves. *)
Definition pen2 (p : loss_params) (k1 : list R) (zref : R) (y : list (list R)) : res xr :=
  let d := concat (map (d2_row (grid_h1 k1) (grid_h2 k1)) y) in
  nan_guard (xdiv (xmul (Fin (alpha_pen2 p)) (xmean (map (fun v => xsquare (xrelu v)) d))) (Fin (zref^2))).

(** The argument theta_NN of the regulariser: a parameter vector, the float 0.0
    that calibration passes without a network (calibration.py L426-430), or
    None. *)
Inductive theta_arg : Type :=
| ThVec : list R -> theta_arg
| ThFloat : R -> theta_arg
| ThNone : theta_arg.

(** loss_functions.py L234-263: `Regularization`; a Python float has no attribute
    `square`. *)
Definition regularization (p : loss_params) (theta : theta_arg) : res xr :=
  match theta with
  | ThVec t => nan_guard (xmul (Fin (beta_reg p)) (xmean (map (fun v => xsquare (Fin v)) t)))
  | ThFloat _ | ThNone => Err AttributeError
  end.

(** Coherence arguments: model and data of one component, flattened (data may hold
    NaN, calibration.py L1202-1218). *)
Definition coh_pair : Type := (list R * list xr)%type.

(** loss_functions.py L324-326: mean squared error of one component. *)
Definition coh_mse (q : coh_pair) : xr :=
  xmean (map xsquare (zip_with (fun m d => xsub (Fin m) d) (fst q) (snd q))).

(** loss_functions.py L265-349: `CoherenceLoss`. *)
Definition coherence_loss (p : loss_params) (u v w : coh_pair) : res xr :=
  nan_guard (xmul (Fin (gamma_coherence p))
                  (xdiv (xadd (xadd (coh_mse u) (coh_mse v)) (coh_mse w)) (Fin 3))).

(** ** Aggregator *)

(** loss_functions.py L86-101: histories (component_losses) and running averages;
    [la_ratios] collects the component ratios written to TensorBoard
    (L472-489): epoch and MSE, Coherence, Penalties, Regularization. *)
Record agg : Type := Agg
  { h_mse : list xr; h_coh : list xr; h_pen1 : list xr; h_pen2 : list xr; h_reg : list xr; h_total : list xr;
    r_mse : xr; r_coh : xr; r_pen1 : xr; r_pen2 : xr; r_reg : xr;
    la_ratios : list (nat * (xr * xr * xr * xr)) }.

(** loss_functions.py L86-101: state after construction. *)
Definition agg_init : agg :=
  Agg [] [] [] [] [] [] (Fin 0) (Fin 0) (Fin 0) (Fin 0) (Fin 0) [].

(** loss_functions.py L107: decay of the moving averages. *)
Definition ema_decay : R := 9/10.

(** loss_functions.py L455-470: one moving-average update. *)
Definition ema (old new : xr) : xr := xadd (xmul (Fin ema_decay) old) (xmul (Fin (1 - ema_decay)) new).

(** loss_functions.py L445-470: `update_running_averages`, called after the five
    component values were appended. *)
Definition update_running_averages (s : agg) (m c p1 p2 r : xr) : agg :=
  let upd old new := if (length (h_mse s) =? 1)%nat then new else ema old new in
  Agg (h_mse s) (h_coh s) (h_pen1 s) (h_pen2 s) (h_reg s) (h_total s)
      (upd (r_mse s) m) (upd (r_coh s) c) (upd (r_pen1 s) p1) (upd (r_pen2 s) p2) (upd (r_reg s) r)
      (la_ratios s).

(** loss_functions.py L475: sum of the running averages (insertion order). *)
Definition total_avg (s : agg) : xr :=
  xadd (xadd (xadd (xadd (r_mse s) (r_coh s)) (r_pen1 s)) (r_pen2 s)) (r_reg s).

(** loss_functions.py L472-489: `log_component_ratios`. *)
Definition log_component_ratios (epoch : nat) (s : agg) : agg :=
  if (0 <? epoch)%nat then
    let t := total_avg s in
    if xltb (Fin 0) t then
      Agg (h_mse s) (h_coh s) (h_pen1 s) (h_pen2 s) (h_reg s) (h_total s)
          (r_mse s) (r_coh s) (r_pen1 s) (r_pen2 s) (r_reg s)
          (la_ratios s ++ [(epoch, (xdiv (r_mse s) t, xdiv (r_coh s) t,
                                    xdiv (xadd (r_pen1 s) (r_pen2 s)) t, xdiv (r_reg s) t))])
    else s
  else s.

(** loss_functions.py L415-440: bookkeeping after the five terms were computed. *)
Definition record_eval (s : agg) (epoch : nat) (m c p1 p2 r : xr) : agg :=
  let s1 := Agg (h_mse s ++ [m]) (h_coh s ++ [c]) (h_pen1 s ++ [p1]) (h_pen2 s ++ [p2]) (h_reg s ++ [r])
                (h_total s) (r_mse s) (r_coh s) (r_pen1 s) (r_pen2 s) (r_reg s) (la_ratios s) in
  let s2 := update_running_averages s1 m c p1 p2 r in
  let total := xadd (xadd (xadd (xadd m c) p1) p2) r in
  let s3 := Agg (h_mse s2) (h_coh s2) (h_pen1 s2) (h_pen2 s2) (h_reg s2) (h_total s2 ++ [total])
                (r_mse s2) (r_coh s2) (r_pen1 s2) (r_pen2 s2) (r_reg s2) (la_ratios s2) in
  log_component_ratios epoch s3.

(** Arguments of one evaluation (loss_functions.py L382-390): selected model curves, selected data curves,
    theta, epoch, coherence data (u, v, w) if present. *)
Record eval_args : Type := EvalArgs
  { ea_y : list (list R); ea_data : list (list R); ea_theta : theta_arg; ea_epoch : nat;
    ea_coh : option (coh_pair * coh_pair * coh_pair) }.

(** loss_functions.py L392-413: the five terms in the order they are computed; a
    term which is switched off is the tensor 0.0. *)
Definition eval_terms (p : loss_params) (k1 : list R) (zref : R) (a : eval_args)
    : res (xr * xr * xr * xr * xr) :=
  bind (mse_term (concat (ea_y a)) (concat (ea_data a))) (fun m =>
  bind (match ea_coh a with
        | Some (u, v, w) => if Rltb 0 (gamma_coherence p) then coherence_loss p u v w else Ok (Fin 0)
        | None => Ok (Fin 0)
        end) (fun c =>
  bind (if Rltb 0 (alpha_pen1 p) then pen1 p k1 zref (ea_y a) else Ok (Fin 0)) (fun p1 =>
  bind (if Rltb 0 (alpha_pen2 p) then pen2 p k1 zref (ea_y a) else Ok (Fin 0)) (fun p2 =>
  bind (if Rltb 0 (beta_reg p)
        then match ea_theta a with ThNone => Ok (Fin 0) | t => regularization p t end
        else Ok (Fin 0)) (fun r =>
  Ok (m, c, p1, p2, r)))))).

(** loss_functions.py L382-443: `eval`: returned loss (or exception) and state. *)
Definition agg_eval (p : loss_params) (k1 : list R) (zref : R) (s : agg) (a : eval_args) : res xr * agg :=
  match eval_terms p k1 zref a with
  | Err e => (Err e, s)
  | Ok (m, c, p1, p2, r) =>
      (Ok (xadd (xadd (xadd (xadd m c) p1) p2) r), record_eval s (ea_epoch a) m c p1 p2 r)
  end.

(** A history of evaluations (loss_functions.py L382-443) on one aggregator; the
    caller catches exceptions. *)
Definition agg_run (p : loss_params) (k1 : list R) (zref : R) (s : agg) (h : list eval_args) : agg :=
  fold_left (fun s a => snd (agg_eval p k1 zref s a)) h s.

(** ** Diagnostics *)

(** Python slice `values[-w:]` for w > 0; `values[-0:]` is the whole list
    (loss_functions.py L496). *)
Definition last_n {A : Type} (w : nat) (l : list A) : list A :=
  if (w =? 0)%nat then l else skipn (length l - w) l.

(** `x ** 0.5` of a non-negative float (loss_functions.py L507). *)
Definition xsqrt (x : xr) : xr :=
  match x with
  | Fin r => Fin (sqrt r)
  | PInf => PInf
  | NInf => NaN
  | NaN => NaN
  end.

(** loss_functions.py L507: population standard deviation around the mean. *)
Definition xstd (l : list xr) : xr :=
  let m := xmean l in
  xsqrt (xdiv (xsum (map (fun x => xmul (xsub x m) (xsub x m)) l)) (Fin (INR (length l)))).

(** Python's `max(a, b)`: the first argument unless the second is greater
    (loss_functions.py L518, L528). *)
Definition pymax2 (a b : xr) : xr := if xltb a b then b else a.

(** Python's `max(items, key=value)` on name/value pairs: first maximal item
    (loss_functions.py L516). *)
Definition pymax_item {N : Type} (d : N * xr) (l : list (N * xr)) : N * xr :=
  fold_left (fun best x => if xltb (snd best) (snd x) then x else best) l d.

(** Python's `min(values)` (loss_functions.py L518). *)
Definition pymin (d : xr) (l : list xr) : xr :=
  fold_left (fun best x => if xltb x best then x else best) l d.

(** Names of the five components in insertion order (loss_functions.py L86-93). *)
Inductive comp : Type := Cmse | Ccoh | Cpen1 | Cpen2 | Creg.

(** Diagnostics used by the advice (loss_functions.py L491-533); None: key absent. *)
Record diagnostics : Type := Diag
  { d_dominant : comp; d_dominance : xr; d_improvement : option xr; d_stability : option xr }.

(** loss_functions.py L522-528: relative improvement between the two halves of the
    window. *)
Definition improvement_ratio (window : nat) (total : list xr) : res xr :=
  let recent_half := skipn (window / 2) total in
  let early_half := firstn (window / 2) total in
  match early_half, recent_half with
  | [], _ | _, [] => Err ZeroDivisionError
  | _, _ =>
      Ok (xdiv (xsub (xmean early_half) (xmean recent_half))
               (pymax2 (xmean early_half) (Fin (/ 100000000))))
  end.

(** loss_functions.py L491-533: `get_loss_diagnostics`; [None] is the empty
    dictionary.  Histories are non-empty here when the window is positive. *)
Definition get_loss_diagnostics (window : nat) (s : agg) : res (option diagnostics) :=
  if (length (h_total s) <? window)%nat then Ok None
  else
    let means := [(Cmse, xmean (last_n window (h_mse s))); (Ccoh, xmean (last_n window (h_coh s)));
                  (Cpen1, xmean (last_n window (h_pen1 s))); (Cpen2, xmean (last_n window (h_pen2 s)));
                  (Creg, xmean (last_n window (h_reg s)))] in
    let total := last_n window (h_total s) in
    match total with
    | [] => Ok None
    | _ =>
      let dom := pymax_item (Cmse, xmean (last_n window (h_mse s))) (tl means) in
      let lo := pymin (xmean (last_n window (h_mse s))) (map snd (tl means)) in
      let ratio := xdiv (snd dom) (pymax2 lo (Fin (/ 100000000))) in
      if (2 <=? length total)%nat then
        bind (improvement_ratio window total) (fun imp =>
        Ok (Some (Diag (fst dom) ratio (Some imp) (Some (xdiv (Fin 1) (xadd (Fin 1) (xstd total)))))))
      else Ok (Some (Diag (fst dom) ratio None None))
    end.

(** Reasons returned with an advice (loss_functions.py L538-569). *)
Inductive reason : Type :=
| InsufficientData | NoDiagnostics | Stagnation | Instability | ComponentDominance : comp -> reason
| HealthyTraining.

(** Advice (loss_functions.py L537-569): no adjustment, or reduction by a factor. *)
Inductive advice : Type :=
| Keep : reason -> advice
| Reduce : reason -> R -> advice.

(** loss_functions.py L535-569: `should_adjust_learning_rate`.  A missing
    improvement ratio is replaced by the integer 0, which fails the assertion of
    L547. *)
Definition should_adjust (epoch window : nat) (s : agg) : res advice :=
  if (epoch <? window)%nat then Ok (Keep InsufficientData)
  else
    bind (get_loss_diagnostics window s) (fun od =>
    match od with
    | None => Ok (Keep NoDiagnostics)
    | Some d =>
        match d_improvement d with
        | None => Err AssertionError
        | Some imp =>
            if xltb imp (Fin (1/100)) then Ok (Reduce Stagnation (1/2))
            else
              let st := match d_stability d with Some x => x | None => Fin 1 end in
              if xltb st (Fin (3/10)) then Ok (Reduce Instability (3/10))
              else if xltb (Fin 100) (d_dominance d) then Ok (Reduce (ComponentDominance (d_dominant d)) (7/10))
              else Ok (Keep HealthyTraining)
        end
    end).

(** drdmannturb/spectra_fitting/calibration.py L516-527: learning rate after the
    advice. *)
Definition apply_advice (lr : R) (a : advice) : R :=
  match a with
  | Keep _ => lr
  | Reduce _ f => lr * f
  end.

(** loss_functions.py L571-583: `get_current_loss_info`: last MSE, coherence and
    total values, the two averages and their ratio; None: empty dictionary. *)
Definition get_current_loss_info (s : agg) : option (xr * xr * xr * xr * xr * xr) :=
  match h_total s with
  | [] => None
  | _ => Some (last (h_mse s) NaN, last (h_coh s) NaN, last (h_total s) NaN, r_mse s, r_coh s,
               xdiv (r_mse s) (pymax2 (r_coh s) (Fin (/ 100000000))))
  end.

(** ** Balancing of the terms *)

(** loss_functions.py L351-380: `compute_loss_scales`: new stored magnitudes and the
    two factors; [None] is the empty dictionary, the coherence argument is None
    when absent, balance_freq is 10 (L104). *)
Definition compute_loss_scales (st : option (R * R)) (epoch : nat) (mse : R) (coh : option R)
    : (R * R) * option (R * R) :=
  let st' :=
    match st with
    | None => (mse, match coh with Some c => if Reqb c 0 then 1 else c | None => 1 end)
    | Some (m, c) =>
        if (epoch mod 10 =? 0)%nat then
          (9/10 * m + (1 - 9/10) * mse,
           match coh with Some v => if Reqb v 0 then c else 9/10 * c + (1 - 9/10) * v | None => c end)
        else (m, c)
    end in
  ((1 / Rmax (fst st') (/ 100000000), 1 / Rmax (snd st') (/ 100000000)), Some st').
