(** Property theorems about the optimiser, its learning-rate schedule and the plots
    (drdmannturb/spectra_fitting/calibration.py).  Statements use the model of
    PlotModel.v and the specification vocabulary of PlotSpec.v. *)

From Coq Require Import String Reals List Arith ZArith Bool Lra Lia.
From Verif Require Import Prelude RdtModel SpectraModel OpsModel LossModel CalModel CalMore PlotModel PlotSpec PlotProofs.
Import ListNotations.
Open Scope R_scope.

(** C107, false: the optimiser class passed by the caller is not always the one used. *)
Theorem C107_refuted : ~ (forall c, optimiser_used c = c).
Proof. exact optimiser_false. Qed.
Print Assumptions C107_refuted.

(** C107, exactly when it holds: for the two classes named in the function and for no
    other. *)
Theorem C107_exact_partial : forall c, optimiser_used c = c <-> c = LBFGS \/ c = Adam.
Proof. exact optimiser_exact. Qed.
Print Assumptions C107_exact_partial.

(** A plain gradient descent is replaced, and one of the named classes is kept. *)
Example C107_case : optimiser_used (OtherOptimiser "SGD") = Adam /\ optimiser_used LBFGS = LBFGS.
Proof. split; reflexivity. Qed.

(** C108, false: at a stationary point of the loss (all gradients zero) the first step
    of Adam moves every nonzero parameter, by at least half the learning rate when the
    parameter is at least 1/1000 in size. *)
Theorem C108_refuted : forall lr theta i th th', 0 < lr -> nth_error theta i = Some th -> th <> 0 ->
  nth_error (fst (adam_step lr (repeat 0 (length theta)) theta (adam_init (length theta)))) i = Some th' ->
  th' <> th /\ (1/1000 <= Rabs th -> lr / 2 <= Rabs (th' - th)).
Proof. exact adam_moves. Qed.
Print Assumptions C108_refuted.

(** C108, what holds: whatever the gradients, the first step moves no parameter by as
    much as the learning rate. *)
Theorem C108_bound_partial : forall lr theta grads i th th', 0 < lr -> length grads = length theta ->
  nth_error theta i = Some th ->
  nth_error (fst (adam_step lr grads theta (adam_init (length theta)))) i = Some th' ->
  Rabs (th' - th) < lr.
Proof. exact adam_bound. Qed.
Print Assumptions C108_bound_partial.

(** Two parameters, the second zero: both theorems apply to the first. *)
Example C108_case : exists th', nth_error (fst (adam_step 1 (repeat 0 2) [5; 0] (adam_init 2))) 0 = Some th' /\
  1 / 2 <= Rabs (th' - 5) < 1.
Proof.
  eexists. split; [reflexivity|]. split.
  - refine (proj2 (C108_refuted 1 [5; 0] 0 5 _ ltac:(lra) eq_refl ltac:(lra) eq_refl) _). rewrite Rabs_right; lra.
  - exact (C108_bound_partial 1 [5; 0] [0; 0] 0 5 _ ltac:(lra) eq_refl eq_refl eq_refl).
Qed.

(** C109: after a completed calibration the learning rate is the initial one, annealed
    along half a cosine wave by the number of epochs run, times the factors of the
    advice followed; at most one piece of advice per fifty epochs. *)
Theorem C109_schedule : forall c opt m v s ls,
  calibrate c opt (cosine_sched (tg_nepochs c) (tg_lr c)) m = (Ok (v, s), ls) ->
  exists fs, List.Forall advice_factor fs /\ (length fs <= length ls / 50)%nat /\
    ts_lr s = annealed (tg_lr c) (tg_nepochs c) (length ls) * product fs.
Proof. exact calibrate_lr. Qed.
Print Assumptions C109_schedule.

(** C109: the rate stays between zero and its initial value, and is zero after the last
    epoch. *)
Theorem C109_range : forall c opt m v s ls, 0 <= tg_lr c ->
  calibrate c opt (cosine_sched (tg_nepochs c) (tg_lr c)) m = (Ok (v, s), ls) ->
  0 <= ts_lr s <= tg_lr c /\ ((1 <= tg_nepochs c)%nat -> length ls = tg_nepochs c -> ts_lr s = 0).
Proof. exact calibrate_lr_range. Qed.
Print Assumptions C109_range.

(** The annealing curve starts at the initial rate. *)
Theorem C109_start : forall lr T, annealed lr T 0 = lr.
Proof. exact annealed_start. Qed.
Print Assumptions C109_start.

(** A calibration of at most five epochs completes with this schedule. *)
Example C109_case : exists r, fst (calibrate (easy 5) moving_opt (cosine_sched (tg_nepochs (easy 5)) (tg_lr (easy 5)))
  (MP 1 2 3 (Some (4, 2)) None)) = Ok r /\ 0 <= tg_lr (easy 5).
Proof. destruct moving_run as (v & s & E & _). exists (v, s). split; [exact E|]. simpl. lra. Qed.

(** C110, false: handing the evaluation of the model to `plot` draws another figure than
    leaving the evaluation to it, as soon as one value is nonzero and ustar is not 1. *)
Theorem C110_refuted : forall ops e given fig fig' k1 rows i n y, (i < 6)%nat -> pe_ustar e <> 0 -> pe_ustar e ^ 2 <> 1 ->
  plot_data e given = Ok (k1, rows) -> curve_at (ops k1) i n = Some y -> y <> 0 ->
  plot_spectra ops e given None = Ok fig -> plot_spectra ops e given (Some (ops k1)) = Ok fig' ->
  fig' <> fig.
Proof. exact plot_given_model_differs. Qed.
Print Assumptions C110_refuted.

(** C110, the difference: the curve is drawn ustar squared times too high. *)
Theorem C110_factor_partial : forall ops e given fig fig' k1 rows i n y, (i < 6)%nat -> pe_ustar e <> 0 ->
  plot_data e given = Ok (k1, rows) -> curve_at (ops k1) i n = Some y ->
  plot_spectra ops e given None = Ok fig -> plot_spectra ops e given (Some (ops k1)) = Ok fig' ->
  exists a b, drawn_model fig i n = Some a /\ drawn_model fig' i n = Some b /\ b = pe_ustar e ^ 2 * a /\ (y <> 0 -> a <> 0).
Proof. exact plot_given_model. Qed.
Print Assumptions C110_factor_partial.

(** C110, what holds: without the argument, model and data of a panel are both drawn in
    units of ustar squared and with the same sign (negative for the uw panel). *)
Theorem C110_units_partial : forall ops e given fig k1 rows i n, (i < 6)%nat ->
  plot_spectra ops e given None = Ok fig -> plot_data e given = Ok (k1, rows) ->
  drawn_model fig i n = option_map (fun x => (if (i =? 3)%nat then -1 else 1) * (x / pe_ustar e ^ 2)) (curve_at (ops k1) i n)
  /\ (forall j, data_component_map (pe_ncomp e) i = Some j ->
       drawn_data fig i n = option_map (fun x => (if (i =? 3)%nat then -1 else 1) * (x / pe_ustar e ^ 2)) (curve_at rows j n)).
Proof. exact plot_default_units. Qed.
Print Assumptions C110_units_partial.

(** C110: the data markers do not depend on the argument. *)
Theorem C110_data_partial : forall ops e given mv mv' fig fig' i n,
  plot_spectra ops e given mv = Ok fig -> plot_spectra ops e given mv' = Ok fig' -> drawn_data fig i n = drawn_data fig' i n.
Proof. exact plot_given_data_alike. Qed.
Print Assumptions C110_data_partial.

(** One wave number, ustar = 2: the hypotheses are met and the two values are 1 and 4. *)
Example C110_case :
  let e := PlotEnv 3 2 None None in
  let given := Some (Rows [[1]], fun _ _ _ => 8) in
  let ops := fun _ : list R => repeat [4] 6 in
  exists fig fig', plot_spectra ops e given None = Ok fig /\ plot_spectra ops e given (Some (ops [1])) = Ok fig'
    /\ plot_data e given = Ok ([1], repeat [8] 3) /\ drawn_model fig 0 0 = Some (1 * (4 / 2 ^ 2)) /\ drawn_model fig' 0 0 = Some (1 * 4) /\ fig' <> fig.
Proof.
  cbv zeta. do 2 eexists. split; [reflexivity|]. split; [reflexivity|]. split; [reflexivity|].
  split; [reflexivity|]. split; [reflexivity|].
  refine (C110_refuted (fun _ => repeat [4] 6) (PlotEnv 3 2 None None) (Some (Rows [[1]], fun _ _ _ => 8)) _ _ [1] _ 0 0 4 _ _ _ eq_refl eq_refl _ eq_refl eq_refl);
    simpl; try lra; lia.
Qed.

(** C111, false: `plot` before any calibration and without data raises AttributeError
    instead of the documented ValueError. *)
Theorem C111_refuted : forall ops e mv, In (pe_ncomp e) [3; 4; 6]%Z -> pe_data e = None ->
  plot_spectra ops e None mv = Err AttributeError.
Proof. exact plot_no_data. Qed.
Print Assumptions C111_refuted.

(** C111, false also for data of the documented type: a flat sequence of wave numbers
    is rejected with IndexError. *)
Theorem C111_flat_refuted : forall ops e l d mv, In (pe_ncomp e) [3; 4; 6]%Z ->
  plot_spectra ops e (Some (Flat l, d)) mv = Err IndexError.
Proof. exact plot_flat. Qed.
Print Assumptions C111_flat_refuted.

(** C111, exactly when a figure is drawn: after calibration, or for wave numbers given as
    nonempty rows. *)
Theorem C111_success_partial : forall ops e given mv, In (pe_ncomp e) [3; 4; 6]%Z ->
  ((exists fig, plot_spectra ops e given mv = Ok fig) <->
   match given with
   | None => pe_data e <> None
   | Some (p, _) => exists rows, p = Rows rows /\ List.Forall (fun r => r <> []) rows
   end).
Proof. exact plot_succeeds. Qed.
Print Assumptions C111_success_partial.

(** C111: the wave numbers at which model and data are drawn are the first entries of
    the given rows, in their order. *)
Theorem C111_wave_numbers_partial : forall e rows d k1 r, plot_data e (Some (Rows rows, d)) = Ok (k1, r) ->
  forall n, nth_error k1 n = match nth_error rows n with Some (x :: _) => Some x | _ => None end.
Proof. exact given_abscissae. Qed.
Print Assumptions C111_wave_numbers_partial.

(** C111: any other number of components raises ValueError. *)
Theorem C111_components_partial : forall ops e given mv, ~ In (pe_ncomp e) [3; 4; 6]%Z ->
  plot_spectra ops e given mv = Err ValueError.
Proof. exact plot_other_components. Qed.
Print Assumptions C111_components_partial.

(** Both kinds of numbers of components exist, and both outcomes for accepted ones. *)
Example C111_case : In 4%Z [3; 4; 6]%Z /\ ~ In 5%Z [3; 4; 6]%Z /\
  exists fig, plot_spectra (fun _ => repeat [4; 5] 6) (PlotEnv 4 2 None None) (Some (Rows [[1]; [2]], fun n _ _ => INR n)) None = Ok fig.
Proof. split; [simpl; tauto|]. split; [simpl; lia|]. eexists; reflexivity. Qed.

(** C112, false: the coherence curves drawn after a calibration are not those of the
    calibrated parameters. *)
Theorem C112_refuted : ~ (forall A (coh : module_params -> A) c opt sched m v s,
  fst (calibrate c opt sched m) = Ok (v, s) -> coherence_figure (calibrate_with_coherence coh c opt sched m) = coh (ts_mod s)).
Proof. exact coherence_false. Qed.
Print Assumptions C112_refuted.

(** C112: they are those of the parameters before the calibration, whatever it did. *)
Theorem C112_initial_partial : forall A (coh : module_params -> A) c opt sched m,
  coherence_figure (calibrate_with_coherence coh c opt sched m) = coh m.
Proof. exact coherence_stale. Qed.
Print Assumptions C112_initial_partial.

(** A calibration which moves every parameter by one. *)
Example C112_case : exists v s, fst (calibrate (easy 5) moving_opt (cosine_sched 5 1) (MP 1 2 3 (Some (4, 2)) None)) = Ok (v, s)
  /\ mp_logL (ts_mod s) = 1 + 1.
Proof. destruct moving_run as (v & s & E & M & _). exists v, s. split; [exact E|]. rewrite M. reflexivity. Qed.

(** C113: saving writes the documented files in the given directory or, without one, in
    the output directory of the problem. *)
Theorem C113_names : forall sd od name tau d, (sd = Some d \/ sd = None /\ od = Some d) -> name <> ""%string ->
  plot_files sd od name tau = Ok ((d ++ "/" ++ name ++ "_spectra.png")%string :: (if tau then [(d ++ "/" ++ name ++ "_tau.png")%string] else [])).
Proof. exact plot_files_dir. Qed.
Print Assumptions C113_names.

(** C113: the documented names without a file name. *)
Theorem C113_default_names : forall sd od tau d, (sd = Some d \/ sd = None /\ od = Some d) ->
  plot_files sd od "" tau = Ok ((d ++ "/drdmannturb_final_spectra_fit_spectra.png")%string ::
                                (if tau then [(d ++ "/drdmannturb_final_spectra_fit_tau.png")%string] else [])).
Proof. exact plot_files_default. Qed.
Print Assumptions C113_default_names.

(** C113: ValueError when neither directory is known. *)
Theorem C113_no_directory : forall name tau, plot_files None None name tau = Err ValueError.
Proof. exact plot_files_none. Qed.
Print Assumptions C113_no_directory.

(** The directory argument has precedence. *)
Example C113_case : plot_files (Some "a"%string) (Some "b"%string) "fit" true = Ok ["a/fit_spectra.png"%string; "a/fit_tau.png"%string].
Proof. refine (C113_names _ _ _ _ "a" (or_introl eq_refl) _). discriminate. Qed.

(** C60: markers of data given to `plot`, panel by panel. *)
Theorem C60_drawn_given : forall ops e rows d mv fig i n a b,
  plot_spectra ops e (Some (Rows rows, d)) mv = Ok fig -> nth_error labelled i = Some (a, b) ->
  drawn_data fig i n = if (Z.of_nat i <? pe_ncomp e)%Z && (n <? length rows)%nat then Some (marker d (pe_ustar e) i n a b) else None.
Proof. exact drawn_given. Qed.
Print Assumptions C60_drawn_given.

(** C60: markers of the stored data in the first four panels. *)
Theorem C60_drawn_stored_partial : forall ops e k1 d mv fig i n a b, pe_data e = Some (k1, d) ->
  plot_spectra ops e None mv = Ok fig -> nth_error labelled i = Some (a, b) -> (i < 4)%nat ->
  drawn_data fig i n = if (Z.of_nat i <? pe_ncomp e)%Z && (n <? length k1)%nat then Some (marker d (pe_ustar e) i n a b) else None.
Proof. exact drawn_stored. Qed.
Print Assumptions C60_drawn_stored_partial.

(** C60, false in the last two panels: the stored F12 is drawn under the label F23, and F23
    under F12. *)
Theorem C60_drawn_stored_refuted : forall ops e k1 d mv fig n, pe_data e = Some (k1, d) -> pe_ncomp e = 6%Z ->
  plot_spectra ops e None mv = Ok fig -> (n < length k1)%nat ->
  drawn_data fig 4 n = Some (d n X1 X2 / pe_ustar e ^ 2) /\ drawn_data fig 5 n = Some (d n X2 X3 / pe_ustar e ^ 2).
Proof. exact drawn_swapped. Qed.
Print Assumptions C60_drawn_stored_refuted.

(** A figure with six data components, given and stored. *)
Example C60_drawn_case :
  let d := fun (_ : nat) (a b : ix) => match a, b with X1, X3 => 8 | X1, X2 => 12 | _, _ => 4 end in
  (exists fig, plot_spectra (fun _ => []) (PlotEnv 6 2 None None) (Some (Rows [[1]; [2]], d)) None = Ok fig
     /\ drawn_data fig 3 1 = Some (- 8 / 2 ^ 2) /\ drawn_data fig 5 0 = Some (12 / 2 ^ 2) /\ drawn_data fig 5 2 = None)
  /\ exists fig, plot_spectra (fun _ => []) (PlotEnv 6 2 (Some ([1; 2], d)) None) None None = Ok fig
     /\ drawn_data fig 3 1 = Some (- 8 / 2 ^ 2) /\ drawn_data fig 4 1 = Some (12 / 2 ^ 2).
Proof.
  intros d. split.
  - eexists. split; [reflexivity|].
    rewrite !(C60_drawn_given (fun _ => []) (PlotEnv 6 2 None None) [[1]; [2]] d None _ 3 _ X1 X3 eq_refl eq_refl).
    rewrite !(C60_drawn_given (fun _ => []) (PlotEnv 6 2 None None) [[1]; [2]] d None _ 5 _ X1 X2 eq_refl eq_refl).
    split; [reflexivity|]. split; reflexivity.
  - eexists. split; [reflexivity|].
    split; [refine (eq_trans (C60_drawn_stored_partial (fun _ => []) (PlotEnv 6 2 (Some ([1; 2], d)) None) [1; 2] d None _ 3 1 X1 X3 eq_refl eq_refl eq_refl _) _); [lia|reflexivity]|].
    apply (C60_drawn_stored_refuted (fun _ => []) (PlotEnv 6 2 (Some ([1; 2], d)) None) [1; 2] d None _ 1 eq_refl eq_refl eq_refl). cbn. lia.
Qed.
