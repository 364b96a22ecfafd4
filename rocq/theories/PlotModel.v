(** Model of the parts of drdmannturb/spectra_fitting/calibration.py which choose the
    optimiser and its schedule (L402-422, L493-494) and of `plot` (L716-1062): the
    curves drawn, the exceptions and the files written.  Colours, axes and labels are
    not modelled. *)

From Coq Require Import String Reals List Arith ZArith Bool.
From Verif Require Import Prelude RdtModel SpectraModel OpsModel LossModel CalModel.
Import ListNotations.
Open Scope R_scope.

(** ** Optimiser *)

(** An optimiser class (argument `optimizer_class`, calibration.py L270): the two
    classes named in the function, or any other class of the library. *)
Inductive optimiser : Type := LBFGS | Adam | OtherOptimiser : string -> optimiser.

(** Class of the optimiser which is created (calibration.py L405-420). *)
Definition optimiser_used (c : optimiser) : optimiser :=
  match c with
  | LBFGS => LBFGS
  | _ => Adam
  end.

(** State of `torch.optim.Adam` (created at calibration.py L413-420): step count and
    the two running moments per coordinate. *)
Record adam_state : Type := AdamState { ad_t : nat; ad_m : list R; ad_v : list R }.

(** A new optimiser has seen no step (calibration.py L413-420). *)
Definition adam_init (n : nat) : adam_state := AdamState 0 (repeat 0 n) (repeat 0 n).

(** One coordinate of `torch.optim.Adam.step` with the settings of calibration.py
    L413-420 (betas 0.9 and 0.999, eps 1e-8, weight_decay 1e-5): new coordinate and
    moments; [t] is the number of this step, starting from 1. *)
Definition adam_coord (lr : R) (t : nat) (theta grad m v : R) : R * (R * R) :=
  let g := grad + (1 / 100000) * theta in
  let m' := (9 / 10) * m + (1 - 9 / 10) * g in
  let v' := (999 / 1000) * v + (1 - 999 / 1000) * g ^ 2 in
  let step := lr / (1 - (9 / 10) ^ t) in
  let denom := sqrt v' / sqrt (1 - (999 / 1000) ^ t) + 1 / 100000000 in
  (theta - step * (m' / denom), (m', v')).

(** One step on all coordinates (calibration.py L493 with the optimiser of L413-420). *)
Definition adam_step (lr : R) (grads : list R) (theta : list R) (s : adam_state) : list R * adam_state :=
  let t := S (ad_t s) in
  let r := map (fun p => match p with ((th, g), (m, v)) => adam_coord lr t th g m v end)
               (combine (combine theta grads) (combine (ad_m s) (ad_v s))) in
  (map fst r, AdamState t (map (fun x => fst (snd x)) r) (map (fun x => snd (snd x)) r)).

(** ** Learning rate *)

(** `CosineAnnealingLR(optimizer, T_max=max_epochs)` (calibration.py L422): the update
    performed by the scheduler's step number [epoch] >= 1 (L494; eta_min is 0, [lr0]
    is the initial rate). *)
Definition cosine_sched (T : nat) (lr0 : R) (epoch : nat) (lr : R) : R :=
  if ((Z.of_nat epoch - 1 - Z.of_nat T) mod (2 * Z.of_nat T) =? 0)%Z then
    lr + lr0 * (1 - cos (PI / INR T)) / 2
  else
    (1 + cos (PI * INR epoch / INR T)) / (1 + cos (PI * (INR epoch - 1) / INR T)) * lr.

(** ** Plots of the fit *)

(** Data points given to `plot` (calibration.py L786-787): a sequence of numbers, or
    a sequence of rows. *)
Inductive points : Type := Flat : list R -> points | Rows : list (list R) -> points.

(** `torch.tensor(DataPoints)[:, 0]` (calibration.py L787). *)
Definition first_column (p : points) : res (list R) :=
  match p with
  | Flat _ => Err IndexError
  | Rows l => if existsb (fun r => match r with [] => true | _ => false end) l then Err IndexError
              else Ok (map (fun r => nth 0 r 0) l)
  end.

(** A data tensor: entry (i, j) of the matrix at wave number n (calibration.py
    L791-816). *)
Definition spectra_tensor : Type := nat -> ix -> ix -> R.

(** What `plot` reads from the problem (calibration.py L96, L129-132, L307):
    number of components, friction velocity, the stored data set when `calibrate` has
    been called (the attribute does not exist before), and the output directory. *)
Record plot_env : Type := PlotEnv
  { pe_ncomp : Z; pe_ustar : R; pe_data : option (list R * spectra_tensor); pe_outdir : option string }.

(** One panel: the model curve and, when drawn, the data markers (calibration.py
    L890-921). *)
Record panel : Type := Panel { pn_model : list R; pn_data : option (list R) }.

(** Rows of the flattened data (calibration.py L788-856, reshaped at L868-870). *)
Definition plot_data_rows (order : list component) (nk : nat) (d : spectra_tensor) : list (list R) :=
  map (fun c => map (fun n => d n (fst c) (snd c)) (seq 0 nk)) order.

(** calibration.py L785-856: abscissae and data rows, from the argument or from the
    stored data set. *)
Definition plot_data (e : plot_env) (given : option (points * spectra_tensor)) : res (list R * list (list R)) :=
  match given with
  | Some (p, d) =>
      bind (first_column p) (fun k1 =>
      Ok (k1, plot_data_rows (plot_data_order_given (pe_ncomp e)) (length k1) d))
  | None =>
      match pe_data e with
      | None => Err AttributeError
      | Some (k1, d) => Ok (k1, plot_data_rows (plot_data_order_stored (pe_ncomp e)) (length k1) d)
      end
  end.

(** `x / ustar**2` on an array (calibration.py L859, L862). *)
Definition per_ustar2 (u : R) (l : list R) : list R := map (fun x => x / u ^ 2) l.

(** Sign of a panel, negative for F13 (calibration.py L894). *)
Definition panel_sign (i : nat) : R := if (i =? 3)%nat then -1 else 1.

(** calibration.py L890-921: the six panels.  [model] holds the six model curves,
    [rows] the data rows. *)
Definition plot_panels (ncomp : Z) (model rows : list (list R)) : list panel :=
  map (fun i =>
         Panel (map (fun x => panel_sign i * x) (nth i model []))
               (match data_component_map ncomp i with
                | Some j => Some (map (fun x => panel_sign i * x) (nth j rows []))
                | None => None
                end)) (seq 0 6).

(** calibration.py L771-921: the figure of the spectra.  [ops] evaluates the module
    with its current parameters (one_point_spectra.py L190-259); [model_vals] is the
    optional argument. *)
Definition plot_spectra (ops : list R -> list (list R)) (e : plot_env)
    (given : option (points * spectra_tensor)) (model_vals : option (list (list R))) : res (list panel) :=
  if existsb (Z.eqb (pe_ncomp e)) [3; 4; 6]%Z then
    bind (plot_data e given) (fun kr =>
    let model := match model_vals with
                 | Some m => m
                 | None => map (per_ustar2 (pe_ustar e)) (ops (fst kr))
                 end in
    let rows := map (per_ustar2 (pe_ustar e)) (snd kr) in
    Ok (plot_panels (pe_ncomp e) model rows))
  else Err ValueError.

Open Scope string_scope.

(** calibration.py L1035-1058: files written by `plot(save=True)`, in order. *)
Definition plot_files (save_dir output_dir : option string) (filename : string) (plot_tau : bool)
    : res (list string) :=
  match (match save_dir with Some d => Some d | None => output_dir end) with
  | None => Err ValueError
  | Some d =>
      let base := if String.eqb filename "" then "drdmannturb_final_spectra_fit" else filename in
      Ok ((d ++ "/" ++ base ++ "_spectra.png") ::
          (if plot_tau then [d ++ "/" ++ base ++ "_tau.png"] else []))
  end.

Close Scope string_scope.

(** ** Coherence figure *)

(** Attributes of the problem read by the coherence figure (calibration.py L391-392,
    L1092-1095): [coh] evaluates the modelled coherence for given module parameters
    (L551-582).  The attributes are assigned once, before the first optimiser step,
    and the closure keeps its own values in local variables (L453). *)
Definition calibrate_with_coherence {A : Type} (coh : module_params -> A) (c : train_cfg)
    (opt : nat -> tstate -> strategy) (sched : nat -> R -> R) (m : module_params)
    : res (list R * tstate) * A :=
  (fst (calibrate c opt sched m), coh m).

(** calibration.py L1092-1116: the model curves of the coherence figure after
    calibration. *)
Definition coherence_figure {A : Type} (r : res (list R * tstate) * A) : A := snd r.
