(** Model of drdmannturb/spectra_fitting/calibration.py: parameter vector,
    construction, training loop, saving, coherence data, plot data and
    schedulers.  Printing and drawing are not modelled. *)

From Coq Require Import String Reals List Arith ZArith Bool.
From Verif Require Import Prelude RdtModel SpectraModel OpsModel LossModel.
Import ListNotations.
Open Scope R_scope.

(** ** Parameter vector *)

(** Trainable tensors of the module: one_point_spectra.py L142-148 and
    drdmannturb/nn_modules.py L149-161; [mp_net] is absent unless the lifetime is the
    network (one_point_spectra.py L90-96), its second entry is nu when learned. *)
Record module_params : Type := MP
  { mp_logL : R; mp_logT : R; mp_logM : R; mp_pq : option (R * R);
    mp_net : option (list weights * option R) }.

(** Tensors in the order of `parameters()`: the module's own parameters, then the
    network's linear layers, then nu (one_point_spectra.py L142-148,
    nn_modules.py L158-161). *)
Definition tensors (s : module_params) : list (list R) :=
  [[mp_logL s]; [mp_logT s]; [mp_logM s]]
  ++ match mp_pq s with Some (p, q) => [[p]; [q]] | None => [] end
  ++ match mp_net s with
     | Some (Ws, nu) => map (@concat R) Ws ++ match nu with Some v => [[v]] | None => [] end
     | None => []
     end.

(** calibration.py L150-173: getter of `parameters`. *)
Definition get_parameters (s : module_params) : list R := concat (tensors s).

(** `vector_to_parameters` (calibration.py L196) on one weight matrix: consecutive
    slices shaped like the current rows; the rest of the vector. *)
Fixpoint fill_rows (W : weights) (v : list R) : weights * list R :=
  match W with
  | [] => ([], v)
  | r :: W' =>
      let n := length r in
      let rest := fill_rows W' (skipn n v) in
      (firstn n v :: fst rest, snd rest)
  end.

(** calibration.py L196: the same for the list of layers. *)
Fixpoint fill_layers (Ws : list weights) (v : list R) : list weights * list R :=
  match Ws with
  | [] => ([], v)
  | W :: Ws' =>
      let a := fill_rows W v in
      let rest := fill_layers Ws' (snd a) in
      (fst a :: fst rest, snd rest)
  end.

(** calibration.py L196: `vector_to_parameters(param_vec, self.OPS.parameters())`.
    Entries missing from the vector (excluded by the caller's length check) are
    read as 0. *)
Definition vector_to_parameters (s : module_params) (v : list R) : module_params :=
  let v3 := skipn 3 v in
  let pq := match mp_pq s with Some _ => Some (nth 0 v3 0, nth 1 v3 0) | None => None end in
  let v5 := match mp_pq s with Some _ => skipn 2 v3 | None => v3 end in
  let net := match mp_net s with
             | Some (Ws, nu) =>
                 let a := fill_layers Ws v5 in
                 Some (fst a, match nu with Some _ => Some (nth 0 (snd a) 0) | None => None end)
             | None => None
             end in
  MP (nth 0 v 0) (nth 1 v 0) (nth 2 v 0) pq net.

(** calibration.py L175-196: setter of `parameters`: outcome and state. *)
Definition set_parameters (s : module_params) (v : list R) : res unit * module_params :=
  if negb (length v =? length (get_parameters s))%nat then (Err ValueError, s)
  else (Ok tt, vector_to_parameters s v).

(** calibration.py L198-207: `log_dimensional_scales` through getter and setter. *)
Definition write_log_scales (L Gamma sigma : R) (s : module_params) : res unit * module_params :=
  if andb (Rltb 0 L) (andb (Rltb 0 Gamma) (Rltb 0 sigma)) then
    let v := get_parameters s in
    set_parameters s (ln L :: ln Gamma :: ln sigma :: skipn 3 v)
  else (Err ValueError, s).

(** calibration.py L92-132: constructor.  [net] holds the freshly initialised
    network (its construction is [ops_network]).  Noise initialisation (L209-218)
    ends by reading `self.OPS.Corrector`, an attribute that no module has. *)
Definition calib_construct (num_components : Z) (init_with_noise : bool) (L Gamma sigma : R)
    (pq : option (R * R)) (net : option (list weights * option R)) : res module_params :=
  if existsb (Z.eqb num_components) [3; 4; 6]%Z then
    bind (ops_initial_params L Gamma sigma) (fun a =>
    match a with (l, t, m) =>
      if init_with_noise then Err AttributeError
      else
        match write_log_scales L Gamma sigma (MP l t m pq net) with
        | (Ok _, s) => Ok s
        | (Err e, _) => Err e
        end
    end)
  else Err ValueError.

(** ** Training *)

(** What calibration is configured with besides the optimiser: loss weights, wave
    numbers and reference height of the aggregator (calibration.py L351-357),
    tolerance and number of epochs (L315-316), and, for given parameters and
    evaluation count, the arguments of the initial loss evaluation (L436) and of
    the closure's (L464-470). *)
Record train_cfg : Type := TCfg
  { tg_loss : loss_params; tg_k1 : list R; tg_zref : R; tg_tol : R; tg_nepochs : nat; tg_lr : R;
    tg_args0 : module_params -> eval_args;
    tg_args : module_params -> nat -> eval_args }.

(** State of the training loop (calibration.py L424-530): module parameters,
    `self.loss`, the aggregator, `self.e_count`, the learning rate, and the vectors
    evaluated so far with their losses (what an optimiser can remember). *)
Record tstate : Type := TS
  { ts_mod : module_params; ts_loss : xr; ts_agg : agg; ts_ecount : nat; ts_lr : R;
    ts_seen : list (list R * xr) }.

(** One call `optimizer.step(closure)` (calibration.py L493) of an arbitrary
    optimiser: it evaluates the closure any number of times, at parameter vectors
    which may depend on the losses seen, and leaves a final vector. *)
Inductive strategy : Type :=
| Finish : list R -> strategy
| Ask : list R -> (xr -> strategy) -> strategy.

(** calibration.py L442-484: the closure with the parameters set to [v]. *)
Definition closure_eval (c : train_cfg) (v : list R) (s : tstate) : res tstate :=
  let m := vector_to_parameters (ts_mod s) v in
  match agg_eval (tg_loss c) (tg_k1 c) (tg_zref c) (ts_agg s) (tg_args c m (ts_ecount s)) with
  | (Ok l, a) => Ok (TS m l a (S (ts_ecount s)) (ts_lr s) (ts_seen s ++ [(v, l)]))
  | (Err e, _) => Err e
  end.

(** calibration.py L493: running one optimiser step. *)
Fixpoint run_strategy (c : train_cfg) (t : strategy) (s : tstate) : res tstate :=
  match t with
  | Finish v => Ok (TS (vector_to_parameters (ts_mod s) v) (ts_loss s) (ts_agg s) (ts_ecount s)
                       (ts_lr s) (ts_seen s))
  | Ask v k =>
      match closure_eval c v s with
      | Err e => Err e
      | Ok s1 => run_strategy c (k (ts_loss s1)) s1
      end
  end.

(** Is an extended real finite (`torch.isfinite`, calibration.py L505). *)
Definition xfinite (x : xr) : bool := match x with Fin _ => true | _ => false end.

(** calibration.py L513-526: learning-rate check every 50 epochs (window 50,
    loss_functions.py L535). *)
Definition lr_check (epoch : nat) (s : tstate) : res tstate :=
  if (epoch mod 50 =? 0)%nat then
    bind (should_adjust epoch 50 (ts_agg s)) (fun a =>
    Ok (TS (ts_mod s) (ts_loss s) (ts_agg s) (ts_ecount s) (apply_advice (ts_lr s) a) (ts_seen s)))
  else Ok s.

(** calibration.py L487-530: the training loop from a given epoch on.  [opt] is the
    optimiser (it sees the epoch and the state), [sched] the scheduler's update of
    the learning rate (L494).  The second component lists `self.loss` at the end
    of every completed optimiser step.  L502-503 read `self.OPS.p_exponent`, an
    attribute which exists only when the energy spectrum is learnable
    (one_point_spectra.py L146-148). *)
Fixpoint train (c : train_cfg) (opt : nat -> tstate -> strategy) (sched : nat -> R -> R)
    (epoch left : nat) (s : tstate) : res tstate * list xr :=
  match left with
  | O => (Ok s, [])
  | S left' =>
      match run_strategy c (opt epoch s) s with
      | Err e => (Err e, [])
      | Ok s0 =>
          let s1 := TS (ts_mod s0) (ts_loss s0) (ts_agg s0) (ts_ecount s0) (sched epoch (ts_lr s0)) (ts_seen s0) in
          match mp_pq (ts_mod s1) with
          | None => (Err AttributeError, [ts_loss s1])
          | Some _ =>
              if negb (xfinite (ts_loss s1)) then (Err RuntimeError, [ts_loss s1])
              else if xltb (ts_loss s1) (Fin (tg_tol c)) then (Ok s1, [ts_loss s1])
              else
                match lr_check epoch s1 with
                | Err e => (Err e, [ts_loss s1])
                | Ok s2 =>
                    let r := train c opt sched (S epoch) left' s2 in
                    (fst r, ts_loss s1 :: snd r)
                end
          end
      end
  end.

(** calibration.py L539-549: the returned dictionary, values in insertion order
    (L, Gamma, sigma, then p and q). *)
Definition calibrated_params (s : module_params) : res (list R) :=
  match get_parameters s with
  | a :: b :: c :: rest =>
      match mp_pq s with
      | None => Ok [exp a; exp b; exp c]
      | Some _ => match rest with
                  | p :: q :: _ => Ok [exp a; exp b; exp c; p; q]
                  | _ => Err IndexError
                  end
      end
  | _ => Err IndexError
  end.

(** calibration.py L264-549: `calibrate`: returned values with the final state, and
    the losses at the end of the optimiser steps.  Printing does not fail. *)
Definition calibrate (c : train_cfg) (opt : nat -> tstate -> strategy) (sched : nat -> R -> R)
    (m : module_params) : res (list R * tstate) * list xr :=
  match agg_eval (tg_loss c) (tg_k1 c) (tg_zref c) agg_init (tg_args0 c m) with
  | (Err e, _) => (Err e, [])
  | (Ok l, a) =>
      let r := train c opt sched 1 (tg_nepochs c) (TS m l a 0 (tg_lr c) []) in
      (bind (fst r) (fun s' => bind (calibrated_params (ts_mod s')) (fun v => Ok (v, s'))), snd r)
  end.

(** ** Which data are compared with which curves *)

(** calibration.py L359-386: rows of `kF_data_vals` after the reshape of
    L397-400, from the data tensor [d n i j]; [None]: L96 has excluded it. *)
Definition data_rows (num_components : Z) (nk : nat) (d : nat -> ix -> ix -> R) : option (list (list R)) :=
  let row i j := map (fun n => d n i j) (seq 0 nk) in
  if Z.eqb num_components 3 then Some [row X1 X1; row X2 X2; row X3 X3]
  else if Z.eqb num_components 4 then Some [row X1 X1; row X2 X2; row X3 X3; row X1 X3]
  else if Z.eqb num_components 6 then
    Some [row X1 X1; row X2 X2; row X3 X3; row X1 X3; row X2 X3; row X1 X2]
  else None.

(** calibration.py L317, L436: `y[self.curves]`. *)
Definition model_rows (num_components : nat) (out : list (list R)) : list (list R) :=
  firstn num_components out.

(** ** Gradients *)

(** A scalar tensor: its value, and its gradient when autograd tracks it
    (calibration.py L256, L553: `torch.no_grad()` yields untracked tensors). *)
Inductive tens : Type :=
| Tracked : R -> R -> tens
| Untracked : R -> tens.

(** Value of a tensor (the loss returned at calibration.py L484). *)
Definition tval (t : tens) : R := match t with Tracked v _ => v | Untracked v => v end.

(** Sum of two tensors (loss_functions.py L430). *)
Definition tadd (a b : tens) : tens :=
  match a, b with
  | Tracked v g, Tracked w h => Tracked (v + w) (g + h)
  | Tracked v g, Untracked w => Tracked (v + w) g
  | Untracked v, Tracked w h => Tracked (v + w) h
  | Untracked v, Untracked w => Untracked (v + w)
  end.

(** `backward()` (calibration.py L258, L481): RuntimeError for an untracked
    tensor. *)
Definition backward (t : tens) : res R := match t with Tracked _ g => Ok g | Untracked _ => Err RuntimeError end.

(** One term of the loss in one parameter direction, with its derivative
    (loss_functions.py L392-413). *)
Definition term : Type := ((R -> R) * (R -> R))%type.

(** loss_functions.py L404-413: a term which is switched off is the constant tensor
    0.0, otherwise autograd tracks it. *)
Definition switched (t : option term) (theta : R) : tens :=
  match t with
  | Some (f, f') => Tracked (f theta) (f' theta)
  | None => Untracked 0
  end.

(** loss_functions.py L395-402: coherence term.  The model coherence it is given was
    evaluated under no_grad (calibration.py L553), hence untracked. *)
Definition untracked_coherence (K : option (R -> R)) (theta : R) : tens :=
  match K with
  | Some f => Untracked (f theta)
  | None => Untracked 0
  end.

(** calibration.py L449-481 with loss_functions.py L392-430: closure in one parameter
    direction; [m] misfit, [K] weighted coherence term, [p1], [p2] penalties, [r]
    regulariser.  Derivatives of the tracked terms are arguments. *)
Definition grad_closure (m : term) (K : option (R -> R)) (p1 p2 r : option term) (theta : R) : R * res R :=
  let t := tadd (tadd (tadd (tadd (Tracked (fst m theta) (snd m theta)) (untracked_coherence K theta))
                            (switched p1 theta)) (switched p2 theta)) (switched r theta) in
  (tval t, backward t).

(** calibration.py L241-260: `eval_grad`: the output is computed under no_grad
    and then differentiated. *)
Definition eval_grad (out : R) : res R := backward (Untracked out).

(** ** Coherence predictions *)

(** `full[mask] = values` on one row (calibration.py L575-576). *)
Fixpoint mask_fill (mask : list bool) (d : R) (vals : list R) : list R :=
  match mask with
  | [] => []
  | true :: m => match vals with v :: vs => v :: mask_fill m d vs | [] => d :: mask_fill m d [] end
  | false :: m => d :: mask_fill m d vals
  end.

(** `x[mask]` (calibration.py L561). *)
Fixpoint mask_select (mask : list bool) (l : list R) : list R :=
  match mask, l with
  | true :: m, x :: l' => x :: mask_select m l'
  | false :: m, _ :: l' => mask_select m l'
  | _, _ => []
  end.

(** calibration.py L551-582: model coherence of one component at one separation
    for all frequencies; [coh k1] is `SpectralCoherence` at that separation. *)
Definition compute_model_coherence (coh : R -> R) (factor U : R) (freqs : list R) : list R :=
  let mask := map (fun f => Rltb (/ 1000000) f) freqs in
  let k1 := map (fun f => factor * f / U) (mask_select mask freqs) in
  mask_fill mask 1 (map coh k1).

(** ** Coherence files *)

(** One row of a coherence file: sep_idx, freq_idx, spatial_sep, frequency and one
    of the columns coh_u, coh_v, coh_w (calibration.py L1182-1229). *)
Record crow : Type := CRow { cr_i : Z; cr_j : Z; cr_sep : R; cr_freq : R; cr_val : R }.

(** Insertion of a key in a sorted list without duplicates (calibration.py
    L1188-1189: groupby keys). *)
Fixpoint insert_key (k : Z) (l : list Z) : list Z :=
  match l with
  | [] => [k]
  | a :: l' => if (k <? a)%Z then k :: l else if (k =? a)%Z then l else a :: insert_key k l'
  end.

(** calibration.py L1188-1189: sorted distinct keys. *)
Definition keys (l : list Z) : list Z := fold_right insert_key [] l.

(** calibration.py L1188-1192: value of the first row with the key. *)
Definition first_of (key : crow -> Z) (val : crow -> R) (rows : list crow) (k : Z) : R :=
  match find (fun r => (key r =? k)%Z) rows with Some r => val r | None => 0 end.

(** Python index of an array of length n: negative indices count from the end;
    [None] is out of range (calibration.py L1216-1218). *)
Definition py_index (n : nat) (i : Z) : option nat :=
  if (0 <=? i)%Z then if (i <? Z.of_nat n)%Z then Some (Z.to_nat i) else None
  else if (- Z.of_nat n <=? i)%Z then Some (Z.to_nat (i + Z.of_nat n)) else None.

(** A grid of cells (row, column); cells that were never written hold NaN
    (calibration.py L1207-1209). *)
Definition grid : Type := nat -> nat -> xr.

(** calibration.py L1212-1218: one assignment in the fill loop. *)
Definition fill_row (ns nf : nat) (g : res grid) (r : crow) : res grid :=
  bind g (fun g =>
  if andb (cr_i r <? Z.of_nat ns)%Z (cr_j r <? Z.of_nat nf)%Z then
    match py_index ns (cr_i r), py_index nf (cr_j r) with
    | Some i, Some j => Ok (fun a b => if andb (a =? i)%nat (b =? j)%nat then Fin (cr_val r) else g a b)
    | _, _ => Err IndexError
    end
  else Ok g).

(** calibration.py L1185-1229: loaded coherence array of one column: shape and
    cells. *)
Definition load_coherence (rows : list crow) : res (nat * nat * grid) :=
  let ns := length (keys (map cr_i rows)) in
  let nf := length (keys (map cr_j rows)) in
  if (length rows =? ns * nf)%nat then
    Ok (ns, nf, fun a b => match nth_error rows (a * nf + b) with Some r => Fin (cr_val r) | None => NaN end)
  else
    bind (fold_left (fill_row ns nf) rows (Ok (fun _ _ => NaN))) (fun g => Ok (ns, nf, g)).

(** calibration.py L1191-1192: separations and frequencies attached to the rows
    and columns. *)
Definition coherence_axes (rows : list crow) : list R * list R :=
  (map (first_of cr_i cr_sep rows) (keys (map cr_i rows)), map (first_of cr_j cr_freq rows) (keys (map cr_j rows))).

(** calibration.py L1240: `np.linspace(0, n_seps - 1, 4, dtype=int)`. *)
Definition sep_indices (n : nat) : list nat := map (fun i => (i * (n - 1) / 3)%nat) (seq 0 4).

(** ** Plot data *)

(** Components of a cross-spectral matrix (indices of the data tensor, calibration.py
    L361-386). *)
Definition component : Type := (ix * ix)%type.

(** calibration.py L766 (labels) and one_point_spectra.py L257, L611: component of
    the model curve in panel i. *)
Definition model_order : list component :=
  [(X1, X1); (X2, X2); (X3, X3); (X1, X3); (X2, X3); (X1, X2)].

(** calibration.py L787-818: component order of the flattened data when data are
    passed to `plot`. *)
Definition plot_data_order_given (num_components : Z) : list component :=
  if Z.eqb num_components 3 then [(X1, X1); (X2, X2); (X3, X3)]
  else if Z.eqb num_components 4 then [(X1, X1); (X2, X2); (X3, X3); (X1, X3)]
  else [(X1, X1); (X2, X2); (X3, X3); (X1, X3); (X1, X2); (X2, X3)].

(** calibration.py L820-856: the same for the stored calibration data. *)
Definition plot_data_order_stored (num_components : Z) : list component :=
  if Z.eqb num_components 3 then [(X1, X1); (X2, X2); (X3, X3)]
  else if Z.eqb num_components 4 then [(X1, X1); (X2, X2); (X3, X3); (X1, X3)]
  else [(X1, X1); (X2, X2); (X3, X3); (X1, X3); (X2, X3); (X1, X2)].

(** calibration.py L775-782: `data_component_map`; [None]: no data in the panel. *)
Definition data_component_map (num_components : Z) (panel : nat) : option nat :=
  if Z.eqb num_components 3 then if (panel <? 3)%nat then Some panel else None
  else if Z.eqb num_components 4 then if (panel <? 4)%nat then Some panel else None
  else match panel with
       | 4%nat => Some 5%nat
       | 5%nat => Some 4%nat
       | _ => if (panel <? 4)%nat then Some panel else None
       end.

(** calibration.py L905-916: component of the data drawn in a panel. *)
Definition panel_data (order : list component) (num_components : Z) (panel : nat) : option component :=
  match data_component_map num_components panel with
  | Some i => nth_error order i
  | None => None
  end.

(** ** Schedulers *)

(** calibration.py L1251-1271: factor of the three-phase schedule. *)
Definition three_phase (nepochs epoch : nat) : R :=
  let n := INR nepochs in
  let e := INR epoch in
  if Rlt_dec e (n * (3/10)) then 1 * 2
  else if Rlt_dec e (n * (7/10)) then 1 * (2 - (e - n * (3/10)) / (n * (4/10)))
  else 1 * (1/10).

(** `l[-5:]` (calibration.py L1282-1283). *)
Definition last5 (l : list R) : list R := skipn (length l - 5) l.

(** calibration.py L1278-1292: factor of the adaptive schedule for recorded
    histories (of equal length, L477-479). *)
Definition adaptive_factor (ops coh : list R) (epoch : nat) : R :=
  if (length ops <? 10)%nat then 1
  else
    let ratio := Rmean (last5 ops) / (Rmean (last5 coh) + / 100000000) in
    if Rlt_dec 10 ratio then 1/2
    else if Rlt_dec ratio (1/10) then 1/2
    else powerRZ (95/100) (Z.of_nat epoch - 10).

Open Scope string_scope.

(** loss_functions.py L54-114 (attributes), L116-583 (methods): attributes assigned by the constructor of the
    aggregator, and its methods. *)
Definition agg_attrs : list string :=
  ["writer"; "params"; "zref"; "k1space"; "logk1"; "h1"; "h2"; "component_losses"; "running_averages";
   "auto_balance"; "balance_freq"; "loss_scales"; "ema_decay"; "loss_func"; "MSE_term"; "Pen2ndOrder"; "Pen1stOrder";
   "Regularization"; "CoherenceLoss"; "compute_loss_scales"; "eval"; "update_running_averages";
   "log_component_ratios"; "get_loss_diagnostics"; "should_adjust_learning_rate"; "get_current_loss_info"].

Close Scope string_scope.

(** calibration.py L473-479: what the closure adds to `loss_history` after one
    evaluation: nothing unless the aggregator has the attribute
    `last_component_losses`. *)
Definition record_history (attrs : list string) (h : list R * list R) (ops coh : R) : list R * list R :=
  if existsb (String.eqb "last_component_losses"%string) attrs then (fst h ++ [ops], snd h ++ [coh]) else h.

(** ** Saving *)

Open Scope string_scope.

(** File system: existing directories, directories which `os.makedirs` can create,
    contents of files (calibration.py L688-714). *)
Record fs (A : Type) : Type := FS
  { fs_dir : string -> bool; fs_creatable : string -> bool; fs_file : string -> option A }.
Arguments FS {A} _ _ _.
Arguments fs_dir {A} _ _.
Arguments fs_creatable {A} _ _.
Arguments fs_file {A} _ _.

(** A directory argument: None, a str, or a pathlib.Path (calibration.py L660,
    L64). *)
Inductive dir_arg : Type := DNone | DStr : string -> dir_arg | DPath : string -> dir_arg.

(** `str(EddyLifetimeType.X)` (calibration.py L702, drdmannturb/enums.py L6-9). *)
Definition eddy_name (t : eddy_type) : string :=
  match t with
  | TWOTHIRD => "EddyLifetimeType.TWOTHIRD"
  | TAUNET => "EddyLifetimeType.TAUNET"
  | MANN => "EddyLifetimeType.MANN"
  | MANN_APPROX => "EddyLifetimeType.MANN_APPROX"
  | CONST => "EddyLifetimeType.CONST"
  end.

(** calibration.py L702: file name (never an empty directory name in the model). *)
Definition model_path (dir : string) (t : eddy_type) : string := dir ++ "/" ++ eddy_name t ++ ".pkl".

(** calibration.py L688-714: `save_model`: outcome and file system.  [content] is
    the pickled list; `os.makedirs` raises OSError (GenericException) when the
    directory can neither be found nor created. *)
Definition save_model {A : Type} (f : fs A) (save_dir output_dir : dir_arg) (t : eddy_type) (content : A)
    : res unit * fs A :=
  let write dir :=
    if orb (fs_dir f dir) (fs_creatable f dir) then
      (Ok tt, FS (fun d => orb (String.eqb d dir) (fs_dir f d)) (fs_creatable f)
                 (fun p => if String.eqb p (model_path dir t) then Some content else fs_file f p))
    else (Err GenericException, f) in
  let go d :=
    match d with
    | DNone => (Err ValueError, f)
    | DStr s => write s
    | DPath s => if fs_dir f s then write s else (Err ValueError, f)
    end in
  match save_dir with
  | DNone => go output_dir
  | d => go d
  end.

Close Scope string_scope.

(** The pickled list (calibration.py L705-714): the four parameter objects and the
    parameter vector. *)
Record saved (NN PB LO PH : Type) : Type := Saved
  { sv_nn : NN; sv_prob : PB; sv_loss : LO; sv_phys : PH; sv_params : list R }.
Arguments Saved {NN PB LO PH} _ _ _ _ _.
Arguments sv_nn {NN PB LO PH} _.
Arguments sv_prob {NN PB LO PH} _.
Arguments sv_loss {NN PB LO PH} _.
Arguments sv_phys {NN PB LO PH} _.
Arguments sv_params {NN PB LO PH} _.

(** A calibration problem (calibration.py L57-132): its configuration objects, the
    integration settings, and the module. *)
Record problem (NN PB LO PH IP : Type) : Type := Problem
  { pb_nn : NN; pb_prob : PB; pb_loss : LO; pb_phys : PH; pb_int : IP; pb_mod : module_params }.
Arguments Problem {NN PB LO PH IP} _ _ _ _ _ _.
Arguments pb_nn {NN PB LO PH IP} _.
Arguments pb_prob {NN PB LO PH IP} _.
Arguments pb_loss {NN PB LO PH IP} _.
Arguments pb_phys {NN PB LO PH IP} _.
Arguments pb_int {NN PB LO PH IP} _.
Arguments pb_mod {NN PB LO PH IP} _.

(** calibration.py L705-714: what is pickled. *)
Definition content_of {NN PB LO PH IP : Type} (p : problem NN PB LO PH IP) : saved NN PB LO PH :=
  Saved (pb_nn p) (pb_prob p) (pb_loss p) (pb_phys p) (get_parameters (pb_mod p)).

(** Reloading as in examples/02_eddy-lifetime_fit.py L157-178 (construct with the loaded
    objects and the settings at hand, then assign `parameters`, calibration.py
    L175-196); [build] is the constructor of the module. *)
Definition reload {NN PB LO PH IP : Type} (build : NN -> PB -> PH -> IP -> res module_params)
    (c : saved NN PB LO PH) (ip : IP) : res (problem NN PB LO PH IP) :=
  bind (build (sv_nn c) (sv_prob c) (sv_phys c) ip) (fun m =>
  match set_parameters m (sv_params c) with
  | (Ok _, m') => Ok (Problem (sv_nn c) (sv_prob c) (sv_loss c) (sv_phys c) ip m')
  | (Err e, _) => Err e
  end).
