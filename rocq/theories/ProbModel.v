(** Model of a `CalibrationProblem` object through its life
    (drdmannturb/spectra_fitting/calibration.py): what training leaves behind when it
    raises, the stored calibrated parameters, norms of the network parameters,
    writing of model files step by step, and the loss plots of common.py. *)

From Coq Require Import String Reals List Arith ZArith Bool.
From Verif Require Import Prelude RdtModel SpectraModel OpsModel LossModel CalModel.
Import ListNotations.
Open Scope R_scope.

(** ** Training which may raise *)

(** calibration.py L442-484: the closure with the parameters set to [v]; when the loss
    raises, the parameters stay as the optimiser has set them. *)
Definition closure_run (c : train_cfg) (v : list R) (s : tstate) : res unit * tstate :=
  let m := vector_to_parameters (ts_mod s) v in
  match agg_eval (tg_loss c) (tg_k1 c) (tg_zref c) (ts_agg s) (tg_args c m (ts_ecount s)) with
  | (Ok l, a) => (Ok tt, TS m l a (S (ts_ecount s)) (ts_lr s) (ts_seen s ++ [(v, l)]))
  | (Err e, a) => (Err e, TS m (ts_loss s) a (ts_ecount s) (ts_lr s) (ts_seen s))
  end.

(** calibration.py L493: one optimiser step, with the state left by an exception. *)
Fixpoint strategy_run (c : train_cfg) (t : strategy) (s : tstate) : res unit * tstate :=
  match t with
  | Finish v => (Ok tt, TS (vector_to_parameters (ts_mod s) v) (ts_loss s) (ts_agg s) (ts_ecount s)
                           (ts_lr s) (ts_seen s))
  | Ask v k =>
      match closure_run c v s with
      | (Err e, s1) => (Err e, s1)
      | (Ok _, s1) => strategy_run c (k (ts_loss s1)) s1
      end
  end.

(** calibration.py L487-530: the training loop, with the state left by an exception. *)
Fixpoint train_run (c : train_cfg) (opt : nat -> tstate -> strategy) (sched : nat -> R -> R)
    (epoch left : nat) (s : tstate) : res unit * tstate :=
  match left with
  | O => (Ok tt, s)
  | S left' =>
      match strategy_run c (opt epoch s) s with
      | (Err e, s0) => (Err e, s0)
      | (Ok _, s0) =>
          let s1 := TS (ts_mod s0) (ts_loss s0) (ts_agg s0) (ts_ecount s0) (sched epoch (ts_lr s0)) (ts_seen s0) in
          match mp_pq (ts_mod s1) with
          | None => (Err AttributeError, s1)
          | Some _ =>
              if negb (xfinite (ts_loss s1)) then (Err RuntimeError, s1)
              else if xltb (ts_loss s1) (Fin (tg_tol c)) then (Ok tt, s1)
              else
                match lr_check epoch s1 with
                | Err e => (Err e, s1)
                | Ok s2 => train_run c opt sched (S epoch) left' s2
                end
          end
      end
  end.

(** ** The problem object *)

Section Object.

  (** Data dictionaries given to `calibrate` (calibration.py L264-270). *)
  Variable D : Type.

  (** Attributes of a problem: the type of the eddy lifetime, module parameters
      (calibration.py L111-122), `data` (L308), `calibrated_params` (L539-549).
      Simplification: `loss`, `LossAggregator`, `e_count` and other attributes which
      `calibrate` sets again before reading them are left out. *)
  Record object : Type := Object
    { ob_type : eddy_type; ob_mod : module_params; ob_data : option D; ob_calibrated : option (list R) }.

  (** calibration.py L310-436: reading the dictionary, loading a coherence file and
      setting up loss and optimiser; it may raise. *)
  Variable prepare : D -> module_params -> res train_cfg.

  (** calibration.py L264-549: `calibrate` as an operation on the object. *)
  Definition calibrate_op (opt : nat -> tstate -> strategy) (sched : nat -> R -> R) (d : D) (o : object)
      : res (list R) * object :=
    let o1 := Object (ob_type o) (ob_mod o) (Some d) (ob_calibrated o) in
    match prepare d (ob_mod o) with
    | Err e => (Err e, o1)
    | Ok c =>
        match agg_eval (tg_loss c) (tg_k1 c) (tg_zref c) agg_init (tg_args0 c (ob_mod o)) with
        | (Err e, _) => (Err e, o1)
        | (Ok l, a) =>
            match train_run c opt sched 1 (tg_nepochs c) (TS (ob_mod o) l a 0 (tg_lr c) []) with
            | (Err e, s) => (Err e, Object (ob_type o) (ts_mod s) (Some d) (ob_calibrated o))
            | (Ok _, s) =>
                match calibrated_params (ts_mod s) with
                | Err e => (Err e, Object (ob_type o) (ts_mod s) (Some d) (ob_calibrated o))
                | Ok v => (Ok v, Object (ob_type o) (ts_mod s) (Some d) (Some v))
                end
            end
        end
    end.

  (** calibration.py L175-196: assignment to `parameters`. *)
  Definition assign_op (v : list R) (o : object) : res (list R) * object :=
    match set_parameters (ob_mod o) v with
    | (Ok _, m) => (Ok [], Object (ob_type o) m (ob_data o) (ob_calibrated o))
    | (Err e, m) => (Err e, Object (ob_type o) m (ob_data o) (ob_calibrated o))
    end.

  (** calibration.py L588-612: `print_calibrated_params`: the printed values. *)
  Definition print_op (o : object) : res (list R) :=
    match ob_calibrated o with
    | None => Err ValueError
    | Some v => Ok v
    end.

  (** Trainable network parameters as one vector: `parameters_to_vector(
      self.OPS.tauNet.parameters())` (calibration.py L658). *)
  Definition network_vector (m : module_params) : list R :=
    match mp_net m with
    | Some (Ws, nu) => concat (map (@concat R) Ws) ++ match nu with Some v => [v] | None => [] end
    | None => []
    end.

  (** calibration.py L614-635: `num_trainable_params`. *)
  Definition count_op (o : object) : res nat :=
    match ob_type o with
    | TAUNET => Ok (length (network_vector (ob_mod o)))
    | _ => Err ValueError
    end.

  (** calibration.py L637-658: `eval_trainable_norm` with the default order. *)
  Definition norm_op (o : object) : res R :=
    match ob_type o with
    | TAUNET => Ok (sqrt (Rsum (map (fun v => v^2) (network_vector (ob_mod o)))))
    | _ => Err ValueError
    end.

  (** Operations of a session with one problem (calibration.py L175-196, L264-549,
      L588-612). *)
  Inductive op : Type :=
  | Calibrate (opt : nat -> tstate -> strategy) (sched : nat -> R -> R) (d : D)
  | Assign (v : list R)
  | Print.

  (** One operation: calibration.py L175-196 (assignment), L264-549 (calibrate),
      L588-612 (print). *)
  Definition run_op (p : op) (o : object) : res (list R) * object :=
    match p with
    | Calibrate opt sched d => calibrate_op opt sched d o
    | Assign v => assign_op v o
    | Print => (print_op o, o)
    end.

  (** A session (calibration.py L175-612); exceptions are caught by the caller. *)
  Fixpoint session (l : list op) (o : object) : list (res (list R)) * object :=
    match l with
    | [] => ([], o)
    | p :: l' => let '(r, o1) := run_op p o in let '(rs, o2) := session l' o1 in (r :: rs, o2)
    end.

End Object.
Arguments Object {D}.
Arguments ob_type {D}.
Arguments ob_mod {D}.
Arguments ob_data {D}.
Arguments ob_calibrated {D}.
Arguments calibrate_op {D}.
Arguments assign_op {D}.
Arguments print_op {D}.
Arguments count_op {D}.
Arguments norm_op {D}.
Arguments Calibrate {D}.
Arguments Assign {D}.
Arguments Print {D}.
Arguments run_op {D}.
Arguments session {D}.

(** ** Writing model files *)

(** Steps of `save_model` on the file system (calibration.py L703-714): creating the
    directory, opening for writing ("wb+": the file is emptied), and writing
    successive parts of the pickled list at the position of the file handle. *)
Inductive fstep (B : Type) : Type :=
| MakeDir : string -> fstep B
| Open : string -> fstep B
| Write : string -> list B -> fstep B.
Arguments MakeDir {B}.
Arguments Open {B}.
Arguments Write {B}.

(** calibration.py L702-714: the steps of one save into [dir], for a pickled list
    written in the parts [chunks]. *)
Definition save_steps {B : Type} (dir : string) (t : eddy_type) (chunks : list (list B)) : list (fstep B) :=
  MakeDir dir :: Open (model_path dir t) :: map (Write (model_path dir t)) chunks.

(** `file.write` at position [pos] (calibration.py L705-714): bytes before the
    position are kept, bytes after the written part too; a gap before the position
    is filled with zero bytes [z]. *)
Definition write_at {B : Type} (z : B) (pos : nat) (chunk old : list B) : list B :=
  firstn pos old ++ repeat z (pos - length old) ++ chunk ++ skipn (pos + length chunk) old.

(** One step of a process with file position [pos] (calibration.py L703-714).
    Simplification: the directory can be created. *)
Definition file_step {B : Type} (z : B) (s : fstep B) (pos : nat) (f : fs (list B)) : nat * fs (list B) :=
  match s with
  | MakeDir d => (pos, FS (fun x => orb (String.eqb x d) (fs_dir f x)) (fs_creatable f) (fs_file f))
  | Open p => (0%nat, FS (fs_dir f) (fs_creatable f) (fun x => if String.eqb x p then Some [] else fs_file f x))
  | Write p chunk =>
      ((pos + length chunk)%nat,
       FS (fs_dir f) (fs_creatable f)
          (fun x => if String.eqb x p then
                      match fs_file f x with Some old => Some (write_at z pos chunk old) | None => None end
                    else fs_file f x))
  end.

(** Running steps of one process (calibration.py L703-714). *)
Fixpoint file_run {B : Type} (z : B) (l : list (fstep B)) (pos : nat) (f : fs (list B)) : nat * fs (list B) :=
  match l with
  | [] => (pos, f)
  | s :: l' => let '(pos1, f1) := file_step z s pos f in file_run z l' pos1 f1
  end.

(** Running an interleaving of two processes (calibration.py L703-714, two problems
    saving at the same time): each step belongs to the first (true) or second process,
    each with its own file position. *)
Fixpoint file_race {B : Type} (z : B) (l : list (bool * fstep B)) (pos1 pos2 : nat) (f : fs (list B)) : fs (list B) :=
  match l with
  | [] => f
  | (true, s) :: l' => let '(pos, f1) := file_step z s pos1 f in file_race z l' pos pos2 f1
  | (false, s) :: l' => let '(pos, f1) := file_step z s pos2 f in file_race z l' pos1 pos f1
  end.

(** ** Loss plots *)

(** drdmannturb/common.py L168-204: curves drawn by `plot_loss_logs`, in the order of
    the panels, from the scalar series of a log (tag, recorded values).  One series:
    `plt.subplots(1, 1)` returns a single Axes, which cannot be indexed; no series:
    `plt.subplots(1, 0)` raises; an empty series cannot be unpacked. *)
Definition plot_loss_logs {A : Type} (series : list (string * list A)) : res (list (string * list A)) :=
  if existsb (fun s => match snd s with [] => true | _ => false end) series then Err ValueError
  else
    match series with
    | [] => Err ValueError
    | [_] => Err TypeError
    | _ => Ok (map (fun s => (fst s, skipn 1 (snd s))) (rev (map (fun s => (fst s, skipn 1 (snd s))) series)))
    end.

(** calibration.py L1146-1167: `plot_losses`: [listing] is what `os.listdir` returns
    for the logging directory, [log] the content of a log. *)
Definition plot_losses {A : Type} (log : string -> list (string * list A)) (listing : option (list string)) (run : Z)
    : res (list (string * list A)) :=
  match listing with
  | None => Err AssertionError
  | Some l =>
      match py_index (length l) run with
      | None => Err IndexError
      | Some i => match nth_error l i with Some name => plot_loss_logs (log name) | None => Err IndexError end
      end
  end.
