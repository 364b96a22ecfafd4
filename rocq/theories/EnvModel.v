(** Model of what the package reads from its surroundings: the environment variable for
    the number of threads (drdmannturb/fluctuation_generation/sampling_methods.py), the
    working directory when it is imported and when it writes
    (drdmannturb/spectra_fitting/calibration.py), and options of a loss which are stored
    (drdmannturb/spectra_fitting/loss_functions.py, drdmannturb/parameters.py). *)

From Coq Require Import String Ascii Reals List Arith ZArith Bool.
From Verif Require Import Prelude SpectraModel LossModel CalModel GenModel.
Import ListNotations.

(** ** Number of threads *)

(** Characters which Python's `int` skips at both ends (sampling_methods.py L108): ASCII
    white space.  Other Unicode spaces and digits are not modelled. *)
Definition is_space (c : ascii) : bool :=
  let n := nat_of_ascii c in
  ((9 <=? n) && (n <=? 13) || (28 <=? n) && (n <=? 32))%nat.

(** Value of a decimal digit (sampling_methods.py L108). *)
Definition digit_of (c : ascii) : option nat :=
  let n := nat_of_ascii c in
  if ((48 <=? n) && (n <=? 57))%nat then Some (n - 48)%nat else None.

(** White space in front (sampling_methods.py L108). *)
Fixpoint strip_front (l : list ascii) : list ascii :=
  match l with
  | c :: l' => if is_space c then strip_front l' else l
  | [] => []
  end.

(** White space at both ends (sampling_methods.py L108). *)
Definition strip (l : list ascii) : list ascii := rev (strip_front (rev (strip_front l))).

(** Digits after the first one, with single underscores between digits
    (sampling_methods.py L108); [us]: the previous character was an underscore. *)
Fixpoint more_digits (us : bool) (acc : nat) (l : list ascii) : option nat :=
  match l with
  | [] => if us then None else Some acc
  | c :: l' =>
      match digit_of c with
      | Some d => more_digits false (10 * acc + d)%nat l'
      | None => if Ascii.eqb c "_" then if us then None else more_digits true acc l' else None
      end
  end.

(** An unsigned number (sampling_methods.py L108). *)
Definition unsigned (l : list ascii) : option nat :=
  match l with
  | c :: l' => match digit_of c with Some d => more_digits false d l' | None => None end
  | [] => None
  end.

(** Python's `int(str)` (sampling_methods.py L108).  The limit of 4300 digits is not
    modelled. *)
Definition py_int (s : string) : option Z :=
  match strip (list_ascii_of_string s) with
  | c :: l =>
      if Ascii.eqb c "-" then option_map (fun n => - Z.of_nat n)%Z (unsigned l)
      else if Ascii.eqb c "+" then option_map Z.of_nat (unsigned l)
      else option_map Z.of_nat (unsigned (c :: l))
  | [] => None
  end.

(** sampling_methods.py L108: the number of threads from OMP_NUM_THREADS. *)
Definition thread_count (env : option string) : res Z :=
  match env with
  | None => Ok 4%Z
  | Some s => match py_int s with Some z => Ok z | None => Err ValueError end
  end.

Section Threads.
  (** Stored problems, random generators, sampler and low-frequency part as in GenModel
      (fluctuation_field_generator.py L75-259). *)
  Variable stored : string -> res (R * R * R).
  Variable G : Type.
  Variable seeded : Z -> G.
  Variable sampler : string -> cov_scales -> geometry -> field R -> field R.
  Variable C2 : Type.
  Variable low_make : C2 -> G -> res (low_view * G).

  (** pyfftw's acceptance of a number of threads (sampling_methods.py L117-132). *)
  Variable plan : Z -> res unit.

  (** fluctuation_field_generator.py L75-259 with the environment: the sampler is set up
      (L246, sampling_methods.py L102-136) after the checks of the arguments and before the
      low-frequency field (L253-259).  The transforms do not depend on the number of
      threads. *)
  Definition construct_env (env : option string) (a : gen_args) (config : option C2) (w : world G)
      : res (generator G * world G) :=
    bind (scales_of stored a) (fun cs =>
    bind (make_geometry (ga_dims a) (ga_levels a) (cs_L cs) (cs_Gamma cs) (ga_blend a)) (fun _ =>
    bind (thread_count env) (fun n =>
    bind (plan n) (fun _ => construct stored G seeded sampler C2 low_make a config w)))).
End Threads.

(** ** Directories *)

(** Absolute name of a path (calibration.py L64, L702-704).  The empty name stands for the
    root directory, so that names of members start with "/".  Components "." and ".." and
    doubled or final slashes are not modelled. *)
Definition locate (cwd p : string) : string :=
  match p with
  | EmptyString => cwd
  | String c _ => if Ascii.eqb c "/" then p else (cwd ++ "/" ++ p)%string
  end.

(** A directory argument as seen from a working directory.  `save_dir + "/" + …`
    (calibration.py L702) makes an absolute name of the empty str. *)
Definition place (cwd : string) (d : dir_arg) : dir_arg :=
  match d with
  | DNone => DNone
  | DStr EmptyString => DStr EmptyString
  | DStr s => DStr (locate cwd s)
  | DPath s => DPath (locate cwd s)
  end.

(** calibration.py L64: the default of `output_directory`, an expression in the signature,
    is evaluated when the class is defined, that is at import. *)
Definition default_output (import_cwd : string) : dir_arg := DPath (import_cwd ++ "/results")%string.

(** calibration.py L64, L131: the attribute `output_directory` of a new problem. *)
Definition output_attribute (import_cwd : string) (arg : option dir_arg) : dir_arg :=
  match arg with
  | None => default_output import_cwd
  | Some d => d
  end.

(** Working directory and files of the process (calibration.py L688-714, L1035-1058). *)
Record session_state (A : Type) : Type := Sess { se_cwd : string; se_fs : fs A }.
Arguments Sess {A} _ _.
Arguments se_cwd {A} _.
Arguments se_fs {A} _.

(** What a user does with a problem: `os.chdir`, `save_model` (calibration.py L660) and
    `plot(save=True)` (L1035-1058; one figure). *)
Inductive action (A : Type) : Type :=
| Chdir : string -> action A
| SaveModel : dir_arg -> A -> action A
| SaveFigure : dir_arg -> string -> A -> action A.
Arguments Chdir {A} _.
Arguments SaveModel {A} _ _.
Arguments SaveFigure {A} _ _ _.

(** calibration.py L1035-1053: `Path(save_dir)` of a str or a Path, created if absent. *)
Definition save_figure {A : Type} (cwd : string) (f : fs A) (save_dir output_dir : dir_arg) (base : string) (img : A)
    : res unit * fs A :=
  let go s :=
    let dir := locate cwd s in
    let name := if String.eqb base "" then "drdmannturb_final_spectra_fit"%string else base in
    if orb (fs_dir f dir) (fs_creatable f dir) then
      (Ok tt, FS (fun d => orb (String.eqb d dir) (fs_dir f d)) (fs_creatable f)
                 (fun p => if String.eqb p (dir ++ "/" ++ name ++ "_spectra.png") then Some img else fs_file f p))
    else (Err GenericException, f) in
  match save_dir, output_dir with
  | DStr s, _ | DPath s, _ | DNone, DStr s | DNone, DPath s => go s
  | DNone, DNone => (Err ValueError, f)
  end.

(** One action (calibration.py L688-714, L1035-1053); [out] is the attribute
    `output_directory` of the problem, [t] its eddy lifetime. *)
Definition act {A : Type} (out : dir_arg) (t : eddy_type) (a : action A) (s : session_state A)
    : res unit * session_state A :=
  match a with
  | Chdir d =>
      let dir := locate (se_cwd s) d in
      if fs_dir (se_fs s) dir then (Ok tt, Sess dir (se_fs s)) else (Err GenericException, s)
  | SaveModel d content =>
      let '(r, f) := save_model (se_fs s) (place (se_cwd s) d) (place (se_cwd s) out) t content in (r, Sess (se_cwd s) f)
  | SaveFigure d base img =>
      let '(r, f) := save_figure (se_cwd s) (se_fs s) d out base img in (r, Sess (se_cwd s) f)
  end.

(** A history of actions on one problem (calibration.py L688-714, L1035-1053). *)
Fixpoint acts {A : Type} (out : dir_arg) (t : eddy_type) (l : list (action A)) (s : session_state A) : session_state A :=
  match l with
  | [] => s
  | a :: l' => acts out t l' (snd (act out t a s))
  end.

(** ** Options of the loss which are stored *)

(** parameters.py L149-159: all fields of `LossParameters`. *)
Record loss_options : Type := LossOptions { lo_params : loss_params; lo_auto : bool; lo_freq : nat }.

(** loss_functions.py L86-107: an aggregator with its balancing attributes. *)
Record aggregator : Type := Aggregator
  { ag_params : loss_params; ag_state : agg; ag_auto : bool; ag_freq : nat; ag_scales : option (R * R) }.

(** loss_functions.py L54-107: the period is the literal 10. *)
Definition new_aggregator (o : loss_options) : aggregator :=
  Aggregator (lo_params o) agg_init (lo_auto o) 10 None.

(** loss_functions.py L382-443: an evaluation reads the coefficients and the histories. *)
Definition evaluate (k1 : list R) (zref : R) (a : eval_args) (g : aggregator) : res xr * aggregator :=
  let '(r, s) := agg_eval (ag_params g) k1 zref (ag_state g) a in
  (r, Aggregator (ag_params g) s (ag_auto g) (ag_freq g) (ag_scales g)).

(** A history of evaluations (loss_functions.py L382-443) with all outcomes. *)
Fixpoint evaluations (k1 : list R) (zref : R) (h : list eval_args) (g : aggregator) : list (res xr) * aggregator :=
  match h with
  | [] => ([], g)
  | a :: h' =>
      let '(r, g1) := evaluate k1 zref a g in
      let '(rs, g2) := evaluations k1 zref h' g1 in
      (r :: rs, g2)
  end.
