(** Model of the devices and precisions of the tensors of a calibration problem, of saving it and
    of building a DRD generator from the file (drdmannturb/spectra_fitting/calibration.py L92-214
    and L660-714, one_point_spectra.py L92-150 and L195-260, common.py L155-165,
    fluctuation_field_generator.py L128-155, nn_covariance.py L112-117).
    Numbers are reals (rounding is not modelled); tensors and arrays carry their precision and
    tensors the device they are on.  From torch the model takes: tensors are created with the
    process-wide default precision and device, `torch.tensor(array)` keeps the precision of the
    array, `torch.meshgrid` and `nn.Linear` raise RuntimeError for different precisions or
    devices, `vector_to_parameters` replaces the storage of every parameter by a slice of the
    vector, and reading back a tensor of a GPU raises RuntimeError on a machine without one. *)

From Coq Require Import Reals List Arith Bool.
From Verif Require Import Prelude.
Import ListNotations.
Open Scope R_scope.

(** The floating point precisions (calibration.py L331-333, one_point_spectra.py L144-146 name the
    default one; test_precision.py L20-110 tries single and double). *)
Inductive dtype : Type := F32 | F64.

(** Where a tensor is (calibration.py L72-73; tensors are on the processor or on the GPU). *)
Inductive device : Type := CPU | CUDA.

(** Equality tests of torch on precisions (one_point_spectra.py L239, nn_modules.py L177-180). *)
Definition dtype_eqb (a b : dtype) : bool :=
  match a, b with F32, F32 | F64, F64 => true | _, _ => false end.

(** Equality tests of torch on devices (one_point_spectra.py L239, nn_modules.py L177-180). *)
Definition device_eqb (a b : device) : bool :=
  match a, b with CPU, CPU | CUDA, CUDA => true | _, _ => false end.

(** A tensor (e.g. `domain`, parameters.py L126): precision, device and numbers; the shape is
    left out. *)
Record tensor : Type := Tensor { t_dt : dtype; t_dev : device; t_val : list R }.

(** A numpy array (calibration.py L171): precision and numbers. *)
Record array : Type := Array { a_dt : dtype; a_val : list R }.

(** A process: whether `torch.cuda.is_available()` (calibration.py L144,
    fluctuation_field_generator.py L133), and the process-wide default precision and device of
    new tensors (calibration.py L145). *)
Record process : Type := Process { p_gpu : bool; p_dt : dtype; p_dev : device }.

(** The device strings of the documentation (calibration.py L72-73), and any other string. *)
Inductive device_name : Type := N_cpu | N_cuda | N_mps | N_other.

(** `init_device` (calibration.py L135-145): `torch.device` accepts the three documented strings;
    the process-wide defaults are changed for "cuda" on a machine with a GPU. *)
Definition init_device (w : process) (d : device_name) : res process :=
  match d with
  | N_other => Err RuntimeError
  | N_cuda => if p_gpu w then Ok (Process true F32 CUDA) else Ok w
  | _ => Ok w
  end.

(** What the four parameter objects say about the tensors (calibration.py L94-121): L, Gamma and
    sigma; whether the two exponents of the spectrum are learned; the numbers of entries of the
    parameters of the network, None if the eddy lifetime is not a network; and the tensors among
    the attributes of the objects, such as `domain` (parameters.py L126). *)
Record config : Type := Config {
  c_L : R; c_Gamma : R; c_sigma : R;
  c_pq : bool;
  c_net : option (list nat);
  c_tensors : list tensor }.

(** A problem: its configuration, precision and device of the grids (one_point_spectra.py
    L111-125), the parameters of the OnePointSpectra object itself and those of its network
    (L92, L144-150). *)
Record problem : Type := Problem {
  q_cfg : config;
  q_grid_dt : dtype; q_grid_dev : device;
  q_own : list tensor;
  q_net : option (list tensor) }.

(** `self.OPS.parameters()` (calibration.py L168): those of the object, then those of the
    network. *)
Definition ops_parameters (q : problem) : list tensor :=
  q_own q ++ match q_net q with Some l => l | None => [] end.

(** Numbers of entries of all parameters (one_point_spectra.py L92, L144-150). *)
Definition own_sizes (c : config) : list nat :=
  if c_pq c then [1; 1; 1; 1; 1]%nat else [1; 1; 1]%nat.

(** The precision of a concatenation (`torch.cat` in `parameters_to_vector`, calibration.py
    L168): the higher one. *)
Definition promote (l : list tensor) : dtype :=
  if existsb (fun t => dtype_eqb (t_dt t) F64) l then F64 else F32.

(** The `parameters` getter (calibration.py L168-173): the concatenation, offloaded to the
    processor; `torch.cat` raises if the parameters are on different devices. *)
Definition get_parameters (q : problem) : res array :=
  let l := ops_parameters q in
  match l with
  | [] => Err RuntimeError
  | t :: l' =>
      if forallb (fun u => device_eqb (t_dev u) (t_dev t)) l'
      then Ok (Array (promote l) (flat_map t_val l))
      else Err RuntimeError
  end.

(** A parameter vector given by the user (calibration.py L176): an array or a tensor. *)
Inductive vector : Type := VArray : array -> vector | VTensor : tensor -> vector.

(** `torch.tensor(param_vec)` unless it is a tensor already (calibration.py L186-187). *)
Definition as_tensor (w : process) (v : vector) : tensor :=
  match v with
  | VArray a => Tensor (a_dt a) (p_dev w) (a_val a)
  | VTensor t => t
  end.

(** `vector_to_parameters` (calibration.py L196, L214): consecutive slices of the vector become
    the storage of the parameters. *)
Fixpoint fill (v : tensor) (vals : list R) (l : list tensor) : list tensor :=
  match l with
  | [] => []
  | t :: l' =>
      Tensor (t_dt v) (t_dev v) (firstn (length (t_val t)) vals)
      :: fill v (skipn (length (t_val t)) vals) l'
  end.

(** All parameters replaced (calibration.py L196, L214). *)
Definition vector_to_parameters (v : tensor) (q : problem) : problem :=
  let n := length (flat_map t_val (q_own q)) in
  Problem (q_cfg q) (q_grid_dt q) (q_grid_dev q)
    (fill v (t_val v) (q_own q))
    (match q_net q with Some l => Some (fill v (skipn n (t_val v)) l) | None => None end).

(** The `parameters` setter (calibration.py L184-196). *)
Definition set_parameters (w : process) (v : vector) (q : problem) : res problem :=
  bind (get_parameters q) (fun cur =>
  let t := as_tensor w v in
  if Nat.eqb (length (t_val t)) (length (a_val cur))
  then Ok (vector_to_parameters t q)
  else Err ValueError).

(** Consecutive initial values (nn_modules.py L149-167): the random numbers from position `i`. *)
Fixpoint fresh (w : process) (rnd : nat -> R) (i : nat) (sizes : list nat) : list tensor :=
  match sizes with
  | [] => []
  | n :: s => Tensor (p_dt w) (p_dev w) (map rnd (seq i n)) :: fresh w rnd (i + n) s
  end.

(** `log_dimensional_scales` (calibration.py L200-207).  The first three entries are written. *)
Definition log_scales (w : process) (q : problem) : res problem :=
  let c := q_cfg q in
  if Rltb 0 (c_L c) && Rltb 0 (c_Gamma c) && Rltb 0 (c_sigma c) then
    bind (get_parameters q) (fun a =>
    set_parameters w
      (VArray (Array (a_dt a) (ln (c_L c) :: ln (c_Gamma c) :: ln (c_sigma c) :: skipn 3 (a_val a)))) q)
  else Err ValueError.

(** The constructor (calibration.py L92-129, one_point_spectra.py L86-150): the defaults, the
    assertions of OnePointSpectra, its grids and parameters in the default precision on the
    default device (initial values: `rnd`; also after `initialize_parameters_with_noise`,
    calibration.py L211-214, which draws in the default precision), the logarithms of the scales.
    The check of the number of components (L96) is left out. *)
Definition construct (w : process) (d : device_name) (c : config) (rnd : nat -> R)
  : res (process * problem) :=
  bind (init_device w d) (fun w' =>
  if Rltb 0 (c_L c) && Rltb 0 (c_Gamma c) && Rltb 0 (c_sigma c) then
    let own := fresh w' rnd 0 (own_sizes c) in
    let net := match c_net c with
               | Some s => Some (fresh w' rnd (length (own_sizes c)) s)
               | None => None
               end in
    bind (log_scales w' (Problem c (p_dt w') (p_dev w') own net)) (fun q => Ok (w', q))
  else Err AssertionError).

(** Layers applied to an input (nn_modules.py L176-180): precision and device must be those of
    the weights.  The exponent of the rational kernel (L45, L61-64) is a zero-dimensional tensor
    or a number and takes part in any precision; it follows the weights here. *)
Definition net_forward (k_dt : dtype) (k_dev : device) (l : list tensor) : res unit :=
  if forallb (fun t => dtype_eqb (t_dt t) k_dt && device_eqb (t_dev t) k_dev) l
  then Ok tt else Err RuntimeError.

(** `OnePointSpectra.forward` (one_point_spectra.py L239-241, L509): the mesh of the wave numbers
    and the grids, then the network if there is one. *)
Definition ops_forward (k1 : tensor) (q : problem) : res unit :=
  if dtype_eqb (t_dt k1) (q_grid_dt q) && device_eqb (t_dev k1) (q_grid_dev q) then
    match q_net q with
    | Some l => net_forward (t_dt k1) (t_dev k1) l
    | None => Ok tt
    end
  else Err RuntimeError.

(** Optimizer steps (calibration.py L493) write numbers into the existing parameters: `opt`
    gives the new numbers of the i-th parameter; precision and device stay. *)
Fixpoint retouch (opt : nat -> list R -> list R) (i : nat) (l : list tensor) : list tensor :=
  match l with
  | [] => []
  | t :: l' =>
      Tensor (t_dt t) (t_dev t)
        (firstn (length (t_val t))
           (opt i (t_val t) ++ repeat 0 (length (t_val t))))
      :: retouch opt (S i) l'
  end.

(** `calibrate` (calibration.py L394, L442-533), reduced to what decides devices and precisions:
    the model is evaluated at the wave numbers of the data, then the numbers of the parameters
    are those of the optimizer.  Its other exceptions (CalModel) are left out. *)
Definition calibrate (k1 : tensor) (opt : nat -> list R -> list R) (q : problem) : res problem :=
  bind (ops_forward k1 q) (fun _ =>
  Ok (Problem (q_cfg q) (q_grid_dt q) (q_grid_dev q)
        (retouch opt 0 (q_own q))
        (match q_net q with Some l => Some (retouch opt (length (q_own q)) l) | None => None end))).

(** What a file written by `save_model` contains (calibration.py L705-712): the four parameter
    objects and the parameter vector. *)
Record saved : Type := Saved { s_cfg : config; s_vec : array }.

(** `save_model` (calibration.py L704-714); names of directories and files are in CalModel. *)
Definition save_model (q : problem) : res saved :=
  bind (get_parameters q) (fun a => Ok (Saved (q_cfg q) a)).

(** `pickle.load` (fluctuation_field_generator.py L135): tensors return to their device. *)
Definition pickle_load (w : process) (f : saved) : res saved :=
  if existsb (fun t => device_eqb (t_dev t) CUDA) (c_tensors (s_cfg f)) && negb (p_gpu w)
  then Err RuntimeError else Ok f.

(** A configuration with other tensors (common.py L161-163). *)
Definition with_tensors (c : config) (l : list tensor) : config :=
  Config (c_L c) (c_Gamma c) (c_sigma c) (c_pq c) (c_net c) l.

(** `CPU_Unpickler(file).load()` (common.py L155-165): tensors are put on the processor. *)
Definition cpu_load (f : saved) : res saved :=
  Ok (Saved (with_tensors (s_cfg f)
               (map (fun t => Tensor (t_dt t) CPU (t_val t)) (c_tensors (s_cfg f)))) (s_vec f)).

(** How the generator reads the file (fluctuation_field_generator.py L133-136). *)
Definition load_parameters (w : process) (f : saved) : res saved :=
  if p_gpu w then cpu_load f else pickle_load w f.

(** The DRD branch of the generator (fluctuation_field_generator.py L133-148) and the evaluation
    of the network at the frequencies by the sampling method (nn_covariance.py L112-117; the
    frequencies are numpy arrays in double precision, sampling_methods.py L52).  `tauNet` does
    not exist if the eddy lifetime is not a network. *)
Definition drd_generator (w : process) (f : saved) (rnd : nat -> R)
  : res (process * problem) :=
  bind (load_parameters w f) (fun g =>
  bind (construct w (if p_gpu w then N_cuda else N_cpu) (s_cfg g) rnd) (fun wq =>
  let '(w', q) := wq in
  bind (set_parameters w' (VArray (s_vec g)) q) (fun q' =>
  match q_net q' with
  | None => Err AttributeError
  | Some l => bind (net_forward F64 (p_dev w') l) (fun _ => Ok (w', q'))
  end))).

(** What a user does between building and saving (calibration.py L135-214, L264): change the
    default precision of the process, build another problem, set the parameters, calibrate. *)
Inductive action : Type :=
| SetDefault : dtype -> action
| Build : device_name -> config -> (nat -> R) -> action
| SetParameters : vector -> action
| Calibrate : tensor -> (nat -> list R -> list R) -> action.

(** One action (calibration.py L92-146, L176-196, L264).  Of another problem only the effect of
    its `init_device` on the process matters, which takes place before anything can raise (L92);
    a setter or a calibration which raises leaves the parameters as they were. *)
Definition act (s : process * problem) (a : action) : process * problem :=
  let '(w, q) := s in
  match a with
  | SetDefault d => (Process (p_gpu w) d (p_dev w), q)
  | Build d c rnd => match init_device w d with Ok w' => (w', q) | Err _ => (w, q) end
  | SetParameters v => match set_parameters w v q with Ok q' => (w, q') | Err _ => (w, q) end
  | Calibrate k1 opt => match calibrate k1 opt q with Ok q' => (w, q') | Err _ => (w, q) end
  end.

(** A history of actions (calibration.py L92-214, L264). *)
Definition acts (s : process * problem) (l : list action) : process * problem := fold_left act l s.
