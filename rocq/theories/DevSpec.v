(** Specification vocabulary for C166 to C168: files and precisions, readable without the code. *)

From Coq Require Import Reals List Arith Bool.
From Verif Require Import Prelude DevModel.
Import ListNotations.
Open Scope R_scope.

(** No tensor of the file is on a GPU (the tensors of calibration.py L705-712). *)
Definition on_processor (f : saved) : Prop :=
  List.Forall (fun t => t_dev t = CPU) (c_tensors (s_cfg f)).

(** Two files hold the same numbers in the same precisions, whatever the devices
    (calibration.py L705-712). *)
Definition same_content (f g : saved) : Prop :=
  s_vec f = s_vec g /\
  c_L (s_cfg f) = c_L (s_cfg g) /\ c_Gamma (s_cfg f) = c_Gamma (s_cfg g) /\
  c_sigma (s_cfg f) = c_sigma (s_cfg g) /\ c_pq (s_cfg f) = c_pq (s_cfg g) /\
  c_net (s_cfg f) = c_net (s_cfg g) /\
  map t_dt (c_tensors (s_cfg f)) = map t_dt (c_tensors (s_cfg g)) /\
  map t_val (c_tensors (s_cfg f)) = map t_val (c_tensors (s_cfg g)).

(** Number of parameters of a configuration: three scales, two exponents if learned, and those
    of the network (calibration.py L168). *)
Definition count (c : config) : nat :=
  ((if c_pq c then 5 else 3) + list_sum (match c_net c with Some s => s | None => [] end))%nat.

(** Precision and numbers of a given vector (calibration.py L176). *)
Definition vector_dt (v : vector) : dtype := match v with VArray a => a_dt a | VTensor t => t_dt t end.

(** See `vector_dt` (calibration.py L176). *)
Definition vector_val (v : vector) : list R :=
  match v with VArray a => a_val a | VTensor t => t_val t end.

(** The precision of the last vector of `n` entries given to the problem during a history, `d`
    if there is none (calibration.py L176-196). *)
Fixpoint last_precision (n : nat) (d : dtype) (l : list action) : dtype :=
  match l with
  | [] => d
  | SetParameters v :: l' =>
      last_precision n (if Nat.eqb (length (vector_val v)) n then vector_dt v else d) l'
  | _ :: l' => last_precision n d l'
  end.

(** No vector is given to the problem during the history (calibration.py L176-196). *)
Definition only_calibrated (l : list action) : Prop :=
  List.Forall (fun a => match a with SetParameters _ => False | _ => True end) l.

(** The default precision with which a problem is built: on a machine with a GPU the device
    "cuda" selects single precision (calibration.py L144-145). *)
Definition built_precision (w : process) (d : device_name) : dtype :=
  match d with N_cuda => if p_gpu w then F32 else p_dt w | _ => p_dt w end.

(** The device on which tensors are created then (calibration.py L144-145). *)
Definition built_device (w : process) (d : device_name) : device :=
  match d with N_cuda => if p_gpu w then CUDA else p_dev w | _ => p_dev w end.

(** The device a user asks for with a documented string, None for "mps", which the model does
    not have (calibration.py L72-73). *)
Definition requested (d : device_name) : option device :=
  match d with N_cpu => Some CPU | N_cuda => Some CUDA | _ => None end.

(** All parameters of a problem are on a device (calibration.py L168). *)
Definition lives_on (e : device) (q : problem) : Prop :=
  List.Forall (fun t => t_dev t = e) (ops_parameters q).
