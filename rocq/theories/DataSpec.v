(** Independent vocabulary for the statements about generated data. *)

From Coq Require Import String Reals List ZArith.
From Verif Require Import Prelude OpsModel LossModel CalModel DataModel.
Import ListNotations.
Open Scope R_scope.

(** Columns a table must have for a number of components. *)
Definition required (components : Z) (name : string) : Prop :=
  (name = "uu" \/ name = "vv" \/ name = "ww")%string
  \/ ((3 < components)%Z /\ name = "uw"%string)
  \/ (components = 6%Z /\ (name = "vw" \/ name = "uv")%string).

(** A matrix of finite numbers. *)
Definition finite_matrix (m : xmat) (f : ix -> ix -> R) : Prop := forall i j, m i j = Fin (f i j).

(** Symmetry. *)
Definition symmetric_matrix (m : xmat) : Prop := forall i j, m i j = m j i.

(** The unweighted spectrum a user reads off the von Karman data at wave number
    [k] (data over k). *)
Definition vk_data (L C : R) (i j : ix) (k : R) : R :=
  match von_karman_at L C k with Ok m => match m i j with Fin v => v / k | _ => 0 end | Err _ => 0 end.

(** Calibration of the first [nc] model curves against given data rows: whatever
    the current parameters, the loss is evaluated on the model's curves and the
    rows. *)
Definition calibrates_against (c : train_cfg) (nc : nat) (env : module_params -> ops_env) (p1 p2 : R) (N : nat)
    (k1s : list R) (rows : list (list R)) : Prop :=
  (forall m, ea_y (tg_args0 c m) = model_rows nc (ops_output (env m) p1 p2 N k1s) /\ ea_data (tg_args0 c m) = rows)
  /\ (forall m n, ea_y (tg_args c m n) = model_rows nc (ops_output (env m) p1 p2 N k1s) /\ ea_data (tg_args c m n) = rows).

(** A data tensor holds generated matrices. *)
Definition holds (mats : list xmat) (d : nat -> ix -> ix -> R) : Prop :=
  forall n m, nth_error mats n = Some m -> finite_matrix m (d n).
