(** Common vocabulary of the model: Python exceptions as values, extended
    reals (the IEEE special values without signed zeros), and the
    numpy / torch primitives that several modules of the code use.  This file
    models library behaviour rather than a particular file of /repo; each
    definition names the primitive and one place of /repo which calls it. *)

From Coq Require Import Reals List ZArith.
Import ListNotations.
Open Scope R_scope.

(** Exception classes raised by the code (all `raise` / implicit raises are cited
    in the models, e.g. drdmannturb/spectra_fitting/calibration.py L97). *)
Inductive exn : Type :=
| ValueError
| AttributeError
| AssertionError
| RuntimeError
| FileNotFoundError
| TypeError
| NameError
| IndexError
| KeyError
| ZeroDivisionError
| OverflowError
| GenericException.

(** Outcome of a Python call: a value or an exception (e.g.
    drdmannturb/nn_modules.py L115-146). *)
Inductive res (A : Type) : Type :=
| Ok : A -> res A
| Err : exn -> res A.
Arguments Ok {A} _.
Arguments Err {A} _.

(** Sequencing of two calls, the second one runs only if the first did not raise
    (e.g. drdmannturb/nn_modules.py L115-146). *)
Definition bind {A B : Type} (r : res A) (f : A -> res B) : res B :=
  match r with
  | Ok a => f a
  | Err e => Err e
  end.

(** Outcome is a value (specification vocabulary; e.g. a call of
    drdmannturb/nn_modules.py L88 which does not raise). *)
Definition is_ok {A : Type} (r : res A) : Prop := exists a, r = Ok a.

(** Extended reals: IEEE values up to rounding, with a single zero (numpy
    arithmetic under `np.errstate(divide="ignore", invalid="ignore")`,
    drdmannturb/fluctuation_generation/covariance_kernels.py L191). *)
Inductive xr : Type :=
| Fin : R -> xr
| PInf : xr
| NInf : xr
| NaN : xr.

(** `<` on finite floats (e.g. drdmannturb/spectra_fitting/loss_functions.py L397). *)
Definition Rltb (x y : R) : bool := if Rlt_dec x y then true else false.
(** `<=` on finite floats (e.g.
    drdmannturb/fluctuation_generation/fluctuation_field_generator.py L348). *)
Definition Rleb (x y : R) : bool := if Rle_dec x y then true else false.
(** `==` on finite floats, and tests for a zero divisor (e.g.
    drdmannturb/fluctuation_generation/covariance_kernels.py L195). *)
Definition Reqb (x y : R) : bool := if Req_EM_T x y then true else false.

(** Sign of an extended real as used to decide the sign of an infinite result:
    [Some true] positive, [Some false] negative, [None] zero or NaN (covariance_kernels.py
    L221-229). *)
Definition xsign (x : xr) : option bool :=
  match x with
  | Fin r => if Rltb 0 r then Some true else if Rltb r 0 then Some false else None
  | PInf => Some true
  | NInf => Some false
  | NaN => None
  end.

(** Infinity with the sign of a product (covariance_kernels.py L221-229). *)
Definition xinf (a b : option bool) : xr :=
  match a, b with
  | Some p, Some q => if Bool.eqb p q then PInf else NInf
  | _, _ => NaN
  end.

(** IEEE negation (covariance_kernels.py L227). *)
Definition xopp (x : xr) : xr :=
  match x with
  | Fin r => Fin (- r)
  | PInf => NInf
  | NInf => PInf
  | NaN => NaN
  end.

(** IEEE addition: inf - inf is NaN (covariance_kernels.py L228). *)
Definition xadd (x y : xr) : xr :=
  match x, y with
  | Fin a, Fin b => Fin (a + b)
  | NaN, _ => NaN
  | _, NaN => NaN
  | PInf, NInf => NaN
  | NInf, PInf => NaN
  | PInf, _ => PInf
  | _, PInf => PInf
  | NInf, _ => NInf
  | _, NInf => NInf
  end.

(** IEEE subtraction (covariance_kernels.py L227). *)
Definition xsub (x y : xr) : xr := xadd x (xopp y).

(** IEEE multiplication: 0 * inf is NaN (covariance_kernels.py L225-228). *)
Definition xmul (x y : xr) : xr :=
  match x, y with
  | Fin a, Fin b => Fin (a * b)
  | NaN, _ => NaN
  | _, NaN => NaN
  | _, _ => xinf (xsign x) (xsign y)
  end.

(** IEEE division with an unsigned (positive) zero: 0/0 is NaN, x/0 is an infinity
    (covariance_kernels.py L221-229; spectra_fitting/loss_functions.py L140). *)
Definition xdiv (x y : xr) : xr :=
  match x, y with
  | NaN, _ => NaN
  | _, NaN => NaN
  | Fin a, Fin b =>
      if Reqb b 0 then
        (if Reqb a 0 then NaN else xinf (xsign x) (Some true))
      else Fin (a / b)
  | Fin _, _ => Fin 0
  | _, Fin b => if Reqb b 0 then xinf (xsign x) (Some true) else xinf (xsign x) (xsign y)
  | _, _ => NaN
  end.

(** Largest finite double, the value `np.nan_to_num` substitutes for infinities
    (covariance_kernels.py L232-234). *)
Definition dbl_max : R := (2 - / 2 ^ 52) * 2 ^ 1023.

(** `np.nan_to_num`: NaN becomes 0, infinities become +-dbl_max
    (drdmannturb/fluctuation_generation/covariance_kernels.py L232-234). *)
Definition nan_to_num (x : xr) : R :=
  match x with
  | Fin r => r
  | PInf => dbl_max
  | NInf => - dbl_max
  | NaN => 0
  end.

(** `np.arctan2(y, x)` / `torch.atan2` on finite arguments (the value at (0,0) is 0;
    covariance_kernels.py L225, spectra_fitting/one_point_spectra.py L584). *)
Definition atan2 (y x : R) : R :=
  if Rlt_dec 0 x then atan (y / x)
  else if Rlt_dec x 0 then
    (if Rlt_dec y 0 then atan (y / x) - PI else atan (y / x) + PI)
  else if Rlt_dec 0 y then PI / 2
  else if Rlt_dec y 0 then - (PI / 2)
  else 0.

(** `x ** p` for a real exponent and a non-negative base, as an extended real:
    0 ** p is 0, 1 or inf by the sign of p; a negative base gives NaN
    (non-integer exponent; covariance_kernels.py L225,
    spectra_fitting/data_generator.py L71-86). *)
Definition xpow (x p : R) : xr :=
  if Rlt_dec 0 x then Fin (Rpower x p)
  else if Rlt_dec x 0 then NaN
  else if Rlt_dec 0 p then Fin 0
  else if Rlt_dec p 0 then PInf
  else Fin 1.

(** Sum of a list of reals (`sum`, drdmannturb/spectra_fitting/loss_functions.py
    L475). *)
Definition Rsum (l : list R) : R := fold_right Rplus 0 l.

(** `mean` of a list (fluctuation_field_generator.py L354, calibration.py L1282-1283); the
    division by the zero length of an empty list is NaN in
    numpy/torch, callers in the model never pass an empty list or say so. *)
Definition Rmean (l : list R) : R := Rsum l / INR (length l).

(** Three spatial indices 0, 1, 2 of the code (e.g. covariance_kernels.py L112-117). *)
Inductive ix : Type := X1 | X2 | X3.

(** Sum over the three spatial indices (`einsum` of sampling_methods.py L144). *)
Definition sum3 (f : ix -> R) : R := f X1 + f X2 + f X3.

(** Kronecker delta (specification vocabulary; the identity matrix behind
    covariance_kernels.py L112-117). *)
Definition delta (i j : ix) : R :=
  match i, j with
  | X1, X1 => 1
  | X2, X2 => 1
  | X3, X3 => 1
  | _, _ => 0
  end.
