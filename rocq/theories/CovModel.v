(** Model of the constructors of the covariance kernels and of `Covariance.eval`
    (drdmannturb/fluctuation_generation/covariance_kernels.py and nn_covariance.py).
    All arguments are given by keyword, as at fluctuation_field_generator.py L235-239. *)

From Coq Require Import String Reals List Bool.
From Verif Require Import Prelude.
Import ListNotations.
Open Scope string_scope.
Open Scope R_scope.

(** Values passed to the constructors (covariance_kernels.py L60, L138; nn_covariance.py L45-53): numbers, functions (of type
    [F]) and everything else, e.g. an `OnePointSpectra`. *)
Inductive cov_val (F : Type) : Type := CNum (r : R) | CFun (f : F) | COther.
Arguments CNum {F} _.
Arguments CFun {F} _.
Arguments COther {F}.

(** Keyword arguments (covariance_kernels.py L60, L138: `**kwargs`). *)
Definition kwds (F : Type) : Type := list (string * cov_val F).

(** `kwargs.get(name)` (covariance_kernels.py L32). *)
Fixpoint kw_get {F : Type} (name : string) (kw : kwds F) : option (cov_val F) :=
  match kw with
  | [] => None
  | (n, v) :: kw' => if String.eqb n name then Some v else kw_get name kw'
  end.

(** The attributes of a kernel (covariance_kernels.py L31-32, L83-86, L162-167; nn_covariance.py L78-87). *)
Record cov (F : Type) : Type := Cov
  { cv_ndim : R; cv_func : option (cov_val F); cv_L : cov_val F; cv_E0 : cov_val F; cv_Gamma : option (cov_val F) }.
Arguments Cov {F} _ _ _ _ _.
Arguments cv_ndim {F} _.
Arguments cv_func {F} _.
Arguments cv_L {F} _.
Arguments cv_E0 {F} _.
Arguments cv_Gamma {F} _.

(** An argument without default: TypeError when it is missing (covariance_kernels.py L60; nn_covariance.py L45-53). *)
Definition required {F : Type} (name : string) (kw : kwds F) : res (cov_val F) :=
  match kw_get name kw with Some v => Ok v | None => Err TypeError end.

(** An argument with a default (covariance_kernels.py L138). *)
Definition optional {F : Type} (name : string) (d : cov_val F) (kw : kwds F) : cov_val F :=
  match kw_get name kw with Some v => v | None => d end.

(** `ndim != 3` (covariance_kernels.py L80, L160; nn_covariance.py L78). *)
Definition is_three {F : Type} (v : cov_val F) : bool := match v with CNum r => Reqb r 3 | _ => false end.

(** covariance_kernels.py L60-86: `VonKarmanCovariance(...)`.  Keywords other than the three named ones end up in
    `kwargs`, of which only `func` is read (covariance_kernels.py L32). *)
Definition von_karman_init {F : Type} (kw : kwds F) : res (cov F) :=
  bind (required "ndim" kw) (fun n =>
  bind (required "length_scale" kw) (fun l =>
  bind (required "E0" kw) (fun e =>
  if is_three n then Ok (Cov 3 (kw_get "func" kw) l e None) else Err ValueError))).

(** covariance_kernels.py L138-167: `MannCovariance(...)`. *)
Definition mann_init {F : Type} (kw : kwds F) : res (cov F) :=
  let n := optional "ndim" (CNum 3) kw in
  if is_three n then
    Ok (Cov 3 (kw_get "func" kw) (optional "length_scale" (CNum 1) kw) (optional "E0" (CNum 1) kw) (Some (optional "Gamma" (CNum 1) kw)))
  else Err ValueError.

(** Names which nn_covariance.py L45-53 accepts. *)
Definition nn_names : list string := ["ndim"; "length_scale"; "E0"; "Gamma"; "ops"; "h_ref"].

(** nn_covariance.py L45-87: `NNCovariance(...)`, without `**kwargs`: an unknown keyword raises TypeError.
    Simplification: the attributes `OPS` and `h_ref` are not kept here (see [RdtModel]). *)
Definition nn_init {F : Type} (kw : kwds F) : res (cov F) :=
  if forallb (fun a => existsb (String.eqb (fst a)) nn_names) kw then
    bind (required "ndim" kw) (fun n =>
    bind (required "length_scale" kw) (fun l =>
    bind (required "E0" kw) (fun e =>
    bind (required "Gamma" kw) (fun g =>
    bind (required "ops" kw) (fun _ =>
    bind (required "h_ref" kw) (fun _ =>
    if is_three n then Ok (Cov 3 None l e (Some g)) else Err ValueError))))))
  else Err TypeError.

(** covariance_kernels.py L34-36: `eval`.  [call] runs a function of the user on arguments and a state of the world;
    the method calls it and returns None ([None] here).  Calling None or a number raises
    TypeError. *)
Definition cov_eval {F A V S : Type} (call : F -> A -> S -> res V * S) (c : cov F) (a : A) (s : S) : res (option V) * S :=
  match cv_func c with
  | Some (CFun f) =>
      match call f a s with
      | (Ok _, s') => (Ok None, s')
      | (Err e, s') => (Err e, s')
      end
  | _ => (Err TypeError, s)
  end.
