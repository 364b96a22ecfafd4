(** Specification vocabulary for the random field classes
    (drdmannturb/fluctuation_generation/gaussian_random_fields.py). *)

From Coq Require Import String Reals List ZArith Bool.
From Verif Require Import Prelude GenModel GrfModel.
Import ListNotations.
Open Scope R_scope.

(** The documented sampling methods (gaussian_random_fields.py L52-58). *)
Definition documented : list string := ["fft"; "fftw"; "vf_fftw"; "dst"; "dct"]%string.

(** Construction with one level and one extent per axis. *)
Definition per_axis (lx ly lz nx ny nz : nat) (dx dy dz : R) (name : string) : grf_args :=
  GrfArgs (LArray [lx; ly; lz]) (SArray [nx; ny; nz]) [dx; dy; dz] 3 name.

(** Construction with a single level and a single extent. *)
Definition scalar_args (l n : nat) (dims : list R) (name : string) : grf_args :=
  GrfArgs (LScalar l) (SScalar n) dims 3 name.

(** Distance between neighbouring nodes along each axis: length over node count. *)
Definition node_distance (f : grf) : list R :=
  map (fun p => fst p / INR (snd p)) (combine (f_lengths f) (f_grid f)).

(** The call delivers an array of the given shape. *)
Definition delivers (sh : shape) (r : res array) : Prop := exists l, r = Ok (sh, l).

(** Successive standard normal draws from a state. *)
Fixpoint stream {G : Type} (gauss : G -> R * G) (n : nat) (g : G) : list R :=
  match n with
  | O => []
  | S m => fst (gauss g) :: stream gauss m (snd (gauss g))
  end.

(** Calls which leave the sampling method in force: everything except the selection
    of a documented method. *)
Definition keeps_method (c : grf_call) : Prop :=
  match c with
  | CMethod name => ~ In name documented
  | _ => True
  end.

(** Number of entries of an array: the product of its extents. *)
Definition entries (sh : list nat) : nat := fold_left Nat.mul sh 1%nat.

(** The same construction with another sampling method. *)
Definition with_method (name : string) (a : grf_args) : grf_args :=
  GrfArgs (ga_level a) (ga_shape a) (ga_dims a) (ga_ndim a) name.

(** Some axis of a requested grid has more than one node. *)
Definition has_extent (a : grf_args) : Prop :=
  match ga_shape a with SScalar n => (2 <= n)%nat | _ => True end.
