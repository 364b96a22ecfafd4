(** Model of drdmannturb/fluctuation_generation/wind_plot.py (WP below): the data handed
    to plotly.  A figure is the list of its volume traces; layout, colours and
    opacities are not modelled. *)

From Coq Require Import Reals List ZArith.
From Verif Require Import Prelude GenModel.
Import ListNotations.
Open Scope R_scope.

(** Three-dimensional arrays as nested lists (WP L28-32, L51). *)
Definition array3 (A : Type) : Type := list (list (list A)).

(** `.flatten()`, C order (WP L98-101, L208-211). *)
Definition flatten {A : Type} (a : array3 A) : list A := concat (concat a).

(** WP L28-30: one coordinate, `[spacing * n for n in range(shape)]`. *)
Definition axis (h : R) (n : nat) : list R := map (fun i => h * INR i) (seq 0 n).

(** `np.meshgrid(x, y, z, indexing="ij")` (WP L32). *)
Definition meshgrid (xs ys zs : list R) : array3 R * array3 R * array3 R :=
  (map (fun x => map (fun _ => map (fun _ => x) zs) ys) xs,
   map (fun _ => map (fun y => map (fun _ => y) zs) ys) xs,
   map (fun _ => map (fun _ => map (fun z => z) zs) ys) xs).

(** WP L10-32: `create_grid`. *)
Definition create_grid (spacing : R * R * R) (shape : nat * nat * nat) : array3 R * array3 R * array3 R :=
  let '(hx, hy, hz) := spacing in
  let '(nx, ny, nz) := shape in
  meshgrid (axis hx nx) (axis hy ny) (axis hz nz).

(** First three entries of `wind_field.shape` (WP L83, L199).  Simplification: the
    extents of an empty array are read off the nested lists as 0. *)
Definition shape_of {A : Type} (f : array3 A) : nat * nat * nat :=
  (length f, length (hd [] f), length (hd [] (hd [] f))).

(** WP L35-51: `format_wind_field`, the three components of an array of shape
    (nx, ny, nz, 3). *)
Definition format_wind_field (f : field R) : array3 R * array3 R * array3 R :=
  (map (map (map (fun t => fst (fst t)))) f, map (map (map (fun t => snd (fst t)))) f, map (map (map snd)) f).

(** `wind_field[i]` of the unformatted array: its i-th plane, an array of shape
    (ny, nz, 3) (WP L85 and L101, L114, L127; L201 and L203 with reshape=False). *)
Definition plane_of (f : field R) (i : nat) : res (array3 R) :=
  match nth_error f i with
  | None => Err IndexError
  | Some p => Ok (map (map (fun t => let '(u, v, w) := t in [u; v; w])) p)
  end.

(** The three arrays `formatted_wind_field[0..2]` (WP L85, L201). *)
Definition formatted (reshape : bool) (f : field R) : res (array3 R * array3 R * array3 R) :=
  if reshape then Ok (format_wind_field f)
  else bind (plane_of f 0) (fun a => bind (plane_of f 1) (fun b => bind (plane_of f 2) (fun c => Ok (a, b, c)))).

(** A `go.Volume` trace (WP L96-105, L206-211). *)
Record volume : Type := Volume { v_x : list R; v_y : list R; v_z : list R; v_value : list R }.

(** WP L54-157: the traces of `plot_velocity_components`. *)
Definition plot_components (spacing : R * R * R) (f : field R) (reshape : bool) : res (list volume) :=
  let '(X, Y, Z) := create_grid spacing (shape_of f) in
  bind (formatted reshape f) (fun c =>
    let '(a, b, e) := c in
    let trace v := Volume (flatten X) (flatten Y) (flatten Z) (flatten v) in
    Ok [trace a; trace b; trace e]).

(** Element-wise combination of three arrays of equal shape (WP L203). *)
Definition zip3 {A B : Type} (op : A -> A -> A -> B) (a b c : list A) : list B :=
  map (fun t => let '(x, (y, z)) := t in op x y z) (combine a (combine b c)).
(** The same for three-dimensional arrays (WP L203). *)
Definition combine3 (op : R -> R -> R -> R) (a b c : array3 R) : array3 R :=
  zip3 (zip3 (zip3 op)) a b c.

(** WP L203: the magnitude. *)
Definition speed (u v w : R) : R := sqrt (u^2 + v^2 + w^2).

(** WP L160-245: the trace of `plot_velocity_magnitude`. *)
Definition plot_magnitude (spacing : R * R * R) (f : field R) (reshape : bool) : res volume :=
  let '(X, Y, Z) := create_grid spacing (shape_of f) in
  bind (formatted reshape f) (fun c =>
    let '(a, b, e) := c in
    Ok (Volume (flatten X) (flatten Y) (flatten Z) (flatten (combine3 speed a b e)))).
