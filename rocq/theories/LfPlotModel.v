(** Model of
    /repo/drdmannturb/fluctuation_generation/low_frequency/fluctuation_field_generator.py
    L896-964, `plot_velocity_fields`.  LF stands for that file. *)

From Coq Require Import Reals List.
From Verif Require Import Prelude GenModel LowModel.
Import ListNotations.
Open Scope R_scope.

(** `np.min` of a two-dimensional array with at least one entry (LF L914); the value
    on an empty array, where numpy raises, is irrelevant since grids have 2^n points. *)
Definition array_min (u : list (list R)) : R :=
  match concat u with [] => 0 | a :: l => fold_right Rmin a l end.
(** `np.max` (LF L915), with the same remark. *)
Definition array_max (u : list (list R)) : R :=
  match concat u with [] => 0 | a :: l => fold_right Rmax a l end.

(** The transposed array (LF L933, L949: `self.u1.T`). *)
Definition transposed (u : list (list R)) : list (list R) :=
  map (fun q => map (fun r => nth q r 0) u) (seq 0 (length (hd [] u))).

(** One call of `imshow` (LF L932-941): array, extent, colour limits.  The colour map,
    labels and layout are not modelled; `origin="lower"` and
    `interpolation="nearest"` are constants, see [LfPlotSpec.displays]. *)
Record image : Type := Image { im_array : list (list R); im_extent : R * R * R * R; im_vmin : R; im_vmax : R }.

(** LF L896-964: `plot_velocity_fields`. *)
Definition plot_velocity_fields (w : low_gen) : res (image * image) :=
  match lw_u w with
  | None => Err RuntimeError
  | Some (u1, u2) =>
      let g := lw_grid w in
      let x_km := map (fun x => x / 1000) (user_coords (lg_L1 g) (lg_N1 g)) in
      let y_km := map (fun y => y / 1000) (user_coords (lg_L2 g) (lg_N2 g)) in
      let vmin := Rmin (array_min u1) (array_min u2) in
      let vmax := Rmax (array_max u1) (array_max u2) in
      let vlim := Rmax (Rabs vmin) (Rabs vmax) in
      let dx := lg_dx g / 1000 in
      let dy := lg_dy g / 1000 in
      let extent := (hd 0 x_km - dx / 2, last x_km 0 + dx / 2, hd 0 y_km - dy / 2, last y_km 0 + dy / 2) in
      Ok (Image (transposed u1) extent (- vlim) vlim, Image (transposed u2) extent (- vlim) vlim)
  end.
