(** Model of `save_to_vtk`
    (/repo/drdmannturb/fluctuation_generation/fluctuation_field_generator.py L506-525)
    and of the file written by `pyevtk.hl.imageToVTK`. *)

From Coq Require Import Reals List Arith.
From Verif Require Import Prelude GenModel.
Import ListNotations.
Open Scope R_scope.

(** The order in which pyevtk writes a three-dimensional array to a file: first index
    fastest (called at fluctuation_field_generator.py L525; documented behaviour of
    `imageToVTK`, which ravels arrays in Fortran order). *)
Definition fortran_order {A : Type} (d : A) (nx ny nz : nat) (f : list (list (list A))) : list A :=
  flat_map (fun k => flat_map (fun j => map (fun i => nth k (nth j (nth i f []) []) d) (seq 0 nx)) (seq 0 ny)) (seq 0 nz).

(** Vector data are written with the three components of one cell next to each other
    (documented behaviour of `imageToVTK` for a tuple of arrays,
    fluctuation_field_generator.py L522, L525). *)
Definition interleaved {A : Type} (a b c : list A) : list A :=
  flat_map (fun t => match t with (x, (y, z)) => [x; y; z] end) (combine a (combine b c)).

(** Content of an image file: numbers of cells, cell size, and the cell arrays "grid"
    and "wind" (fluctuation_field_generator.py L520-525).  The origin is (0, 0, 0), the
    default of `imageToVTK`.  The path, the byte encoding and the XML header are not
    modelled. *)
Record vti : Type := Vti { vt_cells : nat * nat * nat; vt_spacing : R * R * R; vt_grid : list xr; vt_wind : list xr }.

(** fluctuation_field_generator.py L506-525.  [Ny], [Nz] are the transverse extents of
    `total_fluctuation` (L210), which numpy keeps for an array without rows. *)
Definition save_to_vtk (dims : R * R * R) (levels : nat * nat * nat) (Ny Nz : nat) (total : field xr) : vti :=
  let nx := length total in
  let '(u, v, w) := vtk_wind total in
  let flat := fortran_order (Fin 0) nx Ny Nz in
  Vti (nx, Ny, Nz) (vtk_spacing dims levels)
      (flat (map (map (map (fun _ => Fin 0))) total))
      (interleaved (flat u) (flat v) (flat w)).
