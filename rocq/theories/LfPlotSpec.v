(** How a figure is read: vocabulary for the statements about the figure of the
    low-frequency fields. *)

From Coq Require Import Reals List.
From Verif Require Import Prelude LfPlotModel.
Import ListNotations.
Open Scope R_scope.

(** The point (x, y) of an image lies in the interior of the pixel in row [r] (counted
    from the bottom) and column [c], which has the colour of the value [v].  The
    extent is divided evenly into the rows and columns of the array (documented
    behaviour of `imshow` with origin "lower" and nearest interpolation). *)
Definition displays (im : image) (x y v : R) : Prop :=
  let '(x0, x1, y0, y1) := im_extent im in
  let A := im_array im in
  exists r c row, nth_error A r = Some row /\ nth_error row c = Some v
  /\ x0 + INR c * ((x1 - x0) / INR (length row)) < x < x0 + INR (S c) * ((x1 - x0) / INR (length row))
  /\ y0 + INR r * ((y1 - y0) / INR (length A)) < y < y0 + INR (S r) * ((y1 - y0) / INR (length A)).

(** The value is inside the colour range. *)
Definition in_colour_range (im : image) (v : R) : Prop := im_vmin im <= v <= im_vmax im.
