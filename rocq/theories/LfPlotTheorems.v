(** Property theorems about the figure of the low-frequency fields (C131). *)

From Coq Require Import Reals List ZArith Lia Lra.
From Coquelicot Require Import Coquelicot.
From Verif Require Import Prelude GenModel LowModel LowSpec LowDemo LfPlotModel LfPlotSpec LfPlotProofs.
Import ListNotations.
Open Scope R_scope.

(** C131: plotting before generating raises; afterwards every node's value is shown
    at the node's position (in kilometres), both panels share one colour range,
    symmetric about zero, and that range is the smallest containing all values. *)
Theorem C131_not_generated : forall quad cfg w, low_construct quad cfg = Ok w -> plot_velocity_fields w = Err RuntimeError.
Proof. exact plot_before. Qed.
Print Assumptions C131_not_generated.

Theorem C131_figure : forall quad cfg w G (gauss : G -> R * G) g0, positive_lengths cfg -> low_construct quad cfg = Ok w ->
  exists w' g1 u1 u2 im1 im2, low_generate gauss w g0 = (Ok w', g1) /\ lw_u w' = Some (u1, u2) /\ plot_velocity_fields w' = Ok (im1, im2)
  /\ (forall i j x y, (i < 2 ^ lc_e1 cfg)%nat -> (j < 2 ^ lc_e2 cfg)%nat ->
        Rabs (1000 * x - INR i * asked_dx cfg) < asked_dx cfg / 2 -> Rabs (1000 * y - INR j * asked_dy cfg) < asked_dy cfg / 2 ->
        exists v1 v2, entry u1 i j = Some v1 /\ entry u2 i j = Some v2 /\ displays im1 x y v1 /\ displays im2 x y v2)
  /\ im_vmin im1 = im_vmin im2 /\ im_vmax im1 = im_vmax im2 /\ im_vmin im1 = - im_vmax im1
  /\ (forall i j v, entry u1 i j = Some v \/ entry u2 i j = Some v -> in_colour_range im1 v)
  /\ (exists i j v, (entry u1 i j = Some v \/ entry u2 i j = Some v) /\ im_vmax im1 = Rabs v).
Proof. exact plot_after. Qed.
Print Assumptions C131_figure.

Example C131_case : positive_lengths plane_cfg /\ (exists w, low_construct unit_quad plane_cfg = Ok w)
  /\ (1 < 2 ^ lc_e1 plane_cfg)%nat /\ (3 < 2 ^ lc_e2 plane_cfg)%nat
  /\ Rabs (1000 * (3 / 1000) - INR 1 * asked_dx plane_cfg) < asked_dx plane_cfg / 2
  /\ Rabs (1000 * (7 / 1000) - INR 3 * asked_dy plane_cfg) < asked_dy plane_cfg / 2.
Proof.
  split; [exact plane_positive|]. split; [exact plane_exists|]. split; [cbn; lia|]. split; [cbn; lia|].
  destruct plane_spacing as (-> & ->). cbn [INR]. split; apply Rabs_def1; lra.
Qed.
