(** Property theorems about the eddy-lifetime figure (C135, C136). *)

From Coq Require Import Reals List Arith Lia Lra.
From Verif Require Import Prelude RdtModel SpectraModel TauPlotModel TauPlotSpec TauPlotProofs.
Import ListNotations.
Open Scope R_scope.

(** C135: each model curve has fifty points, each the lifetime of the current model at
    that wave number in the direction of the curve. *)
Theorem C135_curves : forall env L0 G0 f j n, plot_tau env L0 G0 = Ok f -> (j < 4)%nat -> (n < 50)%nat ->
  let k := wave_number n in
  (exists t, match direction j with (a, b, c) => eddy_lifetime env (k * a) (k * b) (k * c) end = Ok t /\ drawn_lifetime f j n = Some (k * L0, t))
  /\ drawn_reference f n = Some (k * L0, G0 * mann_lifetime (le_hyp env) (L0 * k))
  /\ drawn_lifetime f j 50 = None.
Proof. exact figure_points. Qed.
Print Assumptions C135_curves.

(** The figure of a lifetime model without network can be drawn, and its four curves
    coincide. *)
Theorem C135_drawn : forall env L0 G0, closed_form env -> is_ok (plot_tau env L0 G0).
Proof. exact figure_exists. Qed.
Print Assumptions C135_drawn.

Theorem C135_coincide : forall env L0 G0 f i j n, closed_form env -> plot_tau env L0 G0 = Ok f -> (i < 4)%nat -> (j < 4)%nat -> (n < 50)%nat ->
  drawn_lifetime f i n = drawn_lifetime f j n.
Proof. exact curves_coincide. Qed.
Print Assumptions C135_coincide.

(** The Mann model with the scales of the user lies on the reference curve. *)
Theorem C135_reference : forall env L0 G0 f j n, le_type env = MANN -> le_L env = L0 -> le_T env = G0 -> plot_tau env L0 G0 = Ok f -> (j < 4)%nat -> (n < 50)%nat ->
  drawn_lifetime f j n = drawn_reference f n.
Proof. exact mann_on_reference. Qed.
Print Assumptions C135_reference.

Example C135_case : let env := LEnv MANN 2 3 (fun x => 1 + x^2) 0 0 (fun _ => Err RuntimeError) in
  exists f, plot_tau env 2 3 = Ok f /\ drawn_lifetime f 3 49 = drawn_lifetime f 0 49 /\ drawn_lifetime f 3 49 = drawn_reference f 49
    /\ exists y, drawn_lifetime f 3 49 = Some (wave_number 49 * 2, y).
Proof.
  intros env. destruct (C135_drawn env 2 3 ltac:(discriminate)) as [f Hf]. exists f. split; [exact Hf|].
  split; [apply (C135_coincide env 2 3 f); [discriminate|exact Hf|lia..]|]. split; [apply (C135_reference env 2 3 f); auto; lia|].
  destruct (C135_curves env 2 3 f 3 49 Hf ltac:(lia) ltac:(lia)) as ((t & _ & H) & _). exists t. exact H.
Qed.

(** C136: the abscissa of the figure is k L for the length scale of the plotted model,
    so that a two-thirds lifetime is drawn as y = T x^(-2/3).  False of the code: it
    holds exactly when the calibrated length scale still is the one given by the user. *)
Theorem C136_exact_partial : forall env L0 G0 f j n x y, le_type env = TWOTHIRD -> 0 < le_L env -> 0 < le_T env -> 0 < L0 ->
  plot_tau env L0 G0 = Ok f -> (j < 4)%nat -> (n < 50)%nat -> drawn_lifetime f j n = Some (x, y) ->
  (y = le_T env * Rpower x (-2/3) <-> le_L env = L0).
Proof. exact abscissa_exact. Qed.
Print Assumptions C136_exact_partial.

Theorem C136_refuted : ~ (forall env L0 G0 f j n x y, le_type env = TWOTHIRD -> 0 < le_L env -> 0 < le_T env -> 0 < L0 ->
  plot_tau env L0 G0 = Ok f -> (j < 4)%nat -> (n < 50)%nat -> drawn_lifetime f j n = Some (x, y) ->
  y = le_T env * Rpower x (-2/3)).
Proof. exact abscissa_false. Qed.
Print Assumptions C136_refuted.

Example C136_case : let env := LEnv TWOTHIRD 2 3 (fun x => x) 0 0 (fun _ => Err RuntimeError) in
  exists f x y, plot_tau env 1 3 = Ok f /\ drawn_lifetime f 1 7 = Some (x, y) /\ y <> 3 * Rpower x (-2/3).
Proof.
  intros env. destruct (C135_drawn env 1 3 ltac:(discriminate)) as [f Hf].
  destruct (C135_curves env 1 3 f 1 7 Hf ltac:(lia) ltac:(lia)) as ((t & _ & H) & _). exists f, (wave_number 7 * 1), t.
  split; [exact Hf|]. split; [exact H|]. intros E.
  apply (C136_exact_partial env 1 3 f 1 7 _ _ eq_refl ltac:(cbn; lra) ltac:(cbn; lra) ltac:(lra) Hf ltac:(lia) ltac:(lia) H) in E. cbn in E. lra.
Qed.
