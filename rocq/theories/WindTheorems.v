(** Property theorems about the plotted wind fields (C63, C99). *)

From Coq Require Import Reals List ZArith Bool Lia Lra.
From Verif Require Import Prelude GenModel GenSpec WindModel WindSpec WindProofs.
Import ListNotations.
Open Scope R_scope.

(** C63 *)

Theorem C63_grid : forall hx hy hz nx ny nz, exists X Y Z, create_grid (hx, hy, hz) (nx, ny, nz) = (X, Y, Z)
  /\ forall i j k, (i < nx)%nat -> (j < ny)%nat -> (k < nz)%nat ->
     entry3 X i j k = Some (INR i * hx) /\ entry3 Y i j k = Some (INR j * hy) /\ entry3 Z i j k = Some (INR k * hz).
Proof. exact grid_positions. Qed.
Print Assumptions C63_grid.

Theorem C63_format : forall (f : field R) a b c i j k, format_wind_field f = (a, b, c) ->
  entry3 a i j k = option_map (fun t => fst (fst t)) (entry3 f i j k)
  /\ entry3 b i j k = option_map (fun t => snd (fst t)) (entry3 f i j k)
  /\ entry3 c i j k = option_map snd (entry3 f i j k).
Proof. exact format_entries. Qed.
Print Assumptions C63_format.

Theorem C63_components : forall hx hy hz nx ny nz (f : field R), shaped nx ny nz f -> (0 < nx)%nat -> (0 < ny)%nat ->
  exists v0 v1 v2, plot_components (hx, hy, hz) f true = Ok [v0; v1; v2]
  /\ Forall (fun v => length (v_x v) = (nx * ny * nz)%nat /\ length (v_y v) = (nx * ny * nz)%nat /\ length (v_z v) = (nx * ny * nz)%nat
                      /\ length (v_value v) = (nx * ny * nz)%nat) [v0; v1; v2]
  /\ forall i j k, (i < nx)%nat -> (j < ny)%nat -> (k < nz)%nat ->
       let n := flat ny nz i j k in
       exists u w t, entry3 f i j k = Some (u, w, t)
       /\ nth_error (v_value v0) n = Some u /\ nth_error (v_value v1) n = Some w /\ nth_error (v_value v2) n = Some t
       /\ Forall (fun v => nth_error (v_x v) n = Some (INR i * hx) /\ nth_error (v_y v) n = Some (INR j * hy) /\ nth_error (v_z v) n = Some (INR k * hz)) [v0; v1; v2].
Proof. exact components_plotted. Qed.
Print Assumptions C63_components.

Theorem C63_magnitude : forall hx hy hz nx ny nz (f : field R), shaped nx ny nz f -> (0 < nx)%nat -> (0 < ny)%nat ->
  exists v, plot_magnitude (hx, hy, hz) f true = Ok v
  /\ length (v_x v) = (nx * ny * nz)%nat /\ length (v_y v) = (nx * ny * nz)%nat /\ length (v_z v) = (nx * ny * nz)%nat /\ length (v_value v) = (nx * ny * nz)%nat
  /\ forall i j k, (i < nx)%nat -> (j < ny)%nat -> (k < nz)%nat ->
       let n := flat ny nz i j k in
       exists u w t, entry3 f i j k = Some (u, w, t)
       /\ nth_error (v_x v) n = Some (INR i * hx) /\ nth_error (v_y v) n = Some (INR j * hy) /\ nth_error (v_z v) n = Some (INR k * hz)
       /\ nth_error (v_value v) n = Some (sqrt (u^2 + w^2 + t^2)).
Proof. exact magnitude_plotted. Qed.
Print Assumptions C63_magnitude.

(** C63: every plotted point is one node, and different nodes are different points. *)
Theorem C63_bijection : forall nx ny nz,
  (forall n, (n < nx * ny * nz)%nat -> exists i j k, (i < nx)%nat /\ (j < ny)%nat /\ (k < nz)%nat /\ n = flat ny nz i j k)
  /\ (forall i j k i' j' k', (j < ny)%nat -> (k < nz)%nat -> (j' < ny)%nat -> (k' < nz)%nat ->
        flat ny nz i j k = flat ny nz i' j' k' -> i = i' /\ j = j' /\ k = k').
Proof. exact (fun nx ny nz => conj (flat_onto nx ny nz) (flat_inj ny nz)). Qed.
Print Assumptions C63_bijection.

Example C63_case : let f : field R := [[[(1, 2, 3); (4, 5, 6)]]; [[(7, 8, 9); (3, 0, 4)]]] in
  shaped 2 1 2 f /\ exists v, plot_magnitude (10, 20, 30) f true = Ok v /\ nth_error (v_x v) 3 = Some 10 /\ nth_error (v_z v) 3 = Some 30 /\ nth_error (v_value v) 3 = Some 5.
Proof.
  cbv zeta. set (f := _ : field R). assert (HS : shaped 2 1 2 f) by (split; [reflexivity|repeat constructor]). split; [exact HS|].
  destruct (C63_magnitude 10 20 30 2 1 2 f HS ltac:(lia) ltac:(lia)) as (v & EV & _ & _ & _ & _ & HN). exists v. split; [exact EV|].
  destruct (HN 1%nat 0%nat 1%nat ltac:(lia) ltac:(lia) ltac:(lia)) as (u & w & t & EF & EX & _ & EZ & EM). cbn in EF. injection EF as <- <- <-.
  cbn [flat Nat.mul Nat.add INR] in EX, EZ, EM. rewrite EX, EZ, EM. split; [f_equal; ring|]. split; [f_equal; ring|]. f_equal.
  replace (3^2 + 0^2 + 4^2) with (5 * 5) by ring. apply sqrt_square. lra.
Qed.

(** C99: without reformatting, planes of the field are plotted as components. *)

Theorem C99_short_fields_raise : forall spacing nx ny nz (f : field R), shaped nx ny nz f -> (nx < 3)%nat ->
  plot_components spacing f false = Err IndexError /\ plot_magnitude spacing f false = Err IndexError.
Proof. exact unformatted_short. Qed.
Print Assumptions C99_short_fields_raise.

Theorem C99_values_interleaved : forall hx hy hz nx ny nz (f : field R), shaped nx ny nz f -> (3 <= nx)%nat -> (0 < ny)%nat ->
  exists v0 v1 v2, plot_components (hx, hy, hz) f false = Ok [v0; v1; v2]
  /\ length (v_x v0) = (nx * ny * nz)%nat /\ length (v_value v0) = (3 * ny * nz)%nat
  /\ forall j k u w t, (j < ny)%nat -> (k < nz)%nat -> entry3 f 0 j k = Some (u, w, t) ->
       nth_error (v_value v0) (flat nz 3 j k 0) = Some u /\ nth_error (v_value v0) (flat nz 3 j k 1) = Some w /\ nth_error (v_value v0) (flat nz 3 j k 2) = Some t.
Proof. exact unformatted_lengths. Qed.
Print Assumptions C99_values_interleaved.

Theorem C99_refuted : forall hx hy hz nx ny nz (f : field R), shaped nx ny nz f -> (0 < nx)%nat -> (0 < ny)%nat -> (0 < nz)%nat ->
  (nx <> 3 \/ exists u w t s, entry3 f 0 0 0 = Some (u, w, t) /\ entry3 f 0 0 1 = Some s /\ fst (fst s) <> w)%nat ->
  plot_components (hx, hy, hz) f false <> plot_components (hx, hy, hz) f true.
Proof. exact unformatted_differs. Qed.
Print Assumptions C99_refuted.

Example C99_case : let f : field R := [[[(1, 2, 3); (4, 5, 6)]]; [[(7, 8, 9); (3, 0, 4)]]; [[(7, 8, 9); (3, 0, 4)]]] in
  shaped 3 1 2 f /\ entry3 f 0 0 0 = Some (1, 2, 3) /\ entry3 f 0 0 1 = Some (4, 5, 6) /\ fst (fst (4, 5, 6)) <> 2.
Proof. cbv zeta. split; [split; [reflexivity|repeat constructor]|]. split; [reflexivity|]. split; [reflexivity|]. cbn. lra. Qed.
