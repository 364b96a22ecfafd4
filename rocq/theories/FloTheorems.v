(** Properties C170 to C174: grids, wave numbers, positions and profiles in double
    precision. *)

From Coq Require Import Reals List ZArith Bool Lia Lra.
From Flocq Require Import Core.
From Verif Require Import Prelude GenModel DftModel LowModel FloModel FloSpec FloBase FloGrid FloErr FloCases FloGeo FloWave FloPos FloFinal.
Import ListNotations.
Open Scope R_scope.

(** C170 *)

(** Missing from the full statement: the count can exceed the smallest one by two and the
    domain must not be longer than 2^23 m (C170_smallest_refuted, C170_checks_refuted). *)
Theorem C170_grid_partial : forall cfg, moderate (lc_L cfg) -> moderate (lc_f1 cfg) -> moderate (lc_f2 cfg) ->
  (lc_e1 cfg <= 40)%nat -> (lc_e2 cfg <= 40)%nat ->
  let t1 := Rmax (lc_f1 cfg) 5 * lc_L cfg in let t2 := Rmax (lc_f2 cfg) 5 * lc_L cfg in
  let D := Rmin (lc_f1 cfg * lc_L cfg / 2 ^ lc_e1 cfg) (lc_f2 cfg * lc_L cfg / 2 ^ lc_e2 cfg) in
  t1 <= 2 ^ 23 -> t2 <= 2 ^ 23 -> t1 <= 2 ^ 49 * D -> t2 <= 2 ^ 49 * D ->
  exists g, flo_low_grid cfg = Ok g
    /\ adequate t1 D (2 ^ lc_e1 cfg) (lg_cN1 g) (lg_cL1 g) (lg_cdx g)
    /\ adequate t2 D (2 ^ lc_e2 cfg) (lg_cN2 g) (lg_cL2 g) (lg_cdy g).
Proof. exact flo_grid. Qed.
Print Assumptions C170_grid_partial.

Example C170_grid_case : moderate (lc_L plain_cfg) /\ moderate (lc_f1 plain_cfg) /\ moderate (lc_f2 plain_cfg)
  /\ (lc_e1 plain_cfg <= 40)%nat /\ (lc_e2 plain_cfg <= 40)%nat
  /\ let t1 := Rmax (lc_f1 plain_cfg) 5 * lc_L plain_cfg in let t2 := Rmax (lc_f2 plain_cfg) 5 * lc_L plain_cfg in
     let D := Rmin (lc_f1 plain_cfg * lc_L plain_cfg / 2 ^ lc_e1 plain_cfg) (lc_f2 plain_cfg * lc_L plain_cfg / 2 ^ lc_e2 plain_cfg) in
     t1 <= 2 ^ 23 /\ t2 <= 2 ^ 23 /\ t1 <= 2 ^ 49 * D /\ t2 <= 2 ^ 49 * D.
Proof. exact plain_hyps. Qed.

(** A grid accepted by the exact computation is refused: the rounding error of a length of
    18,900 km exceeds the tolerance of 10^-9 m. *)
Theorem C170_checks_refuted : moderate (lc_L wide_cfg) /\ moderate (lc_f1 wide_cfg) /\ moderate (lc_f2 wide_cfg)
  /\ flo_low_grid wide_cfg = Err RuntimeError /\ exists g, make_low_grid wide_cfg = Ok g.
Proof. exact wide_refused. Qed.
Print Assumptions C170_checks_refuted.

(** 320 cells of the spacing asked for cover the domain, 322 are taken. *)
Theorem C170_smallest_refuted : exists g, flo_low_grid plain_cfg = Ok g /\ lg_cN2 g = 322%nat
  /\ Rmax (lc_f2 plain_cfg) 5 * lc_L plain_cfg
     <= 320 * Rmin (lc_f1 plain_cfg * lc_L plain_cfg / 2 ^ lc_e1 plain_cfg) (lc_f2 plain_cfg * lc_L plain_cfg / 2 ^ lc_e2 plain_cfg)
  /\ exists g', make_low_grid plain_cfg = Ok g' /\ lg_cN2 g' = 320%nat.
Proof. exact plain_more. Qed.
Print Assumptions C170_smallest_refuted.

(** C171 *)

(** Missing from the full statement: the numbers of cells can be one off
    (C171_enough_refuted, C171_least_refuted). *)
Theorem C171_buffer_partial : forall Lx Ly Lz lx ly lz L Gamma blend,
  moderate Lx -> moderate Ly -> moderate Lz -> moderate L -> moderate Gamma ->
  (lx <= 40)%nat -> (ly <= 40)%nat -> (lz <= 40)%nat ->
  let Wx := 3 * Gamma * L / (Lx / INR (2 ^ lx + 1)) in
  let Wy := L / (Ly / INR (2 ^ ly + 1)) in
  let Wz := L / (Lz / INR (2 ^ lz + 1)) in
  Wx <= 2 ^ 48 -> Wy <= 2 ^ 48 -> Wz <= 2 ^ 48 ->
  exists g, flo_geometry (Lx, Ly, Lz) (lx, ly, lz) L Gamma blend = Ok g
    /\ cells_for Wx (g_nb g) /\ cells_for Wy (g_my g) /\ cells_for Wz (g_mz g).
Proof. exact flo_geometry_ok. Qed.
Print Assumptions C171_buffer_partial.

Example C171_buffer_case : moderate 75 /\ moderate 100 /\ moderate 50 /\ moderate (7 / 2 ^ 1)
  /\ 3 * (7 / 2 ^ 1) * 50 / (75 / INR (2 ^ 6 + 1)) <= 2 ^ 48 /\ 50 / (100 / INR (2 ^ 5 + 1)) <= 2 ^ 48.
Proof.
  split; [apply int_moderate; lia|]. split; [apply int_moderate; lia|]. split; [apply int_moderate; lia|]. split; [apply mant_moderate; lia|].
  split; rewrite INR_IZR_INZ; cbn [Nat.pow Nat.mul Nat.add Z.of_nat Pos.of_succ_nat Pos.succ]; lra.
Qed.

(** The buffer can be shorter than 3 Gamma L by the rounding error. *)
Theorem C171_enough_refuted : exists g g', let Gamma := 8782019273372467 / 2 ^ 51 in let Lx := 6071943013230182 / 2 ^ 43 in
  flo_geometry (Lx, 100, 100) (3%nat, 5%nat, 5%nat) 59 Gamma 0 = Ok g
  /\ make_geometry (Lx, 100, 100) (3%nat, 5%nat, 5%nat) 59 Gamma 0 = Ok g'
  /\ g_nb g = 9%Z /\ g_nb g' = 10%Z /\ IZR (g_nb g) * (Lx / 9) < 3 * Gamma * 59.
Proof. exact buffer_short. Qed.
Print Assumptions C171_enough_refuted.

(** It can be one cell longer than needed, so that other random numbers are drawn than the
    exact quotient would make one expect. *)
Theorem C171_least_refuted : exists g g', flo_geometry (75, 100, 100) (6%nat, 5%nat, 5%nat) 50 (7 / 2) 0 = Ok g
  /\ make_geometry (75, 100, 100) (6%nat, 5%nat, 5%nat) 50 (7 / 2) 0 = Ok g' /\ g_nb g = 456%Z /\ g_nb g' = 455%Z.
Proof. exact buffer_long. Qed.
Print Assumptions C171_least_refuted.

(** C172 *)

Theorem C172_mirror : forall L n k, (0 < k < n)%nat -> (2 * k <> n)%nat -> flo_wave_number L n (n - k) = - flo_wave_number L n k.
Proof. exact wave_mirror. Qed.
Print Assumptions C172_mirror.

Theorem C172_close : forall L n k, moderate L -> (k < n <= 2 ^ 40)%nat ->
  Rabs (flo_wave_number L n k - wave_number L n k) <= Rabs (wave_number L n k) * / 2 ^ 49.
Proof. exact wave_close. Qed.
Print Assumptions C172_close.

Theorem C172_order : forall L n j k, moderate L -> (j < n)%nat -> (k < n)%nat -> (n <= 2 ^ 40)%nat ->
  wave_number L n j < wave_number L n k -> flo_wave_number L n j < flo_wave_number L n k.
Proof. exact wave_order. Qed.
Print Assumptions C172_order.

(** The side of the box of [n] nodes, for which the wave numbers are computed. *)
Theorem C172_side : forall Lx level n, is_dbl Lx -> / 2 ^ 50 <= Lx <= 2 ^ 50 -> (level <= 40)%nat -> (1 <= n <= 2 ^ 40)%nat ->
  moderate (flo_side Lx level n)
  /\ Rabs (flo_side Lx level n - Lx / INR (2 ^ level + 1) * INR n) <= Lx / INR (2 ^ level + 1) * INR n * / 2 ^ 49.
Proof. exact side_close. Qed.
Print Assumptions C172_side.

Theorem C172_low_mirror : forall d n k, (0 < k < n)%nat -> (2 * k <> n)%nat -> flo_low_wave n d (n - k) = - flo_low_wave n d k.
Proof. exact low_mirror. Qed.
Print Assumptions C172_low_mirror.

Theorem C172_low_close : forall n d k, moderate d -> (k < n <= 2 ^ 40)%nat ->
  Rabs (flo_low_wave n d k - low_wave n d k) <= Rabs (low_wave n d k) * / 2 ^ 49.
Proof. exact low_close. Qed.
Print Assumptions C172_low_close.

Theorem C172_low_order : forall n d j k, moderate d -> (j < n)%nat -> (k < n)%nat -> (n <= 2 ^ 40)%nat ->
  low_wave n d j < low_wave n d k -> flo_low_wave n d j < flo_low_wave n d k.
Proof. exact low_order. Qed.
Print Assumptions C172_low_order.

Example C172_case : moderate 100 /\ (12 < 25)%nat /\ (2 * 12 <> 25)%nat /\ (25 <= 2 ^ 40)%nat
  /\ wave_number 100 25 3 < wave_number 100 25 4 /\ low_wave 25 100 3 < low_wave 25 100 4
  /\ is_dbl 75 /\ / 2 ^ 50 <= 75 <= 2 ^ 50.
Proof.
  assert (B : (25 <= 2 ^ 40)%nat) by (apply Nat.le_trans with (2 ^ 5)%nat; [cbn; lia|apply Nat.pow_le_mono_r; lia]).
  split; [apply int_moderate; lia|]. split; [lia|]. split; [lia|]. split; [exact B|].
  pose proof PI_RGT_0 as P. unfold wave_number, low_wave. change (signed_mode 25 3) with 3%Z. change (signed_mode 25 4) with 4%Z.
  rewrite INR_IZR_INZ. simpl (Z.of_nat 25). split; [lra|]. split; [lra|]. split; [apply (is_int 75); lia|lra].
Qed.

(** C173 *)

Theorem C173_positions : forall Lx Nx nx i, moderate Lx -> (1 <= nx <= Nx)%nat -> INR (S i) * INR Nx <= 2 ^ 47 ->
  forall p, (p < nx)%nat ->
  Rabs (nth p (flo_block_x Lx Nx nx i) 0 - (INR i * Lx + INR p * (Lx / INR Nx))) <= / 2 ^ 49 * (INR (S i) * Lx).
Proof. exact block_pos. Qed.
Print Assumptions C173_positions.

Theorem C173_order : forall Lx Nx nx i j p q, moderate Lx -> (1 <= nx <= Nx)%nat ->
  INR (S i) * INR Nx <= 2 ^ 47 -> INR (S j) * INR Nx <= 2 ^ 47 -> (p < nx)%nat -> (q < nx)%nat ->
  ((i < j)%nat \/ (i = j /\ (p < q)%nat)) ->
  nth p (flo_block_x Lx Nx nx i) 0 < nth q (flo_block_x Lx Nx nx j) 0.
Proof. exact block_increasing. Qed.
Print Assumptions C173_order.

Example C173_case : moderate 5000 /\ (1 <= 33 <= 33)%nat /\ INR (S 100) * INR 33 <= 2 ^ 47.
Proof. split; [apply int_moderate; lia|]. split; [lia|]. rewrite !INR_IZR_INZ. simpl (Z.of_nat _). lra. Qed.

(** C174 *)

Theorem C174_heights : forall Lz level, moderate Lz -> (level <= 40)%nat -> forall q, (q <= 2 ^ level)%nat ->
  Rabs (nth q (flo_heights Lz level) 0 - INR q * (Lz / INR (2 ^ level))) <= INR q * (Lz / INR (2 ^ level)) * / 2 ^ 49.
Proof. exact heights_close. Qed.
Print Assumptions C174_heights.

Theorem C174_heights_order : forall Lz level, moderate Lz -> (level <= 40)%nat -> forall p q, (p < q <= 2 ^ level)%nat ->
  nth p (flo_heights Lz level) 0 < nth q (flo_heights Lz level) 0.
Proof. exact heights_increasing. Qed.
Print Assumptions C174_heights_order.

Theorem C174_ends : forall Lz level, moderate Lz -> (level <= 40)%nat ->
  nth 0 (flo_heights Lz level) 0 = 0 /\ nth (2 ^ level) (flo_heights Lz level) 0 = Lz /\ length (flo_heights Lz level) = (2 ^ level + 1)%nat.
Proof. exact heights_ends. Qed.
Print Assumptions C174_ends.

Theorem C174_power_reference : forall powf zref uref a, zref <> 0 -> is_dbl uref -> powf 1 a = 1 -> flo_power_law powf zref uref a zref = uref.
Proof. exact power_reference. Qed.
Print Assumptions C174_power_reference.

Theorem C174_power : forall powf zref uref a, 0 < zref -> 0 <= uref -> powf 0 a = 0 ->
  (forall x y, 0 <= x <= y -> powf x a <= powf y a) ->
  flo_power_law powf zref uref a 0 = 0 /\
  forall z z', 0 <= z <= z' -> flo_power_law powf zref uref a z <= flo_power_law powf zref uref a z'.
Proof. exact power_profile. Qed.
Print Assumptions C174_power.

Example C174_power_case : pow_case 1 (1 / 7) = 1 /\ pow_case 0 (1 / 7) = 0 /\ (forall x y, 0 <= x <= y -> pow_case x (1 / 7) <= pow_case y (1 / 7)) /\ is_dbl 10
  /\ moderate 200 /\ (7 <= 40)%nat.
Proof. destruct (pow_case_ok (1 / 7) ltac:(lra)) as (A & B & C). split; [exact A|]. split; [exact B|]. split; [exact C|]. split; [apply (is_int 10); lia|]. split; [apply int_moderate; lia|lia]. Qed.

Theorem C174_log : forall logf z0 zref uref, 0 < z0 -> 0 <= uref -> logf 1 = 0 -> 0 < logf (dbl (zref / z0)) ->
  (forall x y, 1 <= x <= y -> logf x <= logf y) ->
  flo_log_law logf z0 zref uref 0 = 0 /\
  forall z z', 0 <= z <= z' -> flo_log_law logf z0 zref uref z <= flo_log_law logf z0 zref uref z'.
Proof. exact log_profile. Qed.
Print Assumptions C174_log.

Example C174_log_case : ln 1 = 0 /\ 0 < ln (dbl (100 / (1 / 8))) /\ forall x y, 1 <= x <= y -> ln x <= ln y.
Proof. exact ln_ok. Qed.
