(** Property theorems comparing the spectra of sampled fields with the calibrated
    spectra. *)

From Coq Require Import String Reals List Arith Lra Lia.
From Coquelicot Require Import Coquelicot.
From Verif Require Import Prelude RdtModel SpectraModel OpsModel DataModel RdtSpec OpsSpec QuadSpec DataSpec
  GenModel DftModel DftSpec EndSpec HypSpec HypProofs MidSpec MidFinal.
Open Scope R_scope.

(** C158: for a fixed spacing and larger and larger cross sections, the expected
    streamwise spectral density of a sampled Mann field, times (2 pi)^3, approaches the
    integral of the calibrated tensor over the resolved cross-stream wave numbers. *)
Theorem C158_mann_density : forall E0 Gamma env e Lx nx a hy hz i j,
  le_type env = MANN -> hypergeometric (le_hyp env) -> 0 < le_L env -> le_T env = Gamma -> 0 <= E0 ->
  oe_L e = le_L env -> oe_M e = E0 -> oe_spec e = vklike_energy ->
  0 < Lx -> 0 < hy -> 0 < hz -> (0 < a)%nat -> (a < nx)%nat -> (2 * a <> nx)%nat ->
  let k1 := physical_k Lx nx a in
  (forall k2 k3, eddy_lifetime env k1 k2 k3 = Ok (oe_beta e k1 k2 k3)) ->
  forall eps, 0 < eps -> exists n0, forall ny nz q r, Nat.Odd ny -> Nat.Odd nz -> (n0 <= ny)%nat -> (n0 <= nz)%nat ->
  Cmod (Cminus (Cmult (RtoC ((2 * PI)^3))
    (row_density Lx (nx, ny, nz) (sample_vf (model_kernel (le_hyp env) (fun _ _ _ => 0) 1 "Mann" (CovScales (le_L env) Gamma E0))
       (Lx, hy * INR ny, hz * INR nz) (nx, ny, nz)) i j a q r))
    (RtoC (rect_integral (undelivered (fun t => entry t i j) e k1) (PI / hy) (PI / hz)))) <= eps.
Proof. exact mann_density_hyp. Qed.
Print Assumptions C158_mann_density.

(** C158: hence it approaches the quadrature of the calibration when the spacing
    resolves the same square of wave numbers. *)
Theorem C158_calibrated_partial : forall E0 Gamma env e Lx nx a p2 i j,
  le_type env = MANN -> hypergeometric (le_hyp env) -> 0 < le_L env -> le_T env = Gamma -> 0 <= E0 ->
  oe_L e = le_L env -> oe_M e = E0 -> oe_spec e = vklike_energy ->
  0 < Lx -> (0 < a)%nat -> (a < nx)%nat -> (2 * a <> nx)%nat ->
  let k1 := physical_k Lx nx a in let h := PI / Rpower 10 p2 in
  (forall k2 k3, eddy_lifetime env k1 k2 k3 = Ok (oe_beta e k1 k2 k3)) ->
  forall eps, 0 < eps ->
  exists n0 P1, forall p1, p1 <= P1 -> exists N0, forall ny nz q r N,
  Nat.Odd ny -> Nat.Odd nz -> (n0 <= ny)%nat -> (n0 <= nz)%nat -> (N0 <= N)%nat ->
  Rabs (k1 * Re (Cmult (RtoC ((2 * PI)^3))
    (row_density Lx (nx, ny, nz) (sample_vf (model_kernel (le_hyp env) (fun _ _ _ => 0) 1 "Mann" (CovScales (le_L env) Gamma E0))
       (Lx, h * INR ny, h * INR nz) (nx, ny, nz)) i j a q r))
    - ops_forward_raw (fun t => entry t i j) e p1 p2 N k1) <= eps.
Proof. exact mann_calibrated_hyp. Qed.
Print Assumptions C158_calibrated_partial.

(** C158: for the von Karman model it approaches the generated data, up to the part of
    the spectrum beyond the resolved wave numbers. *)
Theorem C158_von_karman_partial : forall hyp E0 Lk Gamma Lx nx a h i j m f,
  0 < Lk -> 0 <= E0 -> 0 < Lx -> 0 < h -> (0 < a)%nat -> (a < nx)%nat -> (2 * a <> nx)%nat ->
  let k1 := physical_k Lx nx a in
  von_karman_at Lk E0 k1 = Ok m -> finite_matrix m f ->
  forall eps, 0 < eps -> exists n0, forall ny nz q r, Nat.Odd ny -> Nat.Odd nz -> (n0 <= ny)%nat -> (n0 <= nz)%nat ->
  Rabs (k1 * Re (Cmult (RtoC ((2 * PI)^3))
    (row_density Lx (nx, ny, nz) (sample_vf (model_kernel hyp (fun _ _ _ => 0) 1 "VK" (CovScales Lk Gamma E0))
       (Lx, h * INR ny, h * INR nz) (nx, ny, nz)) i j a q r)) - f i j)
  <= eps + 3/10 * Rabs (k1 * E0) * Rpower (/ Lk^2 + k1^2 + (PI / h)^2) (- (5/6)).
Proof. exact vk_field_data. Qed.
Print Assumptions C158_von_karman_partial.

(** C158: without the factor (2 pi)^3 the densities do not approach the data. *)
Theorem C158_scale_refuted : ~ (forall hyp E0 Lk Gamma Lx nx a i j m f,
  0 < Lk -> 0 <= E0 -> 0 < Lx -> (0 < a)%nat -> (a < nx)%nat -> (2 * a <> nx)%nat ->
  von_karman_at Lk E0 (physical_k Lx nx a) = Ok m -> finite_matrix m f ->
  forall eps, 0 < eps -> exists h0, 0 < h0 /\ forall h, 0 < h -> h <= h0 -> exists n0, forall ny nz,
  Nat.Odd ny -> Nat.Odd nz -> (n0 <= ny)%nat -> (n0 <= nz)%nat ->
  Rabs (physical_k Lx nx a * Re
    (row_density Lx (nx, ny, nz) (sample_vf (model_kernel hyp (fun _ _ _ => 0) 1 "VK" (CovScales Lk Gamma E0))
       (Lx, h * INR ny, h * INR nz) (nx, ny, nz)) i j a 0 0) - f i j) <= eps).
Proof. exact vk_field_scale. Qed.
Print Assumptions C158_scale_refuted.

(** The Mann model with the usual parameters, mode 1 of 3 of a row of length 2 pi. *)
Example C158_case :
  let env := LEnv MANN (3/5) (39/10) euler_integral 0 0 (fun _ => Err RuntimeError) in
  let e := OpsEnv (3/5) (16/5) vklike_energy (fun k1 k2 k3 => 39/10 * mann_lifetime euler_integral (3/5 * sqrt (kk_of k1 k2 k3))) in
  le_type env = MANN /\ hypergeometric (le_hyp env) /\ 0 < le_L env /\ oe_L e = le_L env /\ oe_spec e = vklike_energy
  /\ 0 < 2 * PI /\ (0 < 1)%nat /\ (1 < 3)%nat /\ (2 * 1 <> 3)%nat /\ physical_k (2 * PI) 3 1 = 1
  /\ (forall k2 k3, eddy_lifetime env 1 k2 k3 = Ok (oe_beta e 1 k2 k3))
  /\ exists m f, von_karman_at (3/5) (16/5) 1 = Ok m /\ finite_matrix m f /\ 0 < f X1 X1.
Proof.
  cbv zeta. pose proof PI_RGT_0 as Hpi.
  split; [reflexivity|]. split; [intros z Hz; reflexivity|]. split; [cbn; lra|]. split; [reflexivity|]. split; [reflexivity|].
  split; [lra|]. split; [lia|]. split; [lia|]. split; [lia|]. split.
  { unfold physical_k. cbn [Nat.ltb Nat.leb Nat.mul Nat.add]. simpl INR. field. lra. }
  split; [intros k2 k3; reflexivity|].
  destruct (DataProofs.vk_published (3/5) (16/5) 1 ltac:(lra)) as (m & Hm & Hf).
  eexists. eexists. split; [exact Hm|]. split; [exact Hf|]. cbv beta iota.
  rewrite Rmult_1_l. apply Rdiv_lt_0_compat; [lra | apply exp_pos].
Qed.
