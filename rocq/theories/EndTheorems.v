(** End-to-end property theorems about generated fields (C114, C115, C116). *)

From Coq Require Import String Reals Lra Lia List Arith ZArith Bool.
From Coquelicot Require Import Complex.
From Verif Require Import Prelude RdtModel SpectraModel RdtSpec GenModel GenSpec GenDemo DftModel DftSpec DftProofs DftField EndSpec EndProofs EndDft.
Import ListNotations.
Open Scope R_scope.

(** C114: generators which differ in `energy_spectrum_scale`, `friction_velocity` or
    `reference_height` only deliver the same arrays for every sequence of calls. *)
Theorem C114_refuted : forall hyp net stored G (gauss : G -> R * G) (seeded : Z -> G) C2 (low_make : C2 -> G -> res (low_view * G)) a a' config w L T E E',
  (ga_model a = "VK" \/ ga_model a = "Mann")%string -> ga_model a = ga_model a' -> same_setup a a' ->
  ga_L a = Some L -> ga_L a' = Some L -> ga_T a = Some T -> ga_T a' = Some T -> ga_E a = Some E -> ga_E a' = Some E' ->
  0 < E -> 0 < E' -> ga_ustar a <> 0 -> ga_ustar a' <> 0 -> 0 < ga_href a -> 0 < ga_href a' ->
  same_outputs G gauss (construct stored G seeded (vf_sampler hyp net (ga_href a)) C2 low_make a config w)
                       (construct stored G seeded (vf_sampler hyp net (ga_href a')) C2 low_make a' config w).
Proof. exact classic_intensity. Qed.
Print Assumptions C114_refuted.

(** C114: the same for fitted models which differ in the fitted magnitude or in the
    friction velocity only. *)
Theorem C114_fitted_refuted : forall hyp net stored stored' G (gauss : G -> R * G) (seeded : Z -> G) C2 (low_make : C2 -> G -> res (low_view * G)) a a' config w p p' L T M M',
  ga_model a = "DRD"%string -> ga_model a' = "DRD"%string -> same_setup a a' -> ga_href a = ga_href a' ->
  ga_path a = Some p -> ga_path a' = Some p' -> stored p = Ok (L, T, M) -> stored' p' = Ok (L, T, M') ->
  0 < M -> 0 < M' -> ga_ustar a <> 0 -> ga_ustar a' <> 0 -> 0 < ga_href a ->
  same_outputs G gauss (construct stored G seeded (vf_sampler hyp net (ga_href a)) C2 low_make a config w)
                       (construct stored' G seeded (vf_sampler hyp net (ga_href a')) C2 low_make a' config w).
Proof. exact fitted_intensity. Qed.
Print Assumptions C114_fitted_refuted.

(** C114: the field before normalisation does scale, with the square root of the
    energy scale. *)
Theorem C114_sampler_partial : forall hyp net h model c L T E0 geo f, 0 <= c ->
  vf_sampler hyp net h model (CovScales L T (c * E0)) geo f = fmap (fun v => sqrt c * v) (vf_sampler hyp net h model (CovScales L T E0) geo f).
Proof. exact vf_sampler_scale. Qed.
Print Assumptions C114_sampler_partial.

Definition weak_args : gen_args := GenArgs 1 10 (1, 1, 1) (1, 1, 1)%nat "Mann" (Some 1) (Some 1) (Some 1) None (Some 3%Z) 10.
Definition strong_args : gen_args := GenArgs 5 90 (1, 1, 1) (1, 1, 1)%nat "Mann" (Some 1) (Some 1) (Some 100) None (Some 3%Z) 10.

Example C114_case : same_setup weak_args strong_args /\ ga_model weak_args = ga_model strong_args
  /\ (exists gn w', construct (fun _ => Err FileNotFoundError) nat (fun _ => 0%nat) (vf_sampler (fun x => 1 + x^2) (fun _ _ _ => 0) 10) unit (fun _ _ => Err RuntimeError)
        weak_args None (World nat 7%nat 9%nat) = Ok (gn, w')).
Proof.
  split; [repeat split|]. split; [reflexivity|].
  destruct (classic_scales (fun _ => Err FileNotFoundError) weak_args 1 1 1) as (E0 & HE & _); try reflexivity; try (cbn; lra); [right; reflexivity|].
  unfold construct. rewrite HE. cbn [bind cs_L cs_Gamma].
  destruct (GenPhys.geometry_sound 1 1 1 1 1 1 1 1 10) as (g & Hg & _); try lra.
  change (ga_dims weak_args) with (1, 1, 1). change (ga_levels weak_args) with (1, 1, 1)%nat. change (ga_blend weak_args) with 10%Z.
  rewrite Hg. cbn [bind]. eexists. eexists. reflexivity.
Qed.

(** C115: expected streamwise spectrum of the sampled field, for every kernel of the
    generator. *)
Theorem C115_streamwise_spectrum : forall hyp net h_ref model cs Lx Ly Lz nx ny nz a q r i j, (forall k1 k2 k3, net (- k1) (- k2) (- k3) = net k1 k2 k3) ->
  0 < Lx -> 0 < Ly -> 0 < Lz -> Nat.Odd ny -> Nat.Odd nz -> (a < nx)%nat -> (2 * a <> nx)%nat ->
  let d := (nx, ny, nz) in let L := (Lx, Ly, Lz) in let G := model_kernel hyp net h_ref model cs in
  row_spectrum d (sample_vf G L d) i j a q r
  = Cmult (RtoC ((INR nx)^2 / (Lx * Ly * Lz))) (transverse_sum d (fun k => covariance (kernel_at G L d k) i j) a).
Proof. exact streamwise_spectrum. Qed.
Print Assumptions C115_streamwise_spectrum.

(** C115: for the Mann model it is the sum, over the transverse wave numbers, of the
    tensor which calibration integrates. *)
Theorem C115_fitted_tensor : forall hyp E0 Lk Gamma env beta Lx Ly Lz nx ny nz a q r i j,
  0 < Lk -> 0 <= E0 -> le_type env = MANN -> le_L env = Lk -> le_T env = Gamma -> le_hyp env = hyp ->
  0 < Lx -> 0 < Ly -> 0 < Lz -> Nat.Odd ny -> Nat.Odd nz -> (0 < a)%nat -> (a < nx)%nat -> (2 * a <> nx)%nat ->
  (forall b c, (b < ny)%nat -> (c < nz)%nat -> eddy_lifetime env (physical_k Lx nx a) (physical_k Ly ny b) (physical_k Lz nz c) = Ok (beta b c)) ->
  let d := (nx, ny, nz) in let L := (Lx, Ly, Lz) in
  row_spectrum d (sample_vf (model_kernel hyp (fun _ _ _ => 0) 1 "Mann" (CovScales Lk Gamma E0)) L d) i j a q r
  = Cmult (RtoC ((INR nx)^2 / (Lx * Ly * Lz)))
      (transverse_sum d (fun k => let '(_, b, c) := k in
         RtoC (entry (power_spectra_raw (forward_energy vklike_energy E0 Lk (beta b c) (physical_k Lx nx a) (physical_k Ly ny b) (physical_k Lz nz c))
                                        (beta b c) (physical_k Lx nx a) (physical_k Ly ny b) (physical_k Lz nz c)) i j)) a).
Proof. exact mann_streamwise. Qed.
Print Assumptions C115_fitted_tensor.

(** C115: the transverse extents of the sampled array are odd for levels above 0. *)
Theorem C115_generator_extents : forall dims lx ly lz L T blend g, make_geometry dims (lx, S ly, S lz) L T blend = Ok g ->
  (0 <= g_my g)%Z -> (0 <= g_mz g)%Z ->
  let '(_, ny, nz) := noise_shape g in Nat.Odd (Z.to_nat ny) /\ Nat.Odd (Z.to_nat nz).
Proof. exact transverse_odd. Qed.
Print Assumptions C115_generator_extents.

Example C115_case : let env := LEnv MANN (3/5) 4 (fun x => 1 + x^2) 0 0 (fun _ => Err RuntimeError) in
  Nat.Odd 3 /\ Nat.Odd 5 /\ (1 < 4)%nat /\ (2 * 1 <> 4)%nat
  /\ exists beta, forall b c, (b < 3)%nat -> (c < 5)%nat -> eddy_lifetime env (physical_k 2 4 1) (physical_k 1 3 b) (physical_k 1 5 c) = Ok (beta b c).
Proof.
  cbv zeta. split; [exists 1%nat; reflexivity|]. split; [exists 2%nat; reflexivity|]. split; [lia|]. split; [lia|].
  eexists (fun b c => _). intros b c _ _. unfold eddy_lifetime. cbn [le_type]. reflexivity.
Qed.

(** C116: the variance of the field is the Riemann sum of the tensor only for cells of
    volume (2 pi)^3. *)
Theorem C116_refuted : forall E0 Lk hx hy hz nx ny nz x, 0 < E0 -> 0 < hx -> 0 < hy -> 0 < hz ->
  all_odd (nx, ny, nz) -> (3 <= nx)%nat -> hx * hy * hz <> (2 * PI)^3 ->
  let d := (nx, ny, nz) in let L := (hx * INR nx, hy * INR ny, hz * INR nz) in
  let G := fun k1 k2 k3 => times_1j (vk_kernel E0 Lk k1 k2 k3) in
  noise_covariance (sqrt (hx * hy * hz)) d (sample_vf G L d) X3 X3 x x <> riemann_sum L d (fun k => Re (covariance (kernel_at G L d k) X3 X3)).
Proof. exact amplitude_refuted. Qed.
Print Assumptions C116_refuted.

(** C116: the factor between the two is the volume of a cell over (2 pi)^3. *)
Theorem C116_cell_factor_partial : forall G hx hy hz nx ny nz i x, let d := (nx, ny, nz) in let L := (hx * INR nx, hy * INR ny, hz * INR nz) in
  nonempty d -> 0 < hx -> 0 < hy -> 0 < hz ->
  (forall k i j, on_grid d k -> kernel_at G L d (mirror d k) i j = Cconj (kernel_at G L d k i j)) ->
  noise_covariance (sqrt (hx * hy * hz)) d (sample_vf G L d) i i x x
  = hx * hy * hz / (2 * PI)^3 * riemann_sum L d (fun k => Re (covariance (kernel_at G L d k) i i)).
Proof. exact amplitude. Qed.
Print Assumptions C116_cell_factor_partial.

Example C116_case : all_odd (3, 5, 3)%nat /\ 1 * 1 * 1 <> (2 * PI)^3.
Proof.
  split; [repeat split; [exists 1%nat|exists 2%nat|exists 1%nat]; reflexivity|].
  pose proof PI_RGT_0. pose proof PI2_1 as H1. assert (1 < 2 * PI) by lra. assert (1 < (2 * PI)^3) by (apply Rlt_pow_R1; [assumption|lia]). lra.
Qed.
