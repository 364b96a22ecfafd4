(** Property theorems about the spectral sampler (C07 on the grid, C37 with the
    concrete sampler, C48, C49, C94, C95). *)

From Coq Require Import String Reals Lra Lia List Arith ZArith Bool.
From Coquelicot Require Import Complex.
From Verif Require Import Prelude RdtModel RdtSpec GenModel GenSpec GenPhys DftModel DftSpec DftProofs DftMore DftCov DftField.
Import ListNotations.
Open Scope R_scope.

(** C07: on a grid with odd extents the real field is the complete inverse transform,
    nothing is dropped. *)
Theorem C07_nothing_dropped_odd_partial : forall G L d n i x, all_odd d -> hermitian_kernel G ->
  RtoC (sample_vf G L d n i x) = Cmult (RtoC (/ (count d * transform_norm L))) (full_sum d (correlated G L d n i) x).
Proof. exact (fun G L d n i x Ho HG => nothing_dropped G L d n i x (odd_nonempty d Ho) (fun k i j Hk => odd_hermitian G L d k i j Ho HG Hk)). Qed.
Print Assumptions C07_nothing_dropped_odd_partial.

(** C07: with an even number of rows, an imaginary part of the von Karman field is
    dropped: the sum over all modes is not real. *)
Theorem C07_refuted : forall E0 Lk Lx Ly Lz m ny nz, 0 < E0 -> 0 < Lx -> (0 < m)%nat -> (3 <= ny)%nat -> (0 < nz)%nat ->
  let d := ((2 * m)%nat, ny, nz) in
  let G := fun k1 k2 k3 => times_1j (vk_kernel E0 Lk k1 k2 k3) in
  hermitian_kernel G
  /\ exists noise, ~ (forall x, on_grid d x -> Im (full_sum d (correlated G (Lx, Ly, Lz) d noise X2) x) = 0).
Proof. exact imaginary_dropped. Qed.
Print Assumptions C07_refuted.

(** C07: the number of rows is even with the default blending. *)
Theorem C07_default_rows_even : forall dims lx ly lz L T g, make_geometry dims (S lx, ly, lz) L T 10 = Ok g ->
  exists m, fst (fst (noise_shape g)) = (2 * m)%Z.
Proof. exact default_rows_even. Qed.
Print Assumptions C07_default_rows_even.

Example C07_grid_case : all_odd (3, 5, 7)%nat /\ hermitian_kernel (fun k1 k2 k3 => times_1j (vk_kernel 1 1 k1 k2 k3))
  /\ exists g, make_geometry (1, 1, 1) (2, 1, 1)%nat 1 1 10 = Ok g.
Proof.
  split; [|split].
  - repeat split; [exists 1%nat|exists 2%nat|exists 3%nat]; reflexivity.
  - apply RdtProofs.vk_kernel_hermitian.
  - destruct (GenPhys.geometry_sound 1 1 1 2 1 1 1 1 10) as (g & Hg & _); try lra. exists g. exact Hg.
Qed.

(** C37 with the sampler of the code: the hypothesis on the sampler is met. *)
Theorem C37_concrete_sampler : forall hyp net h_ref model cs geo, shape_preserving (vf_sampler hyp net h_ref model cs geo).
Proof. exact vf_shape_preserving. Qed.
Print Assumptions C37_concrete_sampler.

Theorem C37_concrete_usable : forall hyp net h_ref stored G (seeded : Z -> G) C2 (low_make : C2 -> G -> res (low_view * G)) a config w gn w' cs Lx Ly Lz,
  ga_dims a = (Lx, Ly, Lz) -> 0 < Lx -> 0 < Ly -> 0 < Lz -> scales_of stored a = Ok cs -> 0 < cs_L cs -> 0 < cs_Gamma cs ->
  construct stored G seeded (vf_sampler hyp net h_ref) C2 low_make a config w = Ok (gn, w') ->
  usable gn /\ fresh gn (match ga_seed a with Some s => seeded s | None => w_entropy G w end).
Proof. exact concrete_usable. Qed.
Print Assumptions C37_concrete_usable.

Example C37_concrete_case : shaped 2 2 1 [[[(1, 2, 3)]; [(4, 5, 6)]]; [[(0, 0, 0)]; [(1, 1, 1)]]].
Proof. repeat constructor. Qed.

(** C48 *)

Theorem C48_linear : forall G L d n m a b i x,
  sample_vf G L d (fun j y => a * n j y + b * m j y) i x = a * sample_vf G L d n i x + b * sample_vf G L d m i x.
Proof. exact sample_linear. Qed.
Print Assumptions C48_linear.

Theorem C48_zero : forall G L d n i x, (forall j y, on_grid d y -> n j y = 0) -> sample_vf G L d n i x = 0.
Proof. exact sample_zero. Qed.
Print Assumptions C48_zero.

Theorem C48_shift : forall G L d n s i x, nonempty d ->
  sample_vf G L d (fun j y => n j (translate d s y)) i x = sample_vf G L d n i (translate d s x).
Proof. exact sample_shift. Qed.
Print Assumptions C48_shift.

(** The same on arrays of shape (nx, ny, nz, 3): rolling the noise along x rolls the
    field. *)
Theorem C48_roll : forall hyp net h_ref model cs geo nx ny nz s f, shaped nx ny nz f -> (0 < nz)%nat ->
  vf_sampler hyp net h_ref model cs geo (roll_left s f) = roll_left s (vf_sampler hyp net h_ref model cs geo f).
Proof. exact vf_roll. Qed.
Print Assumptions C48_roll.

(** Values outside the grid do not matter. *)
Theorem C48_grid_only : forall G L d n m i x, (forall j y, on_grid d y -> n j y = m j y) -> sample_vf G L d n i x = sample_vf G L d m i x.
Proof. exact sample_ext. Qed.
Print Assumptions C48_grid_only.

(** The real field is the complete inverse transform whenever the kernel is Hermitian
    on the grid. *)
Theorem C48_real : forall G L d n i x, nonempty d ->
  (forall k i j, on_grid d k -> kernel_at G L d (mirror d k) i j = Cconj (kernel_at G L d k i j)) ->
  RtoC (sample_vf G L d n i x) = Cmult (RtoC (/ (count d * transform_norm L))) (full_sum d (correlated G L d n i) x).
Proof. exact nothing_dropped_spec. Qed.
Print Assumptions C48_real.

Example C48_case : nonempty (2, 3, 4)%nat
  /\ (forall k i j, on_grid (2, 3, 4)%nat k ->
        kernel_at (fun k1 k2 k3 a b => RtoC (delta a b / (1 + k1^2 + k2^2 + k3^2))) (1, 2, 3) (2, 3, 4)%nat (mirror (2, 3, 4)%nat k) i j
        = Cconj (kernel_at (fun k1 k2 k3 a b => RtoC (delta a b / (1 + k1^2 + k2^2 + k3^2))) (1, 2, 3) (2, 3, 4)%nat k i j)).
Proof. exact even_kernel_case. Qed.

(** C49: zero divergence at every mode without a Nyquist index, hence at every mode
    of a grid with odd extents. *)

Theorem C49_regular_modes_partial : forall G L d n k, nonempty d -> solenoidal G -> on_grid d k -> regular d k ->
  spectral_divergence L d (sample_vf G L d n) k = RtoC 0.
Proof. exact regular_divergence_free. Qed.
Print Assumptions C49_regular_modes_partial.

Theorem C49_odd_grids_partial : forall G L d n k, all_odd d -> solenoidal G -> on_grid d k ->
  spectral_divergence L d (sample_vf G L d n) k = RtoC 0.
Proof. exact (fun G L d n k Ho HG Hk => regular_divergence_free G L d n k (odd_nonempty d Ho) HG Hk (odd_regular d k Ho)). Qed.
Print Assumptions C49_odd_grids_partial.

(** All kernels of the generator qualify. *)
Theorem C49_kernels_solenoidal : forall hyp net h_ref model cs, solenoidal (model_kernel hyp net h_ref model cs).
Proof. exact model_solenoidal. Qed.
Print Assumptions C49_kernels_solenoidal.

(** Every grid with an even number of rows (the default) has noise whose von Karman
    field is not divergence free. *)
Theorem C49_refuted : forall E0 Lk Lx Ly Lz m ny nz, 0 < E0 -> 0 < Lx -> 0 < Ly -> 0 < Lz -> (0 < m)%nat -> (3 <= ny)%nat -> (0 < nz)%nat ->
  let d := ((2 * m)%nat, ny, nz) in
  let G := fun k1 k2 k3 => times_1j (vk_kernel E0 Lk k1 k2 k3) in
  solenoidal G
  /\ exists noise k, on_grid d k /\ spectral_divergence (Lx, Ly, Lz) d (sample_vf G (Lx, Ly, Lz) d noise) k <> RtoC 0.
Proof. exact nyquist_divergence. Qed.
Print Assumptions C49_refuted.

Example C49_case : nonempty (4, 3, 3)%nat /\ on_grid (4, 3, 3)%nat (1, 1, 2)%nat /\ regular (4, 3, 3)%nat (1, 1, 2)%nat
  /\ solenoidal (fun k1 k2 k3 => times_1j (vk_kernel 1 1 k1 k2 k3)).
Proof. split; [|split; [|split]]; try (cbn; lia). apply solenoidal_1j. apply RdtProofs.vk_kernel_divfree. Qed.

(** C94: the covariance of the sampled field under unit white noise. *)

Theorem C94_stationary : forall G L d s i j x x', nonempty d ->
  white_covariance d (sample_vf G L d) i j (translate d s x) (translate d s x') = white_covariance d (sample_vf G L d) i j x x'.
Proof. exact covariance_stationary. Qed.
Print Assumptions C94_stationary.

Theorem C94_covariance : forall G Lx Ly Lz d i j x x', nonempty d -> 0 < Lx -> 0 < Ly -> 0 < Lz ->
  (forall k i j, on_grid d k -> kernel_at G (Lx, Ly, Lz) d (mirror d k) i j = Cconj (kernel_at G (Lx, Ly, Lz) d k i j)) ->
  RtoC (white_covariance d (sample_vf G (Lx, Ly, Lz) d) i j x x')
  = Cmult (RtoC (/ (Lx * Ly * Lz)))
      (fold_right (fun k acc => Cplus (Cmult (covariance (kernel_at G (Lx, Ly, Lz) d k) i j)
                                             (cos (angle d k x - angle d k x'), sin (angle d k x - angle d k x'))) acc)
                  (RtoC 0) (nodes_of d)).
Proof. exact covariance_spec. Qed.
Print Assumptions C94_covariance.

(** The hypothesis holds for the kernels of the generator on odd grids. *)
Theorem C94_odd_grids : forall hyp net h_ref model cs L d k i j, (forall k1 k2 k3, net (- k1) (- k2) (- k3) = net k1 k2 k3) ->
  all_odd d -> on_grid d k ->
  kernel_at (model_kernel hyp net h_ref model cs) L d (mirror d k) i j = Cconj (kernel_at (model_kernel hyp net h_ref model cs) L d k i j).
Proof. exact model_hermitian_grid. Qed.
Print Assumptions C94_odd_grids.

Example C94_case : forall k1 k2 k3, (fun a b c : R => Rabs a + b * c) (- k1) (- k2) (- k3) = (fun a b c : R => Rabs a + b * c) k1 k2 k3.
Proof. intros. cbv beta. rewrite Rabs_Ropp. ring. Qed.

(** C95: the two scalar samplers differ by the factor sqrt(N) (and by conjugation of
    the spectrum), so they are not interchangeable. *)

Theorem C95_factor : forall S L d n x, nonempty d -> (forall k, on_grid d k -> S (mirror d k) = Cconj (S k)) ->
  sample_fftw S L d n x = sqrt (count d) * sample_fft (fun k => Cconj (S k)) L d n x.
Proof. exact fftw_fft. Qed.
Print Assumptions C95_factor.

Theorem C95_refuted : forall L d n x, positive_box L -> nonempty d -> 1 < count d -> on_grid d x -> n x <> 0 ->
  sample_fftw (fun _ => RtoC 1) L d n x <> sample_fft (fun _ => RtoC 1) L d n x.
Proof. exact samplers_differ. Qed.
Print Assumptions C95_refuted.

Example C95_case : positive_box (1, 1, 1) /\ nonempty (2, 2, 2)%nat /\ 1 < count (2, 2, 2)%nat /\ on_grid (2, 2, 2)%nat (0, 1, 1)%nat.
Proof. repeat split; try (cbn; lia); try lra. cbn. lra. Qed.
