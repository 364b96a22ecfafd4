(** Model of drdmannturb/fluctuation_generation/sampling_methods.py: discrete
    Fourier transforms (numpy / scipy.fftpack / pyfftw), wave numbers, and the
    samplers built on them, over exact complex numbers.

    Arrays are functions of a node (x, y, z); only nodes of the grid matter.  Two
    dimensional transforms (low-frequency generator) use a third extent of 1. *)

From Coq Require Import String Reals List ZArith Bool.
From Coquelicot Require Import Complex.
From Verif Require Import Prelude RdtModel GenModel.
Import ListNotations.
Open Scope R_scope.

(** Node or mode number of a grid with three axes (indices of the arrays of
    sampling_methods.py L121-122). *)
Notation node := (nat * nat * nat)%type (only parsing).

(** Extents of a grid (`ext_grid_shape`, sampling_methods.py L30-34). *)
Notation extents := (nat * nat * nat)%type (only parsing).

(** All nodes of a grid (the index set of an array of shape `shpR`,
    sampling_methods.py L112). *)
Definition grid (d : extents) : list node :=
  let '(nx, ny, nz) := d in list_prod (list_prod (seq 0 nx) (seq 0 ny)) (seq 0 nz).

(** Number of nodes, `Nd.prod()` (sampling_methods.py L133). *)
Definition count (d : extents) : R := let '(nx, ny, nz) := d in INR nx * INR ny * INR nz.

(** Complex exponential e^{it} (definition of the transforms used at
    sampling_methods.py L79-87, L141-148, L163-165). *)
Definition cis (t : R) : C := (cos t, sin t).

(** Sum of complex numbers over a list of nodes (transforms of sampling_methods.py
    L79-87, L141-148). *)
Definition csum {A : Type} (l : list A) (f : A -> C) : C := fold_right (fun x acc => Cplus (f x) acc) (RtoC 0) l.

(** Phase of mode [k] at node [x] (definition of the DFT; sampling_methods.py
    L79-87, L141-148, low_frequency/fluctuation_field_generator.py L489, L507). *)
Definition theta (d : extents) (k x : node) : R :=
  let '(nx, ny, nz) := d in
  let '(a, b, c) := k in
  let '(p, q, r) := x in
  2 * PI * (INR a * INR p / INR nx + INR b * INR q / INR ny + INR c * INR r / INR nz).

(** Forward transform, `fft_plan()` with FFTW_FORWARD (sampling_methods.py L79,
    L142), `np.fft.fft2` (low_frequency/fluctuation_field_generator.py L489). *)
Definition fftn (d : extents) (f : node -> C) (k : node) : C :=
  csum (grid d) (fun x => Cmult (f x) (cis (- theta d k x))).

(** Normalised inverse transform, `np.fft.ifft2`
    (low_frequency/fluctuation_field_generator.py L507-508), `fft.ifftn`
    (sampling_methods.py L163). *)
Definition ifftn (d : extents) (h : node -> C) (x : node) : C :=
  Cmult (RtoC (/ count d)) (csum (grid d) (fun k => Cmult (h k) (cis (theta d k x)))).

(** Modes of the half spectrum: last extent N//2 + 1 (sampling_methods.py L70-71,
    L112-113). *)
Definition half (d : extents) : list node := let '(nx, ny, nz) := d in grid (nx, ny, (nz / 2 + 1)%nat).

(** Multiplicity of a mode of the half spectrum in the complex-to-real transform:
    the planes 0 and (even extent) N/2 are their own mirror image (pyfftw
    FFTW_BACKWARD on real output, sampling_methods.py L81, L147). *)
Definition weight (nz kz : nat) : R := if ((kz =? 0) || (2 * kz =? nz))%nat%bool then 1 else 2.

(** Complex-to-real inverse transform `ifft_plan()` (sampling_methods.py L81, L147),
    normalised by the number of nodes as pyfftw does by default.  FFTW transforms
    the first axes as complex numbers and then the last axis to reals, reading only
    the real part of the result on the two self-mirrored planes. *)
Definition irfftn (d : extents) (h : node -> C) (x : node) : R :=
  / count d * Rsum (map (fun k => weight (snd d) (snd k) * Re (Cmult (h k) (cis (theta d k x)))) (half d)).

(** `fftfreq(n)` times n: signed mode numbers, the mode n/2 of an even extent being
    -n/2 (sampling_methods.py L52; low_frequency/fluctuation_field_generator.py
    L131-132). *)
Definition signed_mode (n k : nat) : Z := if (2 * k <? n)%nat then Z.of_nat k else (Z.of_nat k - Z.of_nat n)%Z.

(** `Frequencies` (sampling_methods.py L52) for a box with sides L. *)
Definition wave_number (L : R) (n k : nat) : R := 2 * PI / L * (INR n * (IZR (signed_mode n k) / INR n)).

(** Wave vector of a mode (sampling_methods.py L52, meshgrid of
    covariance_kernels.py L105, L188). *)
Definition wave_vector (L : R * R * R) (d : extents) (k : node) (i : ix) : R :=
  let '(Lx, Ly, Lz) := L in
  let '(nx, ny, nz) := d in
  let '(a, b, c) := k in
  match i with X1 => wave_number Lx nx a | X2 => wave_number Ly ny b | X3 => wave_number Lz nz c end.

(** `TransformNorm` (sampling_methods.py L53). *)
Definition transform_norm (L : R * R * R) : R := let '(Lx, Ly, Lz) := L in sqrt (Lx * Ly * Lz).

(** A kernel as returned by `precompute_Spectrum`, 3 x 3 complex numbers for a wave
    vector (covariance_kernels.py L119, L246; nn_covariance.py L170). *)
Definition kernel : Type := R -> R -> R -> ix -> ix -> C.

(** `Spectrum` at a mode (sampling_methods.py L54). *)
Definition spectrum_at (G : kernel) (L : R * R * R) (d : extents) (k : node) : ix -> ix -> C :=
  G (wave_vector L d k X1) (wave_vector L d k X2) (wave_vector L d k X3).

(** Fourier coefficients of the correlated noise (sampling_methods.py L133 and
    L140-144): `Spectrum_half` contains the factor sqrt(N). *)
Definition correlated (G : kernel) (L : R * R * R) (d : extents) (noise : ix -> node -> R) (i : ix) (k : node) : C :=
  let S j := Cmult (spectrum_at G L d k i j) (RtoC (sqrt (count d))) in
  let hat j := fftn d (fun x => RtoC (noise j x)) k in
  Cplus (Cplus (Cmult (S X1) (hat X1)) (Cmult (S X2) (hat X2))) (Cmult (S X3) (hat X3)).

(** sampling_methods.py L137-149: `Sampling_VF_FFTW.__call__`.  `DomainSlice`
    selects the whole array (gaussian_random_fields.py L120-123).  Simplification:
    the single-precision buffers (L116-117) are exact here. *)
Definition sample_vf (G : kernel) (L : R * R * R) (d : extents) (noise : ix -> node -> R) (i : ix) (x : node) : R :=
  irfftn d (correlated G L d noise i) x / transform_norm L.

(** sampling_methods.py L76-88: `Sampling_FFTW.__call__` with a scalar spectrum. *)
Definition sample_fftw (S : node -> C) (L : R * R * R) (d : extents) (noise : node -> R) (x : node) : R :=
  irfftn d (fun k => Cmult (fftn d (fun y => RtoC (noise y)) k) (Cmult (S k) (RtoC (sqrt (count d))))) x / transform_norm L.

(** sampling_methods.py L160-166: `Sampling_FFT.__call__` with a scalar spectrum:
    `ifftn` of the noise, product, `fftn`, real part. *)
Definition sample_fft (S : node -> C) (L : R * R * R) (d : extents) (noise : node -> R) (x : node) : R :=
  Re (fftn d (fun k => Cmult (S k) (ifftn d (fun y => RtoC (noise y)) k)) x) / transform_norm L.

(** ** On arrays of shape (x, y, z, 3) *)

(** Component of a grid point (`noise[..., i]`, sampling_methods.py L141). *)
Definition pick {A : Type} (v : A * A * A) (i : ix) : A :=
  let '(a, b, c) := v in match i with X1 => a | X2 => b | X3 => c end.

(** Reading an array (`noise[..., i]`, sampling_methods.py L141). *)
Definition at_node (f : field R) (i : ix) (x : node) : R :=
  let '(p, q, r) := x in pick (nth r (nth q (nth p f []) []) (0, 0, 0)) i.

(** Writing an array of given extents (`tmp[..., i] = ...`, sampling_methods.py
    L139, L148). *)
Definition tabulate (d : extents) (u : ix -> node -> R) : field R :=
  let '(nx, ny, nz) := d in
  map (fun p => map (fun q => map (fun r => (u X1 (p, q, r), u X2 (p, q, r), u X3 (p, q, r))) (seq 0 nz)) (seq 0 ny)) (seq 0 nx).

(** Extents of an array (`noise.shape`, sampling_methods.py L139). *)
Definition extents_of (f : field R) : extents :=
  (length f, length (hd [] f), length (hd [] (hd [] f))).

(** The kernel chosen by the generator (fluctuation_field_generator.py L228-240);
    [hyp] is scipy's hypergeometric function, [net] the fitted network. *)
Definition model_kernel (hyp : R -> R) (net : R -> R -> R -> R) (h_ref : R) (model : string) (cs : cov_scales) : kernel :=
  fun k1 k2 k3 i j =>
    Cmult (RtoC (if String.eqb model "VK" then vk_kernel (cs_E0 cs) (cs_L cs) k1 k2 k3 i j
                 else if String.eqb model "Mann" then mann_kernel hyp (cs_E0 cs) (cs_L cs) (cs_Gamma cs) k1 k2 k3 i j
                 else drd_kernel net (cs_E0 cs) (cs_L cs) (cs_Gamma cs) h_ref k1 k2 k3 i j)) Ci.

(** Sides of the sampled box, `L = h * grid_shape` (gaussian_random_fields.py
    L114-117). *)
Definition box (geo : geometry) (d : extents) : R * R * R :=
  let '(Lx, Ly, Lz) := g_dims geo in
  let '(nx, ny, nz) := d in
  (Lx / INR (g_Nx geo) * INR nx, Ly / INR (g_Ny geo) * INR ny, Lz / INR (g_Nz geo) * INR nz).

(** The sampler of a generator, `RF.Correlate` (fluctuation_field_generator.py
    L240-249, sampling_methods.py L137-149).  Simplification: it works on the extents
    of its argument; the code fixes the extents when the plan is made, and the
    generator passes only arrays with those extents. *)
Definition vf_sampler (hyp : R -> R) (net : R -> R -> R -> R) (h_ref : R) (model : string) (cs : cov_scales) (geo : geometry)
    (f : field R) : field R :=
  let d := extents_of f in
  tabulate d (sample_vf (model_kernel hyp net h_ref model cs) (box geo d) d (at_node f)).
