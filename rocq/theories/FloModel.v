(** Model of grid computations in double precision
    (drdmannturb/fluctuation_generation/fluctuation_field_generator.py,
    gaussian_random_fields.py, sampling_methods.py and
    low_frequency/fluctuation_field_generator.py, called LF below).

    The other files of the model compute with exact numbers.  Here every operation on
    floating point numbers is followed by the rounding of IEEE binary64, as in python and
    numpy.  Simplification: the exponent is not bounded above, so that no number becomes
    infinite; below, subnormal numbers are as in IEEE. *)

From Coq Require Import Reals List ZArith Bool.
From Flocq Require Import Core.
From Verif Require Import Prelude GenModel DftModel LowModel.
Import ListNotations.
Open Scope R_scope.

(** Rounding to the nearest double, ties to even: the result of every operation on floats in
    the lines modelled below (e.g. LF L109-114). *)
Definition dbl (x : R) : R := round radix2 (FLT_exp (-1074) 53) ZnearestE x.

(** ** Low-frequency grid *)

(** LF L182-222: `_calculate_buffer_sizes` on floats. *)
Definition flo_buffer_sizes (L L1 L2 dx dy : R) : res (R * R * Z * Z) :=
  let comp_d := Rmin dx dy in
  let t1 := Rmax L1 (dbl (5 * L)) in
  let t2 := Rmax L2 (dbl (5 * L)) in
  if Reqb comp_d 0 then Err ZeroDivisionError
  else
    let N1 := even_count (GenModel.Zceil (dbl (t1 / comp_d))) in
    let N2 := even_count (GenModel.Zceil (dbl (t2 / comp_d))) in
    let cL1 := dbl (dbl (IZR N1) * comp_d) in
    let cL2 := dbl (dbl (IZR N2) * comp_d) in
    let tolerance := dbl (/ 10^9) in
    if (Rleb (dbl (t1 - tolerance)) cL1 && Rleb (dbl (t2 - tolerance)) cL2)%bool then Ok (cL1, cL2, N1, N2)
    else Err RuntimeError.

(** `np.isclose` with default tolerances on floats (LF L127). *)
Definition flo_isclose (a b : R) : bool :=
  Rleb (Rabs (dbl (a - b))) (dbl (dbl (/ 10^8) + dbl (dbl (/ 10^5) * Rabs b))).

(** LF L107-133: the grid part of the constructor on floats. *)
Definition flo_low_grid (cfg : low_config) : res low_grid :=
  let L1 := dbl (lc_f1 cfg * lc_L cfg) in
  let L2 := dbl (lc_f2 cfg * lc_L cfg) in
  let N1 := (2 ^ lc_e1 cfg)%nat in
  let N2 := (2 ^ lc_e2 cfg)%nat in
  let dx := dbl (L1 / dbl (INR N1)) in
  let dy := dbl (L2 / dbl (INR N2)) in
  bind (flo_buffer_sizes (lc_L cfg) L1 L2 dx dy) (fun s =>
    let '(cL1, cL2, cN1, cN2) := s in
    if ((cN1 =? 0) || (cN2 =? 0))%Z%bool then Err ZeroDivisionError
    else
      let cdx := dbl (cL1 / dbl (IZR cN1)) in
      let cdy := dbl (cL2 / dbl (IZR cN2)) in
      if flo_isclose cdx cdy then Ok (LowGrid L1 L2 N1 N2 dx dy cL1 cL2 (Z.to_nat cN1) (Z.to_nat cN2) cdx cdy)
      else Err ValueError).

(** ** Buffers of the block generator *)

(** fluctuation_field_generator.py L166-183 on floats: node counts, spacings, buffer and
    margins. *)
Definition flo_geometry (dims : R * R * R) (levels : nat * nat * nat) (L Gamma : R) (blend : Z) : res geometry :=
  let '(Lx, Ly, Lz) := dims in
  let '(lx, ly, lz) := levels in
  let dx := dbl (Lx / dbl (INR (nodes lx))) in
  let dy := dbl (Ly / dbl (INR (nodes ly))) in
  let dz := dbl (Lz / dbl (INR (nodes lz))) in
  let width := dbl (dbl (3 * Gamma) * L) in
  if Reqb dx 0 then (if Reqb width 0 then Err ValueError else Err OverflowError)
  else if Reqb dy 0 then (if Reqb L 0 then Err ValueError else Err OverflowError)
  else if Reqb dz 0 then (if Reqb L 0 then Err ValueError else Err OverflowError)
  else Ok (Geometry (nodes lx) (nodes ly) (nodes lz)
             (GenModel.Zceil (dbl (width / dx))) (GenModel.Zceil (dbl (L / dy)))
             (GenModel.Zceil (dbl (L / dz))) blend dims lz).

(** ** Wave numbers *)

(** `fftfreq(n, d)` (sampling_methods.py L52, LF L131-132): `1.0 / (n * d)` times the signed
    mode numbers. *)
Definition flo_fftfreq (n : nat) (d : R) (k : nat) : R :=
  dbl (IZR (signed_mode n k) * dbl (1 / dbl (dbl (INR n) * d))).

(** gaussian_random_fields.py L114-117: side of the periodic box with [n] nodes. *)
Definition flo_side (Lx : R) (level n : nat) : R := dbl (dbl (Lx / dbl (INR (nodes level))) * dbl (INR n)).

(** sampling_methods.py L52: `Frequencies` of a box with side [L]; `np.pi` is the double
    nearest to pi. *)
Definition flo_wave_number (L : R) (n k : nat) : R :=
  dbl (dbl (dbl (2 * dbl PI) / L) * dbl (dbl (INR n) * flo_fftfreq n 1 k)).

(** LF L131-132: wave numbers of the low-frequency grid. *)
Definition flo_low_wave (N : nat) (d : R) (k : nat) : R := dbl (dbl (2 * dbl PI) * flo_fftfreq N d k).

(** ** Positions *)

(** `np.linspace(start, stop, n, endpoint=False)` (fluctuation_field_generator.py L455,
    L477, LF L116-117). *)
Definition flo_linspace (start stop : R) (n : nat) : list R :=
  map (fun i => dbl (dbl (INR i * dbl (dbl (stop - start) / dbl (INR n))) + start)) (seq 0 n).

(** fluctuation_field_generator.py L450-455: positions along the wind of block [i] with [nx]
    rows. *)
Definition flo_block_x (Lx : R) (Nx nx i : nat) : list R :=
  let block_length := dbl (Lx * dbl (dbl (INR nx) / dbl (INR Nx))) in
  let x_start := dbl (dbl (INR i) * Lx) in
  let x_end := dbl (x_start + block_length) in
  flo_linspace x_start x_end nx.

(** fluctuation_field_generator.py L357: heights, `np.linspace` with end point: the last
    value is replaced by the end of the interval. *)
Definition flo_heights (Lz : R) (level : nat) : list R :=
  map (fun i => dbl (INR i * dbl (Lz / dbl (INR (2 ^ level))))) (seq 0 (2 ^ level)) ++ [Lz].

(** fluctuation_field_generator.py L594: `power_law` at one height; [powf] is the power function
    of numpy. *)
Definition flo_power_law (powf : R -> R -> R) (zref uref a z : R) : R := dbl (uref * powf (dbl (z / zref)) a).

(** fluctuation_field_generator.py L589: `log_law` at one height; [logf] is the logarithm of
    numpy. *)
Definition flo_log_law (logf : R -> R) (z0 zref uref z : R) : R :=
  dbl (dbl (uref * logf (dbl (dbl (z / z0) + 1))) / logf (dbl (zref / z0))).
