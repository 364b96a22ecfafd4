(** Model of drdmannturb/fluctuation_generation/low_frequency/
    fluctuation_field_generator.py: the two-dimensional low-frequency generator.

    File names in the comments: LF stands for that file.  Numbers are exact; the
    improper integral `integrate.quad` is a function argument; node exponents are
    natural numbers (a negative exponent gives a fractional node count, which
    `np.linspace` rejects). *)

From Coq Require Import String Reals List ZArith Bool.
From Coquelicot Require Import Complex.
From Verif Require Import Prelude GenModel DftModel.
Import ListNotations.
Open Scope R_scope.

(** LF L99-111: entries of the configuration dictionary. *)
Record low_config : Type := LowConfig
  { lc_sigma2 : R; lc_L : R; lc_psi : R; lc_zi : R; lc_f1 : R; lc_f2 : R; lc_e1 : nat; lc_e2 : nat }.

(** ** The energy spectrum and its scale *)

(** LF L254-273: `integrand_shape`. *)
Definition low_shape (L zi kappa : R) : R :=
  let kappa_sq := kappa^2 in
  if Rltb kappa_sq (/ 10^30) then 0
  else
    let denominator := Rpower (/ L^2 + kappa_sq) (7/3) * (1 + kappa_sq * zi^2) in
    if Rltb denominator (/ 10^30) then 0
    else if Rltb kappa (/ 10^30) then 0
    else kappa^3 / denominator.

(** LF L251-283: `_compute_c`; [quad] is the integral over [0, inf).
    `L_2d ** -2` raises for 0. *)
Definition compute_c (quad : (R -> R) -> R) (cfg : low_config) : res R :=
  if Reqb (lc_L cfg) 0 then Err ZeroDivisionError
  else
    let integral := quad (low_shape (lc_L cfg) (lc_zi cfg)) in
    if Rltb integral (/ 10^16) then Err ValueError
    else Ok (lc_sigma2 cfg / (2 * integral)).

(** ** Grids *)

(** Sizes computed by the constructor (LF L107-133). *)
Record low_grid : Type := LowGrid
  { lg_L1 : R; lg_L2 : R; lg_N1 : nat; lg_N2 : nat; lg_dx : R; lg_dy : R;
    lg_cL1 : R; lg_cL2 : R; lg_cN1 : nat; lg_cN2 : nat; lg_cdx : R; lg_cdy : R }.

(** LF L203-208: node count from the ideal number. *)
Definition even_count (n : Z) : Z := if (0 <? n)%Z then Z.max (n + n mod 2) 2 else 0%Z.

(** LF L182-222: `_calculate_buffer_sizes`.  Division by a zero spacing raises.
    The user warning (L189-197) has no effect on the result. *)
Definition buffer_sizes (L L1 L2 dx dy : R) : res (R * R * Z * Z) :=
  let comp_d := Rmin dx dy in
  let t1 := Rmax L1 (5 * L) in
  let t2 := Rmax L2 (5 * L) in
  if Reqb comp_d 0 then Err ZeroDivisionError
  else
    let N1 := even_count (Zceil (t1 / comp_d)) in
    let N2 := even_count (Zceil (t2 / comp_d)) in
    let cL1 := IZR N1 * comp_d in
    let cL2 := IZR N2 * comp_d in
    if (Rleb (t1 - / 10^9) cL1 && Rleb (t2 - / 10^9) cL2)%bool then Ok (cL1, cL2, N1, N2)
    else Err RuntimeError.

(** `np.isclose` with default tolerances (LF L127). *)
Definition isclose (a b : R) : bool := Rleb (Rabs (a - b)) (/ 10^8 + / 10^5 * Rabs b).

(** LF L107-133: the grid part of the constructor. *)
Definition make_low_grid (cfg : low_config) : res low_grid :=
  let L1 := lc_f1 cfg * lc_L cfg in
  let L2 := lc_f2 cfg * lc_L cfg in
  let N1 := (2 ^ lc_e1 cfg)%nat in
  let N2 := (2 ^ lc_e2 cfg)%nat in
  let dx := L1 / INR N1 in
  let dy := L2 / INR N2 in
  bind (buffer_sizes (lc_L cfg) L1 L2 dx dy) (fun s =>
    let '(cL1, cL2, cN1, cN2) := s in
    if ((cN1 =? 0) || (cN2 =? 0))%Z%bool then Err ZeroDivisionError
    else
      let cdx := cL1 / IZR cN1 in
      let cdy := cL2 / IZR cN2 in
      if isclose cdx cdy then Ok (LowGrid L1 L2 N1 N2 dx dy cL1 cL2 (Z.to_nat cN1) (Z.to_nat cN2) cdx cdy)
      else Err ValueError).

(** Extents of the computational grid as argument of the transforms (LF L489,
    L507-508). *)
Definition comp_extents (g : low_grid) : extents := (lg_cN1 g, lg_cN2 g, 1%nat).
(** The same for the user's grid (LF L704-705). *)
Definition user_extents (g : low_grid) : extents := (lg_N1 g, lg_N2 g, 1%nat).

(** `np.linspace(0, L, N, endpoint=False)` (LF L116-117). *)
Definition user_coords (L : R) (N : nat) : list R := map (fun i => INR i * (L / INR N)) (seq 0 N).

(** `2 pi fftfreq(N, d)` (LF L131-132, L708-709). *)
Definition low_wave (N : nat) (d : R) (k : nat) : R := 2 * PI * (IZR (signed_mode N k) / (INR N * d)).

(** ** Kernel *)

(** LF L356: `kappa_sq`. *)
Definition low_kappa2 (psi k1 k2 : R) : R := 2 * ((k1 * cos psi)^2 + (k2 * sin psi)^2).

(** LF L361: `grid_scale`. *)
Definition grid_scale (dx dy : R) : R := 2 * PI / sqrt (Rmax (dx * dy) (/ 10^16)).

(** LF L365-390: `phi_`. *)
Definition low_phi (c L psi zi dx dy k1 k2 : R) : R :=
  let k_sq := k1^2 + k2^2 in
  let kappa_sq := low_kappa2 psi k1 k2 in
  if Rltb k_sq (/ 10^20) then 0
  else
    let k := sqrt k_sq in
    let kappa := sqrt (Rmax kappa_sq (/ 10^20)) in
    let denominator := Rpower (/ L^2 + kappa_sq) (7/3) * (1 + kappa_sq * zi^2) in
    let energy := if Rltb denominator (/ 10^30) then 0 else c * kappa^3 / denominator in
    sqrt (Rmax (energy / (PI * k^3)) 0) * grid_scale dx dy.

(** LF L393: `Q1`. *)
Definition low_Q1 (c L psi zi dx dy k1 k2 : R) : C := Cmult Ci (RtoC (low_phi c L psi zi dx dy k1 k2 * k2)).
(** LF L394: `Q2`. *)
Definition low_Q2 (c L psi zi dx dy k1 k2 : R) : C := Cmult Ci (RtoC (low_phi c L psi zi dx dy k1 k2 * (-1 * k1))).

(** ** Generation *)

(** Sampling of one component on the computational grid for given noise: `fft2`,
    kernel, real part of `ifft2` (LF L489-508). *)
Definition low_sample (Q : R -> R -> C) (g : low_grid) (noise : node -> R) (x : node) : R :=
  let d := comp_extents g in
  Re (ifftn d (fun k => let '(a, b, _) := k in
                        Cmult (Q (low_wave (lg_cN1 g) (lg_cdx g) a) (low_wave (lg_cN2 g) (lg_cdy g) b))
                              (fftn d (fun y => RtoC (noise y)) k)) x).

(** Reading an array of shape (n, m) (LF L487). *)
Definition at2 (f : list (list R)) (x : node) : R := let '(p, q, _) := x in nth q (nth p f []) 0.
(** Writing an array of shape (n, m) (LF L507). *)
Definition tabulate2 (n m : nat) (u : node -> R) : list (list R) :=
  map (fun p => map (fun q => u (p, q, 0%nat)) (seq 0 m)) (seq 0 n).

(** LF L425-453: `_extract_field_portion` with the user's extents. *)
Definition extract (nx ny : nat) (f : list (list R)) : res (list (list R)) :=
  let cx := length f in
  let cy := length (hd [] f) in
  if ((cx =? nx) && (cy =? ny))%nat%bool then Ok f
  else
    let sx := ((Z.of_nat cx - Z.of_nat nx) / 2)%Z in
    let sy := ((Z.of_nat cy - Z.of_nat ny) / 2)%Z in
    let e := map (pyslice sy (sy + Z.of_nat ny)) (pyslice sx (sx + Z.of_nat nx) f) in
    if ((length e =? nx)%nat && forallb (fun r => (length r =? ny)%nat) e)%bool then Ok e else Err ValueError.

(** A low-frequency generator (LF L99-141): parameters, scale, grids and, after
    `generate`, the two extracted fields. *)
Record low_gen : Type := LowGen
  { lw_cfg : low_config; lw_c : R; lw_grid : low_grid; lw_u : option (list (list R) * list (list R)) }.

(** LF L87-141: the constructor. *)
Definition low_construct (quad : (R -> R) -> R) (cfg : low_config) : res low_gen :=
  bind (compute_c quad cfg) (fun c =>
  bind (make_low_grid cfg) (fun g => Ok (LowGen cfg c g None))).

(** Kernels with the parameters of a generator (LF L492-504). *)
Definition gen_Q1 (w : low_gen) : R -> R -> C :=
  low_Q1 (lw_c w) (lc_L (lw_cfg w)) (lc_psi (lw_cfg w)) (lc_zi (lw_cfg w)) (lg_cdx (lw_grid w)) (lg_cdy (lw_grid w)).
(** The kernel of the second component (LF L492-504). *)
Definition gen_Q2 (w : low_gen) : R -> R -> C :=
  low_Q2 (lw_c w) (lc_L (lw_cfg w)) (lc_psi (lw_cfg w)) (lc_zi (lw_cfg w)) (lg_cdx (lw_grid w)) (lg_cdy (lw_grid w)).

(** Fields on the computational grid for given noise (LF L488-512). *)
Definition low_full (w : low_gen) (noise : list (list R)) : list (list R) * list (list R) :=
  let g := lw_grid w in
  (tabulate2 (lg_cN1 g) (lg_cN2 g) (low_sample (gen_Q1 w) g (at2 noise)),
   tabulate2 (lg_cN1 g) (lg_cN2 g) (low_sample (gen_Q2 w) g (at2 noise))).

Section Generation.

  Variable G : Type.
  Variable gauss : G -> R * G.

  (** `np.random.normal(0, 1, size=(n, m))` from the global generator (LF L487). *)
  Definition normal2 (n m : nat) (g : G) : list (list R) * G := draw_many (draw_many gauss m) n g.

  (** LF L486-522: `generate`. *)
  Definition low_generate (w : low_gen) (g : G) : res low_gen * G :=
    let gr := lw_grid w in
    let '(noise, g1) := normal2 (lg_cN1 gr) (lg_cN2 gr) g in
    let '(f1, f2) := low_full w noise in
    (bind (extract (lg_N1 gr) (lg_N2 gr) f1) (fun u1 =>
     bind (extract (lg_N1 gr) (lg_N2 gr) f2) (fun u2 => Ok (LowGen (lw_cfg w) (lw_c w) gr (Some (u1, u2))))), g1).

End Generation.
Arguments normal2 {G} gauss n m g.
Arguments low_generate {G} gauss w g.

(** ** Interpolation *)

(** Interval search of `RegularGridInterpolator` (LF L567-581): the last interval
    whose left end does not exceed the point. *)
Fixpoint locate (xs : list R) (x : R) : nat :=
  match xs with
  | _ :: ((b :: _ :: _) as tl) => if Rleb b x then S (locate tl x) else O
  | _ => O
  end.

(** Position of a point in its interval (LF L567-581, method "linear"). *)
Definition frac (xs : list R) (x : R) : R :=
  let i := locate xs x in
  match nth_error xs (S i) with
  | None => 0
  | Some b => (x - nth i xs 0) / (b - nth i xs 0)
  end.

(** Bounds check with `bounds_error=False` (LF L571-572). *)
Definition in_bounds (xs : list R) (x : R) : bool := (Rleb (nth 0 xs 0) x && Rleb x (last xs 0))%bool.

(** Evaluation of the interpolator at one point, `fill_value=0.0` (LF L567-591). *)
Definition interpolate (xs ys : list R) (V : list (list R)) (x y : R) : R :=
  if (in_bounds xs x && in_bounds ys y)%bool then
    let i := locate xs x in
    let j := locate ys y in
    let t := frac xs x in
    let s := frac ys y in
    let v a b := nth b (nth a V []) 0 in
    (1 - t) * (1 - s) * v i j + (1 - t) * s * v i (S j) + t * (1 - s) * v (S i) j + t * s * v (S i) (S j)
  else 0.

(** LF L558-597: `interp_slice` at one target point. *)
Definition low_interp (w : low_gen) (x y : R) : res (R * R) :=
  match lw_u w with
  | None => Err RuntimeError
  | Some (u1, u2) =>
      let g := lw_grid w in
      let xs := user_coords (lg_L1 g) (lg_N1 g) in
      let ys := user_coords (lg_L2 g) (lg_N2 g) in
      Ok (interpolate xs ys u1 x y, interpolate xs ys u2 x y)
  end.

(** Coupling with the three-dimensional generator
    (drdmannturb/fluctuation_generation/fluctuation_field_generator.py L253-259 and
    L446-489): construction, generation from the global stream, and the view used
    by `generate`. *)
Definition view_of (w : low_gen) : low_view :=
  LowView (lg_L2 (lw_grid w))
    (match lw_u w with
     | None => None
     | Some _ => Some (fun x y => match low_interp w x y with Ok v => v | Err _ => (0, 0) end)
     end).
(** Construction and generation of the low-frequency field by the three-dimensional
    generator (drdmannturb/fluctuation_generation/fluctuation_field_generator.py
    L253-259). *)
Definition make_low {G : Type} (gauss : G -> R * G) (quad : (R -> R) -> R) (cfg : low_config) (g : G) : res (low_view * G) :=
  bind (low_construct quad cfg) (fun w =>
    match low_generate gauss w g with
    | (Ok w1, g1) => Ok (view_of w1, g1)
    | (Err e, _) => Err e
    end).

(** ** Spectra *)

(** LF L712-714: positive wave numbers.  Simplification: the sorted distinct absolute
    values of `fftfreq` are written as those of the modes 0, ..., N//2, which is that
    list for every nonzero spacing. *)
Definition k1_positive (N : nat) (dx tol : R) : list R :=
  filter (fun k => Rltb tol k) (map (fun a => Rabs (low_wave N dx a)) (seq 0 (N / 2 + 1))).

(** LF L704-718: power of the extracted field. *)
Definition power (g : low_grid) (u : list (list R)) (k : node) : R :=
  (Cmod (fftn (user_extents g) (fun x => RtoC (at2 u x)) k))^2.

(** LF L727: `scaling_factor`. *)
Definition spectrum_scale (g : low_grid) : R := lg_L1 g / ((INR (lg_N1 g) * INR (lg_N2 g))^2 * (2 * PI)).

(** LF L639-662: `_compute_spectrum_numba_helper` for one wave number. *)
Definition spectrum_at_k (g : low_grid) (u : list (list R)) (tol k1 : R) : R :=
  Rsum (map (fun k => if Rltb (Rabs (low_wave (lg_N1 g) (lg_dx g) (fst (fst k)) - k1)) tol then power g u k else 0)
            (grid (user_extents g))) * spectrum_scale g.

(** LF L700-741: `compute_spectrum`. *)
Definition compute_spectrum (w : low_gen) (tol : R) : res (list R * list R * list R) :=
  match lw_u w with
  | None => Err RuntimeError
  | Some (u1, u2) =>
      let g := lw_grid w in
      let ks := k1_positive (lg_N1 g) (lg_dx g) tol in
      Ok (ks, map (spectrum_at_k g u1 tol) ks, map (spectrum_at_k g u2 tol) ks)
  end.

(** LF L798-814: `_E_kappa`. *)
Definition E_kappa (c L psi zi k1 k2 : R) : R :=
  let kappa_sq := Rmax (low_kappa2 psi k1 k2) (/ 10^24) in
  let denominator := Rpower (/ L^2 + kappa_sq) (7/3) * (1 + kappa_sq * zi^2) in
  if Rltb denominator (/ 10^30) then 0 else c * (sqrt kappa_sq)^3 / denominator.

(** LF L816-827: `_integrand11`. *)
Definition integrand11 (c L psi zi k1 k2 : R) : R :=
  let k_sq := k1^2 + k2^2 in
  if Rltb k_sq (/ 10^24) then 0 else E_kappa c L psi zi k1 k2 / (PI * sqrt k_sq) * (k2^2 / k_sq).
(** LF L829-840: `_integrand22`. *)
Definition integrand22 (c L psi zi k1 k2 : R) : R :=
  let k_sq := k1^2 + k2^2 in
  if Rltb k_sq (/ 10^24) then 0 else E_kappa c L psi zi k1 k2 / (PI * sqrt k_sq) * (k1^2 / k_sq).

(** LF L842-892: `analytical_spectrum` at one wave number; [quad a b f] is the
    integral over [a, b].  Failures of the quadrature (NaN) are not modelled. *)
Definition analytical (quad : R -> R -> (R -> R) -> R) (w : low_gen) (k2_limit k1 : R) : R * R :=
  let cfg := lw_cfg w in
  let lim := Rabs k2_limit in
  if Rltb (Rabs k1) (/ 10^15) then (0, 0)
  else (quad (- lim) lim (integrand11 (lw_c w) (lc_L cfg) (lc_psi cfg) (lc_zi cfg) k1),
        quad (- lim) lim (integrand22 (lw_c w) (lc_L cfg) (lc_psi cfg) (lc_zi cfg) k1)).
