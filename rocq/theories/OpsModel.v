(** Model of the one-point-spectra module: quadrature grids, trapezoid rule,
    forward evaluation, spectral coherence with its cached grid, and the
    divergence diagnostic. *)

From Coq Require Import Reals List Arith ZArith String.
From Coquelicot Require Import Complex.
From Verif Require Import Prelude RdtModel SpectraModel.
Import ListNotations.
Open Scope R_scope.

(** `torch.trapz(y, x)` along one dimension, as called at
    drdmannturb/spectra_fitting/one_point_spectra.py L633-638; both lists have the
    same length at every call of the code (values on a mesh grid). *)
Fixpoint trapz (xs ys : list R) : R :=
  match xs, ys with
  | x0 :: ((x1 :: _) as xs'), y0 :: ((y1 :: _) as ys') =>
      (x1 - x0) * (y0 + y1) / 2 + trapz xs' ys'
  | _, _ => 0
  end.

(** Complex `torch.trapz` (drdmannturb/spectra_fitting/one_point_spectra.py
    L400-407 on complex values, real abscissae). *)
Fixpoint trapzC (xs : list R) (ys : list C) : C :=
  match xs, ys with
  | x0 :: ((x1 :: _) as xs'), y0 :: ((y1 :: _) as ys') =>
      Cplus (Cmult (RtoC ((x1 - x0) / 2)) (Cplus y0 y1)) (trapzC xs' ys')
  | _, _ => RtoC 0
  end.

(** one_point_spectra.py L112-125 (and L129-138, L285-291 before the division by
    L): -flip(plus), 0, plus with plus = logspace(p1, p2, N). *)
Definition sym_grid (p1 p2 : R) (N : nat) : list R :=
  let plus := logspace p1 p2 N in
  map Ropp (rev plus) ++ [0] ++ plus.

(** one_point_spectra.py L633-638: `quad23`, inner integration over k3, outer over
    k2; the integrand is given by its values on the mesh grid. *)
Definition quad23 (g2 g3 : list R) (f : R -> R -> R) : R :=
  trapz g2 (map (fun k2 => trapz g3 (map (fun k3 => f k2 k3) g3)) g2).

(** one_point_spectra.py L400-407: `_quad23_coherence` on a complex integrand. *)
Definition quad23C (g2 g3 : list R) (f : R -> R -> C) : C :=
  trapzC g2 (map (fun k2 => trapzC g3 (map (fun k3 => f k2 k3) g3)) g2).

(** Everything `forward` reads besides k1: current scales, the energy spectrum
    (one_point_spectra.py L248-251) and the lifetime as a function of the wave
    vector (L239). *)
Record ops_env : Type := OpsEnv
  { oe_L : R;
    oe_M : R;
    oe_spec : R -> R;
    oe_beta : R -> R -> R -> R }.

(** one_point_spectra.py L239-255: one entry of the delivered (clipped) spectral
    tensor at a wave vector; [sel] selects the entry. *)
Definition delivered (sel : tensor6 -> R) (e : ops_env) (k1 k2 k3 : R) : R :=
  let b := oe_beta e k1 k2 k3 in
  sel (power_spectra (forward_energy (oe_spec e) (oe_M e) (oe_L e) b k1 k2 k3) b k1 k2 k3).

(** The same entry before the clipping of one_point_spectra.py L603-608. *)
Definition undelivered (sel : tensor6 -> R) (e : ops_env) (k1 k2 k3 : R) : R :=
  let b := oe_beta e k1 k2 k3 in
  sel (power_spectra_raw (forward_energy (oe_spec e) (oe_M e) (oe_L e) b k1 k2 k3) b k1 k2 k3).

(** one_point_spectra.py L257: `k1_input * self.quad23(Phi)` at one k1. *)
Definition ops_forward (sel : tensor6 -> R) (e : ops_env) (p1 p2 : R) (N : nat) (k1 : R) : R :=
  let g := sym_grid p1 p2 N in
  k1 * quad23 g g (fun k2 k3 => delivered sel e k1 k2 k3).

(** The integral of the unclipped entry (not computed by the code;
    one_point_spectra.py L257 without L603-608). *)
Definition ops_forward_raw (sel : tensor6 -> R) (e : ops_env) (p1 p2 : R) (N : nat) (k1 : R) : R :=
  let g := sym_grid p1 p2 N in
  k1 * quad23 g g (fun k2 k3 => undelivered sel e k1 k2 k3).

(** one_point_spectra.py L257-259: the stacked output: one row per tensor entry in
    the order uu, vv, ww, uw, vw, uv. *)
Definition ops_output (e : ops_env) (p1 p2 : R) (N : nat) (k1s : list R) : list (list R) :=
  map (fun sel => map (ops_forward sel e p1 p2 N) k1s)
      [phi11; phi22; phi33; phi13; phi23; phi12].

(** ** `PowerSpectra` as a method: it divides the stored energy in place *)

(** one_point_spectra.py L588-611: reads `self.E0`, replaces it by E0/(4 pi)
    and returns the entries computed from the new value.  The pure function
    [power_spectra] includes that division, so the value returned is
    [power_spectra] of the stored energy. *)
Definition power_spectra_call (E0 beta k1 k2 k3 : R) : tensor6 * R :=
  (power_spectra E0 beta k1 k2 k3, E0 / (4 * PI)).

(** ** Coherence *)

(** one_point_spectra.py L299-331: clipped auto-spectrum entry on the coherence
    grid. *)
Definition coh_entry (sel : tensor6 -> R) (e : ops_env) (k1 k2 k3 : R) : R :=
  let b := oe_beta e k1 k2 k3 in
  sel (power_spectra_coherence (forward_energy (oe_spec e) (oe_M e) (oe_L e) b k1 k2 k3) b k1 k2 k3).

(** `torch.exp(1j * k2 * r)` (one_point_spectra.py L350-351). *)
Definition phase (k2 r : R) : C := (cos (k2 * r), sin (k2 * r)).

(** one_point_spectra.py L337-361: coherence of one component at one wave number
    and separation, on the grid [g]. *)
Definition coherence_on (g : list R) (sel : tensor6 -> R) (e : ops_env) (k1 r : R) : R :=
  let S0 := quad23 g g (fun k2 k3 => coh_entry sel e k1 k2 k3) in
  let Sr := quad23C g g (fun k2 k3 => Cmult (RtoC (coh_entry sel e k1 k2 k3)) (phase k2 r)) in
  Cmod Sr ^ 2 / Rabs S0 ^ 2.

(** Coherence grid cached on the module (one_point_spectra.py L129-138, L285-295:
    attributes coh_grid_k2 = coh_grid_k3); None: attribute absent. *)
Definition coh_cache : Type := option (list R).

(** one_point_spectra.py L129-138: cache after construction. *)
Definition coh_cache_init (use_coherence : bool) (q1 q2 : R) (Ncoh : nat) (L : R) : coh_cache :=
  if use_coherence then Some (map (fun x => x / L) (sym_grid q1 q2 Ncoh)) else None.

(** one_point_spectra.py L285-295: grid used by a coherence evaluation and cache
    afterwards; [L] is the current `LengthScale`. *)
Definition coh_grid_for (c : coh_cache) (L : R) : list R :=
  match c with
  | Some g => g
  | None => map (fun x => x * (1 / L)) (sym_grid (-3) 3 100)
  end.

(** one_point_spectra.py L260-363: `SpectralCoherence` at one wave number and
    separation: value and new cache. *)
Definition spectral_coherence (c : coh_cache) (sel : tensor6 -> R) (e : ops_env) (k1 r : R)
    : R * coh_cache :=
  let g := coh_grid_for c (oe_L e) in
  (coherence_on g sel e k1 r, Some g).

(** A history of coherence evaluations (one_point_spectra.py L260-363) with the
    parameters current at each. *)
Definition coh_run (c : coh_cache) (h : list (ops_env * R * R)) : coh_cache :=
  fold_left (fun c q => match q with (e, k1, r) => snd (spectral_coherence c phi11 e k1 r) end) h c.

(** calibration.py L112-121: the problem's module is built with the default
    use_coherence = False, whatever the integration parameters are. *)
Definition calib_coh_cache (q1 q2 : R) (Ncoh : nat) (L : R) : coh_cache :=
  coh_cache_init false q1 q2 Ncoh L.

(** ** Attributes of the module and the divergence diagnostic *)

Open Scope string_scope.

(** Methods of the module which create attributes (one_point_spectra.py, lines at
    each constructor, L150-611). *)
Inductive ops_call : Type :=
| CallForward          (* L217-259 *)
| CallCoherence        (* L260-363 *)
| CallExpScales        (* L190-193 *)
| CallSetScales        (* L150-165 *)
| CallInitMannApprox   (* L433-463 *)
| CallPowerSpectra.    (* L533-611 *)

(** Attributes assigned by the constructor, one_point_spectra.py L91-152 (network,
    grids, parameters, scalars, flags). *)
Definition ops_init_attrs : list string :=
  ["tauNet"; "init_mann_linear_approx"; "type_EddyLifetime"; "use_coherence"; "use_learnable_spectrum";
   "ops_grid_k2"; "ops_grid_k3"; "ops_meshgrid23"; "coh_grid_k2"; "coh_grid_k3"; "coh_meshgrid23";
   "logLengthScale"; "logTimeScale"; "logMagnitude"; "p_exponent"; "q_exponent";
   "LengthScale_scalar"; "TimeScale_scalar"; "Magnitude_scalar"].

(** Attributes assigned by each method (one_point_spectra.py L150-611, lines at the
    constructors above). *)
Definition ops_call_attrs (c : ops_call) : list string :=
  match c with
  | CallForward => ["LengthScale"; "TimeScale"; "Magnitude"; "ops_grid_k2"; "ops_grid_k3"; "ops_meshgrid23";
                    "k"; "k123"; "beta"; "k0"; "E0"; "Phi"]
  | CallCoherence => ["LengthScale"; "TimeScale"; "Magnitude"; "coh_grid_k2"; "coh_grid_k3"]
  | CallExpScales => ["LengthScale"; "TimeScale"; "Magnitude"]
  | CallSetScales => ["LengthScale_scalar"; "TimeScale_scalar"; "Magnitude_scalar"]
  | CallInitMannApprox => ["tau_approx_coeff_"; "tau_approx_intercept_"; "init_mann_linear_approx"]
  | CallPowerSpectra => ["E0"]
  end.

(** Attributes present after construction (one_point_spectra.py L91-152) and a history
    of calls (L150-611); an over-approximation: the conditional ones are counted as
    present. *)
Definition ops_attrs (h : list ops_call) : list string :=
  fold_left (fun a c => ops_call_attrs c ++ a)%list h ops_init_attrs.

(** one_point_spectra.py L657-666: `get_div` reads `self.freq` (a name of a
    nn.Module attribute: missing ones raise AttributeError).  [div] stands for
    the value computed at L658-666. *)
Definition get_div {A : Type} (attrs : list string) (div : A) : res A :=
  if existsb (String.eqb "freq") attrs then Ok div else Err AttributeError.

Close Scope string_scope.

(** ** From user settings to the network *)

(** drdmannturb/parameters.py L163-194: `NNParameters` (the fields which describe
    the architecture; input_size and output_size are not read by the network). *)
Record nn_params (A : Type) : Type := NNP
  { nlayers : int_arg; hidden_layer_size : Z; hidden_layer_sizes : list Z; nn_activations : list A }.
Arguments NNP {A} _ _ _ _.
Arguments nlayers {A} _.
Arguments hidden_layer_size {A} _.
Arguments hidden_layer_sizes {A} _.
Arguments nn_activations {A} _.

(** one_point_spectra.py L90-96: the network of a module with a neural lifetime
    (nn_modules.py L28: default nu). *)
Definition ops_network {A : Type} (relu : A) (p : nn_params A) (learn_nu : bool) : res (taunet_cfg A) :=
  taunet_init relu (nlayers p) (SizeInt (hidden_layer_size p)) ActNone learn_nu nu_default.
