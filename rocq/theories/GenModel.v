(** Model of drdmannturb/fluctuation_generation/fluctuation_field_generator.py
    (construction, blocks, normalisation, generation, divergence, profiles) and of
    the random-number part of gaussian_random_fields.py.

    Arrays of shape (x, y, z, 3) are lists of planes, planes are lists of columns,
    columns are lists of triples.  Floats are reals; values which can become
    infinite or NaN are extended reals.  The fft-based sampler is a parameter here
    and is modelled in DftModel.v; the low-frequency interpolator is a parameter
    here and is modelled in LowModel.v. *)

From Coq Require Import String Reals List ZArith Bool.
From Verif Require Import Prelude SpectraModel.
Import ListNotations.
Open Scope R_scope.

(** ** numpy indexing *)

(** Position denoted by a Python slice bound in a sequence of length n (used by
    the slices of fluctuation_field_generator.py L201-212, L280-285). *)
Definition slice_pos (n : nat) (b : Z) : nat :=
  if (b <? 0)%Z then Z.to_nat (Z.of_nat n + b) else Nat.min (Z.to_nat b) n.

(** `l[a:b]` (fluctuation_field_generator.py L201-212, L285). *)
Definition pyslice {A : Type} (a b : Z) (l : list A) : list A :=
  let i := slice_pos (length l) a in
  let j := slice_pos (length l) b in
  firstn (j - i) (skipn i l).

(** `l[a:]` (fluctuation_field_generator.py L208, L281). *)
Definition pyslice_from {A : Type} (a : Z) (l : list A) : list A := skipn (slice_pos (length l) a) l.

(** `np.roll(l, -s, axis=0)` for s >= 0 (fluctuation_field_generator.py L273). *)
Definition roll_left {A : Type} (s : nat) (l : list A) : list A :=
  match l with
  | [] => []
  | _ => let k := Nat.modulo s (length l) in skipn k l ++ firstn k l
  end.

(** `l[a:] = v` along the first axis (fluctuation_field_generator.py L274):
    numpy raises when the extents differ. *)
Definition assign_from {A : Type} (a : Z) (v l : list A) : res (list A) :=
  if (length (pyslice_from a l) =? length v)%nat then Ok (firstn (slice_pos (length l) a) l ++ v)
  else Err ValueError.

(** Array of shape (x, y, z, 3) (fluctuation_field_generator.py L194-199, L219). *)
Definition field (A : Type) : Type := list (list (list (A * A * A))).

(** All entries in C order (`np.any`, `np.mean`, fluctuation_field_generator.py
    L342, L354). *)
Definition entries {A : Type} (f : field A) : list A :=
  concat (map (fun p => concat (map (fun c => concat (map (fun v => match v with (a, b, d) => [a; b; d] end) c)) p)) f).

(** Extents of an array (`.shape`, fluctuation_field_generator.py L366, L451). *)
Definition shaped {A : Type} (nx ny nz : nat) (f : field A) : Prop :=
  length f = nx /\ Forall (fun p => length p = ny /\ Forall (fun c => length c = nz) p) f.

(** Check of the two transverse extents, performed by numpy at
    fluctuation_field_generator.py L366 (assignment of the tiled profile), L497
    (broadcast) and L502 (concatenation).  Simplification: broadcasting of extents
    equal to 1 is not modelled (node counts are at least 2). *)
Definition fits {A : Type} (ny nz : nat) (f : field A) : bool :=
  forallb (fun p => ((length p =? ny)%nat && forallb (fun c => (length c =? nz)%nat) p)%bool) f.

(** ** Random numbers *)

Section RandomNumbers.

  (** State of a pseudo-random generator and one standard normal draw
      (gaussian_random_fields.py L129-131: `RandomState`, `normal`). *)
  Variable G : Type.
  Variable gauss : G -> R * G.

  (** One grid point of noise: three draws scaled by `noise_std`
      (gaussian_random_fields.py L201-207; C order, last axis fastest). *)
  Definition draw_point (std : R) (g : G) : (R * R * R) * G :=
    let '(a, g1) := gauss g in
    let '(b, g2) := gauss g1 in
    let '(d, g3) := gauss g2 in
    ((a * std, b * std, d * std), g3).

  (** Repetition of a draw along one axis (gaussian_random_fields.py L204-205). *)
  Fixpoint draw_many {A : Type} (one : G -> A * G) (n : nat) (g : G) : list A * G :=
    match n with
    | O => ([], g)
    | S m => let '(x, g1) := one g in let '(l, g2) := draw_many one m g1 in (x :: l, g2)
    end.

  (** One plane of noise (gaussian_random_fields.py L201-207). *)
  Definition draw_plane (std : R) (ny nz : nat) (g : G) : list (list (R * R * R)) * G :=
    draw_many (draw_many (draw_point std) nz) ny g.

  (** `sample_noise(shape)` (gaussian_random_fields.py L185-207). *)
  Definition sample_noise (std : R) (nx ny nz : nat) (g : G) : field R * G :=
    draw_many (draw_plane std ny nz) nx g.

End RandomNumbers.
Arguments draw_point {G} gauss std g.
Arguments draw_many {G A} one n g.
Arguments draw_plane {G} gauss std ny nz g.
Arguments sample_noise {G} gauss std nx ny nz g.

(** ** Geometry *)

(** `math.ceil` (fluctuation_field_generator.py L181-183). *)
Definition Zceil (x : R) : Z := (- Int_part (- x))%Z.

(** Sizes fixed by the constructor (fluctuation_field_generator.py L166-212). *)
Record geometry : Type := Geometry
  { g_Nx : nat; g_Ny : nat; g_Nz : nat;
    g_nb : Z; g_my : Z; g_mz : Z;
    g_blend : Z;
    g_dims : R * R * R;
    g_lz : nat }.

(** Node count 2^level + 1 (fluctuation_field_generator.py L171). *)
Definition nodes (level : nat) : nat := (2 ^ level + 1)%nat.

(** fluctuation_field_generator.py L166-183: node counts, spacings, buffer and
    margins.  A zero extent makes a spacing zero and `ceil` of the infinite
    quotient raises. *)
Definition make_geometry (dims : R * R * R) (levels : nat * nat * nat) (L Gamma : R) (blend : Z) : res geometry :=
  let '(Lx, Ly, Lz) := dims in
  let '(lx, ly, lz) := levels in
  let dx := Lx / INR (nodes lx) in
  let dy := Ly / INR (nodes ly) in
  let dz := Lz / INR (nodes lz) in
  if Reqb dx 0 then (if Reqb (3 * Gamma * L) 0 then Err ValueError else Err OverflowError)
  else if Reqb dy 0 then (if Reqb L 0 then Err ValueError else Err OverflowError)
  else if Reqb dz 0 then (if Reqb L 0 then Err ValueError else Err OverflowError)
  else Ok (Geometry (nodes lx) (nodes ly) (nodes lz)
             (Zceil (3 * Gamma * L / dx)) (Zceil (L / dy)) (Zceil (L / dz)) blend dims lz).

(** fluctuation_field_generator.py L188: rows added to a block. *)
Definition buffer_extension (g : geometry) : Z :=
  (2 * g_nb g + (if 0 <? g_blend g then g_blend g - 1 else 0))%Z.

(** fluctuation_field_generator.py L194-199 (first three extents). *)
Definition noise_shape (g : geometry) : Z * Z * Z :=
  ((Z.of_nat (g_Nx g) + buffer_extension g)%Z,
   (Z.of_nat (g_Ny g) + 2 * g_my g)%Z,
   (Z.of_nat (g_Nz g) + 2 * g_mz g)%Z).

(** fluctuation_field_generator.py L208: first row of the new part. *)
Definition new_part_start (g : geometry) : Z := (2 * g_nb g + Z.max 0 (g_blend g - 1))%Z.

(** fluctuation_field_generator.py L201-206: the central part of an array. *)
Definition central_part {A : Type} (g : geometry) (f : field A) : field A :=
  map (fun p => map (fun c => pyslice 0 (- (2 * g_mz g)) c) (pyslice (g_my g) (- g_my g) p))
      (pyslice (g_nb g) (- g_nb g) f).

(** ** Mean profiles *)

(** fluctuation_field_generator.py L586-589. *)
Definition log_law (z z0 zref uref : R) : xr := xdiv (Fin (uref * ln (z / z0 + 1))) (Fin (ln (zref / z0))).

(** fluctuation_field_generator.py L591-594. *)
Definition power_law (z zref uref a : R) : xr := xmul (Fin uref) (xpow (z / zref) a).

(** fluctuation_field_generator.py L357: heights of the mean profile. *)
Definition z_space (g : geometry) : list R := linspace 0 (snd (g_dims g)) (nodes (g_lz g)).

(** Arguments of `generate` after the block count (fluctuation_field_generator.py
    L373-380). *)
Record profile_args : Type := Profile
  { p_zref : R; p_uref : R; p_z0 : R; p_type : string; p_exp : option R }.

(** fluctuation_field_generator.py L358-362: the mean profile. *)
Definition mean_profile (g : geometry) (a : profile_args) : res (list xr) :=
  if String.eqb (p_type a) "LOG" then Ok (map (fun z => log_law z (p_z0 a) (p_zref a) (p_uref a)) (z_space g))
  else match p_exp a with
       | None => Err AssertionError
       | Some e => Ok (map (fun z => power_law z (p_zref a) (p_uref a) e) (z_space g))
       end.

(** `np.any` (fluctuation_field_generator.py L342). *)
Definition any_nonzero (f : field R) : bool := existsb (fun v => negb (Reqb v 0)) (entries f).

(** Pointwise combination of one column with the profile
    (fluctuation_field_generator.py L364-368: the profile is added to component 0). *)
Fixpoint add_profile (sd : R) (c : list (R * R * R)) (prof : list xr) : list (xr * xr * xr) :=
  match c, prof with
  | (a, b, d) :: c', m :: prof' =>
      (xadd (Fin (a / sd)) m, xadd (Fin (b / sd)) (Fin 0), xadd (Fin (d / sd)) (Fin 0)) :: add_profile sd c' prof'
  | _, _ => []
  end.

(** fluctuation_field_generator.py L289-368. *)
Definition normalize_block (g : geometry) (a : profile_args) (block : field R) : res (field xr) :=
  if negb (any_nonzero block) then Err ValueError
  else if negb (String.eqb (p_type a) "LOG" || String.eqb (p_type a) "PL")%bool then Err ValueError
  else if (Rleb (p_zref a) 0 || Rleb (p_uref a) 0 || Rleb (p_z0 a) 0)%bool then Err ValueError
  else if (String.eqb (p_type a) "PL" && match p_exp a with None => true | Some _ => false end)%bool then Err ValueError
  else
    let sd := sqrt (Rmean (map (fun v => v^2) (entries block))) in
    bind (mean_profile g a) (fun prof =>
    if forallb (fun p => forallb (fun c => (length c =? length prof)%nat) p) block
    then Ok (map (fun p => map (fun c => add_profile sd c prof) p) block)
    else Err ValueError).

(** ** The generator *)

(** A low-frequency generator as seen by `generate`
    (fluctuation_field_generator.py L446-489): the width `user_L2` and, once a
    field exists, the interpolation of its two components. *)
Record low_view : Type := LowView { lv_L2 : R; lv_interp : option (R -> R -> R * R) }.

(** fluctuation_field_generator.py L451-455: x coordinates of block number [i]. *)
Definition block_x (g : geometry) (i nx : nat) : list R :=
  let Lx := fst (fst (g_dims g)) in
  let len := Lx * (INR nx / INR (g_Nx g)) in
  let x0 := INR i * Lx in
  map (fun p => x0 + INR p * (len / INR nx)) (seq 0 nx).

(** fluctuation_field_generator.py L458-477: centred y coordinates. *)
Definition block_y (g : geometry) (L2 : R) : list R :=
  let Ly := snd (fst (g_dims g)) in
  map (fun q => (L2 / 2 - Ly / 2) + INR q * (Ly / INR (g_Ny g))) (seq 0 (g_Ny g)).

(** fluctuation_field_generator.py L497-498: addition of a slice to the first two
    components, the same at all heights. *)
Definition add_slice (interp : R -> R -> R * R) (xs ys : list R) (f : field xr) : field xr :=
  map (fun xp => map (fun yc =>
         let u := interp (fst xp) (fst yc) in
         map (fun v => match v with (a, b, d) => (xadd a (Fin (fst u)), xadd b (Fin (snd u)), d) end) (snd yc))
       (combine ys (snd xp)))
      (combine xs f).

(** fluctuation_field_generator.py L445-498: contribution of the low-frequency
    field to block number [i]. *)
Definition add_low (g : geometry) (low : option low_view) (i : nat) (f : field xr) : res (field xr) :=
  match low with
  | None => Ok f
  | Some lv =>
      match lv_interp lv with
      | None => Err RuntimeError
      | Some interp =>
          if forallb (fun p => (length p =? g_Ny g)%nat) f
          then Ok (add_slice interp (block_x g i (length f)) (block_y g (lv_L2 lv)) f)
          else Err ValueError
      end
  end.

(** Mutable state of a generator (fluctuation_field_generator.py L218-219,
    L276-283): last noise, total field, random generator, blend region. *)
Record gstate (G : Type) : Type := GState
  { s_noise : option (field R); s_total : field xr; s_rng : G; s_blend : option (field R) }.
Arguments GState {G} s_noise s_total s_rng s_blend.
Arguments s_noise {G} g.
Arguments s_total {G} g.
Arguments s_rng {G} g.
Arguments s_blend {G} g.

Section Generator.

  Variable G : Type.
  Variable gauss : G -> R * G.

  (** What the constructor fixes: sizes, noise amplitude, sampler
      (`RF.Correlate`, gaussian_random_fields.py L240) and low-frequency field. *)
  Variable geo : geometry.
  Variable std : R.
  Variable correlate : field R -> field R.
  Variable low : option low_view.

  (** fluctuation_field_generator.py L271-276: the noise of the next block.
      Negative extents make numpy raise. *)
  Definition next_noise (s : gstate G) : res (field R) * G :=
    let '(nx, ny, nz) := noise_shape geo in
    if ((nx <? 0) || (ny <? 0) || (nz <? 0))%Z%bool then (Err ValueError, s_rng s)
    else
      match s_noise s with
      | None =>
          let '(n, g) := sample_noise gauss std (Z.to_nat nx) (Z.to_nat ny) (Z.to_nat nz) (s_rng s) in (Ok n, g)
      | Some old =>
          let rolled := roll_left (g_Nx geo) old in
          let '(v, g) := sample_noise gauss std (g_Nx geo) (Z.to_nat ny) (Z.to_nat nz) (s_rng s) in
          (assign_from (new_part_start geo) v rolled, g)
      end.

  (** fluctuation_field_generator.py L279-285: the delivered part of a sampled
      array. *)
  Definition trim (wind : field R) : field R :=
    if (1 <? g_blend geo)%Z then pyslice 0 (- (g_blend geo - 1)) wind else wind.

  (** fluctuation_field_generator.py L261-287. *)
  Definition generate_block (s : gstate G) : res (field R) * gstate G :=
    match next_noise s with
    | (Err e, g) => (Err e, GState (s_noise s) (s_total s) g (s_blend s))
    | (Ok noise, g) =>
        let wind := central_part geo (correlate noise) in
        let blend := if (0 <? g_blend geo)%Z then Some (pyslice_from (- g_blend geo) wind) else None in
        (Ok (trim wind), GState (Some noise) (s_total s) g blend)
    end.

  (** One iteration of the loop in `generate` (fluctuation_field_generator.py
      L431-502). *)
  Definition generate_one (a : profile_args) (i : nat) (s : gstate G) : res unit * gstate G :=
    match generate_block s with
    | (Err e, s1) => (Err e, s1)
    | (Ok block, s1) =>
        match bind (normalize_block geo a block) (add_low geo low i) with
        | Err e => (Err e, s1)
        | Ok f =>
            if fits (g_Ny geo) (g_Nz geo) f
            then (Ok tt, GState (s_noise s1) (s_total s1 ++ f) (s_rng s1) (s_blend s1))
            else (Err ValueError, s1)
        end
    end.

  (** The loop `for i in range(num_blocks)` (fluctuation_field_generator.py L431). *)
  Fixpoint generate_loop (a : profile_args) (n i : nat) (s : gstate G) : res unit * gstate G :=
    match n with
    | O => (Ok tt, s)
    | S m =>
        match generate_one a i s with
        | (Err e, s1) => (Err e, s1)
        | (Ok _, s1) => generate_loop a m (S i) s1
        end
    end.

  (** fluctuation_field_generator.py L372-504: `generate`. *)
  Definition generate (num_blocks : Z) (a : profile_args) (s : gstate G) : res (field xr) * gstate G :=
    match generate_loop a (Z.to_nat num_blocks) 0 s with
    | (Err e, s1) => (Err e, s1)
    | (Ok _, s1) => (Ok (s_total s1), s1)
    end.

End Generator.
Arguments next_noise {G} gauss geo std s.
Arguments generate_block {G} gauss geo std correlate s.
Arguments generate_one {G} gauss geo std correlate low a i s.
Arguments generate_loop {G} gauss geo std correlate low a n i s.
Arguments generate {G} gauss geo std correlate low num_blocks a s.

(** ** Construction *)

(** Scales of the covariance (fluctuation_field_generator.py L128-164): length
    scale, time scale and energy scale. *)
Record cov_scales : Type := CovScales { cs_L : R; cs_Gamma : R; cs_E0 : R }.

(** Constructor arguments (fluctuation_field_generator.py L75-89). *)
Record gen_args : Type := GenArgs
  { ga_ustar : R; ga_href : R; ga_dims : R * R * R; ga_levels : nat * nat * nat; ga_model : string;
    ga_L : option R; ga_T : option R; ga_E : option R; ga_path : option string;
    ga_seed : option Z; ga_blend : Z }.

Section Construction.

  (** Scales (L, T, M) stored in a parameter file, after `pb.parameters = ...` and
      `exp_scales` (fluctuation_field_generator.py L132-148). *)
  Variable stored : string -> res (R * R * R).

  (** fluctuation_field_generator.py L124-164.  `reference_height ** (-2/3)` is
      modelled for positive heights; 0.0 raises, a negative height gives a complex
      number and is reported as TypeError, which `np.sqrt`-free code reaches only
      later (simplification). *)
  Definition scales_of (a : gen_args) : res cov_scales :=
    if negb (String.eqb (ga_model a) "DRD" || String.eqb (ga_model a) "VK" || String.eqb (ga_model a) "Mann")%bool
    then Err ValueError
    else
      let h := xpow (ga_href a) (- (2/3)) in
      let energy e := match h with
                      | Fin v => Ok (e * (ga_ustar a)^2 * v)
                      | PInf => Err ZeroDivisionError
                      | _ => Err TypeError
                      end in
      if String.eqb (ga_model a) "DRD" then
        match ga_path a with
        | None => Err ValueError
        | Some p =>
            bind (stored p) (fun scales =>
              let '(L, T, M) := scales in
              bind (energy (4 * PI * Rpower L (- (5/3)) * M)) (fun E0 => Ok (CovScales (L * ga_href a) T E0)))
        end
      else
        match ga_L a, ga_T a, ga_E a with
        | Some L, Some T, Some E => bind (energy E) (fun E0 => Ok (CovScales L T E0))
        | _, _, _ => Err AssertionError
        end.

  (** Random generators: seeding, and the entropy used without a seed
      (gaussian_random_fields.py L171-183); one draw from the global numpy stream
      used by the low-frequency generator. *)
  Variable G : Type.
  Variable gauss : G -> R * G.
  Variable seeded : Z -> G.

  (** The sampler for given model, scales and array extents
      (fluctuation_field_generator.py L228-249, sampling_methods.py L102-149). *)
  Variable sampler : string -> cov_scales -> geometry -> field R -> field R.

  (** Construction and generation of the low-frequency field from the global random
      generator (fluctuation_field_generator.py L253-259). *)
  Variable C2 : Type.
  Variable low_make : C2 -> G -> res (low_view * G).

  (** Global state a constructor can observe: numpy's global random generator
      (low_frequency/fluctuation_field_generator.py L487) and operating-system entropy
      for unseeded generators (gaussian_random_fields.py L171-183). *)
  Record world : Type := World { w_global : G; w_entropy : G }.

  (** A constructed generator (fluctuation_field_generator.py L75-259: attributes). *)
  Record generator : Type := Generator
    { gen_geo : geometry; gen_std : R; gen_correlate : field R -> field R; gen_low : option low_view;
      gen_state : gstate G }.

  (** gaussian_random_fields.py L130: `noise_std = sqrt(prod h)`. *)
  Definition noise_std (dims : R * R * R) (levels : nat * nat * nat) : R :=
    let '(Lx, Ly, Lz) := dims in
    let '(lx, ly, lz) := levels in
    sqrt (Lx / INR (nodes lx) * (Ly / INR (nodes ly)) * (Lz / INR (nodes lz))).

  (** fluctuation_field_generator.py L75-259. *)
  Definition construct (a : gen_args) (config : option C2) (w : world) : res (generator * world) :=
    bind (scales_of a) (fun cs =>
    bind (make_geometry (ga_dims a) (ga_levels a) (cs_L cs) (cs_Gamma cs) (ga_blend a)) (fun geo =>
    let rng := match ga_seed a with Some s => seeded s | None => w_entropy w end in
    let s0 := GState None [] rng None in
    let gen low := Generator geo (noise_std (ga_dims a) (ga_levels a)) (sampler (ga_model a) cs geo) low s0 in
    match config with
    | None => Ok (gen None, w)
    | Some c => bind (low_make c (w_global w)) (fun lg => Ok (gen (Some (fst lg)), World (snd lg) (w_entropy w)))
    end)).

  (** A call `generate(...)` on a constructed generator (fluctuation_field_generator.py
      L372-504). *)
  Definition gen_call (num_blocks : Z) (a : profile_args) (gn : generator) : res (field xr) * generator :=
    let '(r, s) := generate gauss (gen_geo gn) (gen_std gn) (gen_correlate gn) (gen_low gn) num_blocks a (gen_state gn) in
    (r, Generator (gen_geo gn) (gen_std gn) (gen_correlate gn) (gen_low gn) s).

  (** A sequence of calls (fluctuation_field_generator.py L372-504), with all
      outcomes. *)
  Fixpoint gen_calls (calls : list (Z * profile_args)) (gn : generator) : list (res (field xr)) * generator :=
    match calls with
    | [] => ([], gn)
    | (n, a) :: rest =>
        let '(r, gn1) := gen_call n a gn in
        let '(rs, gn2) := gen_calls rest gn1 in
        (r :: rs, gn2)
    end.

End Construction.

(** ** Output and divergence *)

(** fluctuation_field_generator.py L516: grid spacing written to the VTK file. *)
Definition vtk_spacing (dims : R * R * R) (levels : nat * nat * nat) : R * R * R :=
  let '(Lx, Ly, Lz) := dims in
  let '(lx, ly, lz) := levels in
  (Lx / INR (nodes lx), Ly / INR (nodes ly), Lz / INR (nodes lz)).

(** fluctuation_field_generator.py L518-523: the components written to the VTK
    file, each an array of the shape of the total field. *)
Definition vtk_wind (f : field xr) : list (list (list xr)) * list (list (list xr)) * list (list (list xr)) :=
  (map (map (map (fun v => fst (fst v)))) f, map (map (map (fun v => snd (fst v)))) f, map (map (map snd)) f).

(** `np.gradient` of n equally spaced samples (fluctuation_field_generator.py
    L584): central differences inside, one-sided differences at the two ends. *)
Definition np_gradient (n : nat) (h : R) (f : nat -> R) (i : nat) : xr :=
  if (i =? 0)%nat then xdiv (Fin (f 1%nat - f 0%nat)) (Fin h)
  else if (i =? n - 1)%nat then xdiv (Fin (f (n - 1)%nat - f (n - 2)%nat)) (Fin h)
  else xdiv (Fin (f (i + 1)%nat - f (i - 1)%nat)) (Fin (2 * h)).

(** An array of shape (nx, ny, nz, nc) as a function of its indices (argument of
    `evaluate_divergence`, fluctuation_field_generator.py L527). *)
Record garray : Type := GArray { ar_nx : nat; ar_ny : nat; ar_nz : nat; ar_nc : nat; ar_at : nat -> nat -> nat -> nat -> R }.

(** fluctuation_field_generator.py L527-584.  `np.gradient` raises ValueError for
    fewer than two samples along an axis. *)
Definition evaluate_divergence (spacing : list R) (f : garray) : res (nat -> nat -> nat -> xr) :=
  match spacing with
  | [hx; hy; hz] =>
      if negb (ar_nc f =? 3)%nat then Err ValueError
      else if ((ar_nx f <? 2) || (ar_ny f <? 2) || (ar_nz f <? 2))%nat%bool then Err ValueError
      else Ok (fun i j k =>
        xadd (xadd (np_gradient (ar_nx f) hx (fun t => ar_at f t j k 0%nat) i)
                   (np_gradient (ar_ny f) hy (fun t => ar_at f i t k 1%nat) j))
             (np_gradient (ar_nz f) hz (fun t => ar_at f i j t 2%nat) k))
  | _ => Err ValueError
  end.
