(** Model of drdmannturb/fluctuation_generation/gaussian_random_fields.py (both
    classes) and of the array shapes handled by
    drdmannturb/fluctuation_generation/sampling_methods.py (all five sampling
    methods), with numpy's broadcasting rules.

    The numbers computed by the "vf_fftw" transform are modelled in DftModel.v; here
    the numbers produced by a sampling method are a parameter and the shapes are
    computed.  Extents are assumed to be at least one wherever this matters (the
    hypothesis is in the theorems). *)

From Coq Require Import String Reals List ZArith Bool.
From Verif Require Import Prelude GenModel.
Import ListNotations.
Open Scope R_scope.

(** ** numpy shapes *)

(** `ndarray.shape` (sampling_methods.py L139). *)
Definition shape : Type := list nat.

(** Broadcasting of two shapes read from the last axis
    (`self.Spectrum * noise_hat`, sampling_methods.py L164). *)
Fixpoint broadcast_rev (a b : list nat) : res (list nat) :=
  match a, b with
  | [], _ => Ok b
  | _, [] => Ok a
  | x :: a', y :: b' =>
      bind (broadcast_rev a' b') (fun r =>
        if (x =? y)%nat then Ok (x :: r)
        else if (x =? 1)%nat then Ok (y :: r)
        else if (y =? 1)%nat then Ok (x :: r)
        else Err ValueError)
  end.

(** Shape of an elementwise product (sampling_methods.py L164, L182, L201). *)
Definition broadcast (a b : shape) : res shape :=
  bind (broadcast_rev (rev a) (rev b)) (fun r => Ok (rev r)).

(** Whether `dst[...] = src` is accepted, read from the last axis: every extent of
    src equals the one of dst or is one, superfluous leading extents of src are one
    (sampling_methods.py L84, L141, L143, L146, L148). *)
Fixpoint assignable_rev (dst src : list nat) : bool :=
  match src, dst with
  | [], _ => true
  | x :: s, [] => ((x =? 1)%nat && assignable_rev [] s)%bool
  | x :: s, y :: d => (((x =? y)%nat || (x =? 1)%nat) && assignable_rev d s)%bool
  end.

(** `dst[...] = src` (sampling_methods.py L84, L141, L143, L146, L148). *)
Definition assign_array (dst src : shape) : res unit :=
  if assignable_rev (rev dst) (rev src) then Ok tt else Err ValueError.

(** Equality of shapes, used by numpy for the output operand of an in-place
    operator (sampling_methods.py L86). *)
Fixpoint shape_eqb (a b : shape) : bool :=
  match a, b with
  | [], [] => true
  | x :: a', y :: b' => ((x =? y)%nat && shape_eqb a' b')%bool
  | _, _ => false
  end.

(** `dst *= src`: the broadcast shape has to be the shape of dst
    (sampling_methods.py L86). *)
Definition imul_array (dst src : shape) : res unit :=
  bind (broadcast dst src) (fun r => if shape_eqb r dst then Ok tt else Err ValueError).

(** `x[tuple of slices]`, [Some n] for `slice(0, n)` and [None] for `slice(None)`
    (sampling_methods.py L88, L149, L166, L185, L204). *)
Fixpoint slice_array (sl : list (option nat)) (s : shape) : res shape :=
  match sl, s with
  | [], _ => Ok s
  | _ :: _, [] => Err IndexError
  | Some n :: sl', m :: s' => bind (slice_array sl' s') (fun r => Ok (Nat.min n m :: r))
  | None :: sl', m :: s' => bind (slice_array sl' s') (fun r => Ok (m :: r))
  end.

(** `for i in ...:` over a body which may raise (sampling_methods.py L140, L145). *)
Fixpoint for_each (l : list nat) (body : nat -> res unit) : res unit :=
  match l with
  | [] => Ok tt
  | i :: l' => bind (body i) (fun _ => for_each l' body)
  end.

(** `x[..., i]` on an array whose last extent is n (sampling_methods.py L143, L146). *)
Definition last_index (n i : nat) : res unit := if (i <? n)%nat then Ok tt else Err IndexError.

(** Number of entries (gaussian_random_fields.py L122, L202). *)
Definition size (s : shape) : nat := fold_right Nat.mul 1%nat s.

(** ** Sampling methods *)

(** The five sampling methods (sampling_methods.py L8-12). *)
Inductive method : Type := MFFT | MDST | MDCT | MFFTW | MVF.

(** Decoding of the method name (gaussian_random_fields.py L153-169). *)
Definition method_of (name : string) : option method :=
  if String.eqb name "fft" then Some MFFT
  else if String.eqb name "dst" then Some MDST
  else if String.eqb name "dct" then Some MDCT
  else if String.eqb name "fftw" then Some MFFTW
  else if String.eqb name "vf_fftw" then Some MVF
  else None.

(** A sampling method object: the attributes which matter for shapes
    (sampling_methods.py L30-35, L52-54). *)
Record sampler : Type := Sampler { s_method : method; s_grid : shape; s_slice : list (option nat) }.

(** Shape of the square root of the spectral tensor: `np.tile(np.zeros(Nd),
    (3, 3, 1, 1, 1))` for every covariance (covariance_kernels.py L103-104, L184-186,
    nn_covariance.py L108-110). *)
Definition spectrum_shape (grid : shape) : shape := 3%nat :: 3%nat :: firstn 3 grid.

(** `shpC`: the grid with the last extent halved (sampling_methods.py L73-74). *)
Definition half_grid (grid : shape) : shape :=
  match rev grid with
  | [] => []
  | n :: r => rev ((n / 2 + 1)%nat :: r)
  end.

(** `Spectrum[..., : shpC[-1]]` (sampling_methods.py L80, L133). *)
Definition half_spectrum_shape (grid : shape) : shape := half_grid (spectrum_shape grid).

(** Sampling_FFT.__call__ (sampling_methods.py L161-166). *)
Definition call_fft (s : sampler) (noise : shape) : res shape :=
  bind (broadcast (spectrum_shape (s_grid s)) noise) (fun y => slice_array (s_slice s) y).

(** Sampling_DST.__call__ and Sampling_DCT.__call__ (sampling_methods.py L180-185,
    L199-204): the transforms along the axes 0, 1, 2 keep the shape. *)
Definition call_dt (s : sampler) (noise : shape) : res shape :=
  bind (broadcast (spectrum_shape (s_grid s)) noise) (fun y => slice_array (s_slice s) y).

(** Sampling_FFTW.__call__ (sampling_methods.py L82-88). *)
Definition call_fftw (s : sampler) (noise : shape) : res shape :=
  bind (assign_array (s_grid s) noise) (fun _ =>
  bind (imul_array (half_grid (s_grid s)) (half_spectrum_shape (s_grid s))) (fun _ =>
  slice_array (s_slice s) (s_grid s))).

(** Sampling_VF_FFTW.__call__ (sampling_methods.py L137-149).  The stack of
    transformed components has three entries (L134); the einsum (L144) keeps its
    shape. *)
Definition call_vf (s : sampler) (noise : shape) : res shape :=
  match rev noise with
  | [] => Err IndexError
  | n :: r =>
      let component := rev r in
      bind (for_each (seq 0 n) (fun i =>
              bind (assign_array (s_grid s) component) (fun _ =>
              last_index 3 i))) (fun _ =>
      bind (for_each (seq 0 n) (fun i =>
              bind (last_index 3 i) (fun _ =>
              assign_array component (s_grid s)))) (fun _ =>
      slice_array (s_slice s) noise))
  end.

(** `self.Correlate(noise)` (gaussian_random_fields.py L240). *)
Definition call_sampler (s : sampler) (noise : shape) : res shape :=
  match s_method s with
  | MFFT => call_fft s noise
  | MDST => call_dt s noise
  | MDCT => call_dt s noise
  | MFFTW => call_fftw s noise
  | MVF => call_vf s noise
  end.

(** ** Random fields *)

(** Argument grid_level: a number or one number per axis
    (gaussian_random_fields.py L67, L104). *)
Inductive level_arg : Type := LScalar : nat -> level_arg | LArray : list nat -> level_arg.

(** Argument grid_shape, by default None (gaussian_random_fields.py L68, L105). *)
Inductive shape_arg : Type := SNone | SScalar : nat -> shape_arg | SArray : list nat -> shape_arg.

(** Constructor arguments (gaussian_random_fields.py L64-72). *)
Record grf_args : Type := GrfArgs
  { ga_level : level_arg; ga_shape : shape_arg; ga_dims : list R; ga_ndim : nat; ga_method : string }.

(** Attributes of a field (gaussian_random_fields.py L99-135); the generator state is
    kept beside it. *)
Record grf : Type := Grf
  { f_ndim : nat; f_grid : shape; f_lengths : list R; f_slice : list (option nat); f_std : R;
    f_method : string; f_correlate : option sampler }.

(** Product of the entries of an array (`np.prod`, gaussian_random_fields.py L130). *)
Definition Rprod (l : list R) : R := fold_right Rmult 1 l.

(** `h * self.grid_shape` for a per-axis h (gaussian_random_fields.py L117): extents
    have to agree or be one. *)
Definition times_grid (h : list R) (g : shape) : res (list R) :=
  if (length h =? length g)%nat then Ok (map (fun p => fst p * INR (snd p)) (combine h g))
  else match g, h with
       | [n], _ => Ok (map (fun x => x * INR n) h)
       | _, [x] => Ok (map (fun n => x * INR n) g)
       | _, _ => Err ValueError
       end.

(** Spacing and grid of a scalar level: `h = 1 / 2**grid_level`, `[grid_shape] * ndim`
    (gaussian_random_fields.py L104-109).  The result is the pair of the factors of
    `np.prod(h)` and of (L, grid). *)
Definition scalar_grid (level : nat) (sh : shape_arg) (ndim : nat) : res (list R * (list R * shape)) :=
  match sh with
  | SScalar n =>
      let h := 1 / 2 ^ level in
      Ok ([h], (map (fun m => h * INR m) (repeat n ndim), repeat n ndim))
  | _ => Err ValueError
  end.

(** Spacings and grid of per-axis levels (gaussian_random_fields.py L110-117): the
    lengths of the dimensions and levels are asserted to be three; `None[:ndim]` and
    `n[:ndim]` raise TypeError. *)
Definition array_grid (levels : list nat) (sh : shape_arg) (dims : list R) (ndim : nat)
  : res (list R * (list R * shape)) :=
  if negb (length dims =? 3)%nat then Err AssertionError
  else if negb (length levels =? 3)%nat then Err AssertionError
  else
    let h := map (fun p => fst p / (2 ^ (snd p) + 1)) (combine dims levels) in
    match sh with
    | SArray l =>
        let g := firstn ndim l in
        bind (times_grid h g) (fun L => Ok (h, (L, g)))
    | _ => Err TypeError
    end.

(** `tuple([slice(0, grid_shape[j]) for j in range(ndim)])`
    (gaussian_random_fields.py L123). *)
Definition domain_slice (g : shape) (ndim : nat) : res (list (option nat)) :=
  if (ndim <=? length g)%nat then Ok (map Some (firstn ndim g)) else Err IndexError.

(** Evaluation of the spectral tensor by the constructor of every sampling method
    (sampling_methods.py L54): every covariance has three dimensions, so it reads
    three frequency arrays (covariance_kernels.py L103, L184) and stores arrays over
    the product of all frequency arrays (covariance_kernels.py L112-117, L236-244). *)
Definition spectrum_check (grid : shape) (ndim : nat) : res unit :=
  if (ndim <? 3)%nat then Err IndexError else assign_array (firstn 3 grid) grid.

(** setSamplingMethod (gaussian_random_fields.py L137-169): the name is stored before
    it is examined. *)
Definition set_sampling_method (f : grf) (name : string) : res unit * grf :=
  let f1 := Grf (f_ndim f) (f_grid f) (f_lengths f) (f_slice f) (f_std f) name (f_correlate f) in
  match method_of name with
  | None => (Err GenericException, f1)
  | Some m =>
      match spectrum_check (f_grid f) (f_ndim f) with
      | Err e => (Err e, f1)
      | Ok _ =>
          (Ok tt, Grf (f_ndim f) (f_grid f) (f_lengths f) (f_slice f) (f_std f) name
                    (Some (Sampler m (f_grid f) (f_slice f))))
      end
  end.

(** GaussianRandomField.__init__ (gaussian_random_fields.py L64-135). *)
Definition make_grf (a : grf_args) : res grf :=
  bind (match ga_level a with
        | LScalar l => scalar_grid l (ga_shape a) (ga_ndim a)
        | LArray l => array_grid l (ga_shape a) (ga_dims a) (ga_ndim a)
        end) (fun hLg =>
  bind (domain_slice (snd (snd hLg)) (ga_ndim a)) (fun sl =>
  let f0 := Grf (ga_ndim a) (snd (snd hLg)) (fst (snd hLg)) sl (sqrt (Rprod (fst hLg))) "" None in
  let '(r, f) := set_sampling_method f0 (ga_method a) in
  bind r (fun _ => Ok f))).

(** VectorGaussianRandomField.__init__ (gaussian_random_fields.py L251-270). *)
Definition make_vector_grf (a : grf_args) : res grf :=
  bind (make_grf a) (fun f =>
    let sl := f_slice f ++ [None] in
    Ok (Grf (f_ndim f) (f_grid f) (f_lengths f) sl (f_std f) (f_method f)
          (match f_correlate f with
           | None => None
           | Some s => Some (Sampler (s_method s) (s_grid s) sl)
           end))).

(** An array: its shape and its entries in C order (gaussian_random_fields.py L207,
    L242). *)
Definition array : Type := (shape * list R)%type.

Section Sampling.

  (** Generator state, one draw, seeding, and the numbers produced by a sampling
      method from its noise (gaussian_random_fields.py L129-131, L171-183, L240).
      Simplification: the numbers depend on the sampler and the noise only; the stack
      `hat_noise` kept by "vf_fftw" (sampling_methods.py L134-144) is entirely
      overwritten by noise with three components. *)
  Variable G : Type.
  Variable gauss : G -> R * G.
  Variable seeded : Z -> G.
  Variable numbers : sampler -> array -> list R.

  (** `sample_noise(grid_shape)` (gaussian_random_fields.py L185-207). *)
  Definition grf_noise (f : grf) (sh : option shape) (g : G) : array * G :=
    let s := match sh with None => f_grid f | Some s => s end in
    let '(l, g') := draw_many gauss (size s) g in
    ((s, map (fun x => x * f_std f) l), g').

  (** `sample(noise)` (gaussian_random_fields.py L209-242). *)
  Definition grf_sample (f : grf) (noise : option array) (g : G) : res array * G :=
    match f_correlate f with
    | None => (Err GenericException, g)
    | Some s =>
        let '(x, g') := match noise with Some x => (x, g) | None => grf_noise f None g end in
        (match call_sampler s (fst x) with
         | Ok sh => Ok (sh, numbers s x)
         | Err e => Err e
         end, g')
    end.

  (** `reseed(seed)` with a seed (gaussian_random_fields.py L171-183); the new state
      does not depend on the old one. *)
  Definition grf_reseed (seed : Z) (g : G) : G := seeded seed.

  (** Public calls of a field and the arrays they deliver, in order (sample_noise
      L185, sample L209, setSamplingMethod L137, reseed L171 of
      gaussian_random_fields.py). *)
  Inductive grf_call : Type :=
  | CNoise : option shape -> grf_call
  | CSample : option array -> grf_call
  | CMethod : string -> grf_call
  | CReseed : Z -> grf_call.

  (** One call: field and generator afterwards, delivered array or exception
      (gaussian_random_fields.py L137-242). *)
  Definition grf_step (f : grf) (g : G) (c : grf_call) : grf * G * res (option array) :=
    match c with
    | CNoise sh => let '(x, g') := grf_noise f sh g in (f, g', Ok (Some x))
    | CSample noise => let '(r, g') := grf_sample f noise g in
                       (f, g', match r with Ok x => Ok (Some x) | Err e => Err e end)
    | CMethod name => let '(r, f') := set_sampling_method f name in
                      (f', g, match r with Ok _ => Ok None | Err e => Err e end)
    | CReseed s => (f, grf_reseed s g, Ok None)
    end.

  (** A history of calls; exceptions are caught by the caller
      (gaussian_random_fields.py L137-242). *)
  Fixpoint grf_run (f : grf) (g : G) (cs : list grf_call) : grf * G * list (res (option array)) :=
    match cs with
    | [] => (f, g, [])
    | c :: cs' =>
        let '(f1, g1, r) := grf_step f g c in
        let '(f2, g2, rs) := grf_run f1 g1 cs' in
        (f2, g2, r :: rs)
    end.

End Sampling.
Arguments grf_noise {G} gauss f sh g.
Arguments grf_sample {G} gauss numbers f noise g.
Arguments grf_reseed {G} seeded seed g.
Arguments grf_step {G} gauss seeded numbers f g c.
Arguments grf_run {G} gauss seeded numbers f g cs.
