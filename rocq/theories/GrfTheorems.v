(** Property theorems about the random field classes
    (drdmannturb/fluctuation_generation/gaussian_random_fields.py and the array shapes of
    sampling_methods.py).  Statements use the model of GrfModel.v and the specification
    vocabulary of GrfSpec.v. *)

From Coq Require Import String Reals List ZArith Lia.
From Verif Require Import Prelude GenModel GrfModel GrfSpec GrfProofs GrfMore.
Import ListNotations.
Open Scope R_scope.

(** C100, false: whatever documented method is selected, a scalar random field over any
    grid with more than one node is constructed, but sampling it never delivers an
    array over the grid. *)
Theorem C100_refuted : forall G (gauss : G -> R * G) numbers lx ly lz nx ny nz dx dy dz name g,
  In name documented -> (1 <= nx)%nat -> (1 <= ny)%nat -> (1 <= nz)%nat -> (1 < nx * ny * nz)%nat ->
  exists f, make_grf (per_axis lx ly lz nx ny nz dx dy dz name) = Ok f /\
            ~ delivers [nx; ny; nz] (fst (grf_sample gauss numbers f None g)).
Proof. exact C100_scalar_refuted. Qed.
Print Assumptions C100_refuted.

(** C100, what happens instead: the default method and the sine and cosine methods
    deliver a five-dimensional array cut along the wrong axes, "fftw" raises. *)
Theorem C100_outcomes : forall G (gauss : G -> R * G) numbers lx ly lz nx ny nz dx dy dz name g f,
  make_grf (per_axis lx ly lz nx ny nz dx dy dz name) = Ok f ->
  (name = "fft"%string \/ name = "dst"%string \/ name = "dct"%string ->
     delivers [Nat.min nx 3; Nat.min ny 3; Nat.min nz nx; ny; nz] (fst (grf_sample gauss numbers f None g))) /\
  (name = "fftw"%string -> fst (grf_sample gauss numbers f None g) = Err ValueError).
Proof. exact C100_outcomes_lemma. Qed.
Print Assumptions C100_outcomes.

(** C100 for vector fields: with noise of three components, "vf_fftw" is the one and only
    method which delivers a vector field over the grid. *)
Theorem C100_vector_partial : forall G (gauss : G -> R * G) numbers lx ly lz nx ny nz dx dy dz name g l,
  In name documented -> (1 <= nx)%nat -> (1 <= ny)%nat -> (1 <= nz)%nat ->
  exists f, make_vector_grf (per_axis lx ly lz nx ny nz dx dy dz name) = Ok f /\
    (delivers [nx; ny; nz; 3%nat] (fst (grf_sample gauss numbers f (Some ([nx; ny; nz; 3%nat], l)) g))
     <-> name = "vf_fftw"%string).
Proof. exact C100_vector_lemma. Qed.
Print Assumptions C100_vector_partial.

(** Hypotheses of C100 are met, and the delivered shape is concrete: a 4 x 5 x 6 grid. *)
Example C100_case : In "dct"%string documented /\ (1 < 4 * 5 * 6)%nat /\
  exists f, make_grf (per_axis 2 2 2 4 5 6 1 1 1 "fft") = Ok f /\
            delivers [3; 3; 4; 5; 6]%nat (fst (grf_sample (fun g : nat => (INR g, S g)) (fun _ x => snd x) f None 0%nat)).
Proof.
  split; [simpl; tauto|]. split; [lia|].
  eexists. split; [reflexivity|].
  refine (proj1 (C100_outcomes nat _ _ 2 2 2 4 5 6 1 1 1 "fft" 0%nat _ eq_refl) (or_introl eq_refl)).
Qed.

(** C101, false: a vector field sampled without giving noise raises on every grid with
    more than one node, because the noise drawn by default has no component axis. *)
Theorem C101_refuted : forall G (gauss : G -> R * G) numbers lx ly lz nx ny nz dx dy dz g,
  (1 <= nx)%nat -> (1 <= ny)%nat -> (1 <= nz)%nat -> (1 < nx * ny * nz)%nat ->
  exists f e, make_vector_grf (per_axis lx ly lz nx ny nz dx dy dz "vf_fftw") = Ok f /\
              fst (grf_sample gauss numbers f None g) = Err e.
Proof. exact C101_refuted_lemma. Qed.
Print Assumptions C101_refuted.

(** C101, the part which holds: noise drawn with the component axis spelled out is
    accepted and gives a vector field over the grid. *)
Theorem C101_given_noise_partial : forall G (gauss : G -> R * G) numbers lx ly lz nx ny nz dx dy dz g l,
  exists f, make_vector_grf (per_axis lx ly lz nx ny nz dx dy dz "vf_fftw") = Ok f /\
            delivers [nx; ny; nz; 3%nat] (fst (grf_sample gauss numbers f (Some ([nx; ny; nz; 3%nat], l)) g)) /\
            delivers [nx; ny; nz; 3%nat] (Ok (fst (grf_noise gauss f (Some [nx; ny; nz; 3%nat]) g))).
Proof. exact C101_given_noise_lemma. Qed.
Print Assumptions C101_given_noise_partial.

(** C101: noise with more than three components, over the grid or repeated along it, is
    rejected with IndexError. *)
Theorem C101_components_partial : forall G (gauss : G -> R * G) numbers lx ly lz nx ny nz dx dy dz g l a b c n f, (4 <= n)%nat ->
  (a = nx \/ a = 1%nat) -> (b = ny \/ b = 1%nat) -> (c = nz \/ c = 1%nat) ->
  make_vector_grf (per_axis lx ly lz nx ny nz dx dy dz "vf_fftw") = Ok f ->
  fst (grf_sample gauss numbers f (Some ([a; b; c; n], l)) g) = Err IndexError.
Proof. exact components_rejected. Qed.
Print Assumptions C101_components_partial.

(** A 9 x 5 x 5 grid meets the hypotheses of C101_refuted. *)
Example C101_case : exists f e, make_vector_grf (per_axis 3 2 2 9 5 5 1 1 1 "vf_fftw") = Ok f /\
  fst (grf_sample (fun g : nat => (INR g, S g)) (fun _ x => snd x) f None 0%nat) = Err e.
Proof. apply C101_refuted; lia. Qed.

(** C102: with one level per axis the noise variance is the volume of a grid cell. *)
Theorem C102_per_axis : forall lx ly lz nx ny nz dx dy dz name f,
  (1 <= nx)%nat -> (1 <= ny)%nat -> (1 <= nz)%nat -> 0 < dx -> 0 < dy -> 0 < dz ->
  make_grf (per_axis lx ly lz nx ny nz dx dy dz name) = Ok f ->
  (f_std f) ^ 2 = Rprod (node_distance f) /\ 0 < f_std f.
Proof. exact C102_per_axis_lemma. Qed.
Print Assumptions C102_per_axis.

(** C102, false for a single level: the noise variance is the volume of a cell only on
    level 0. *)
Theorem C102_refuted : forall l n dims name f, (1 <= n)%nat ->
  make_grf (scalar_args l n dims name) = Ok f ->
  ((f_std f) ^ 2 = Rprod (node_distance f) <-> l = 0%nat).
Proof. exact C102_refuted_lemma. Qed.
Print Assumptions C102_refuted.

(** Both constructions succeed, on level 3 with 8 nodes. *)
Example C102_case :
  (exists f, make_grf (scalar_args 3 8 [1; 1; 1] "vf_fftw") = Ok f) /\
  (exists f, make_grf (per_axis 3 2 2 9 5 5 1 2 3 "vf_fftw") = Ok f).
Proof. split; eexists; reflexivity. Qed.

(** C103, false: a sampling method which is not documented is rejected, yet it is
    afterwards reported as the method of the field. *)
Theorem C103_refuted : forall G (gauss : G -> R * G) (seeded : Z -> G) numbers a f g name old,
  make_grf a = Ok f -> ~ In name documented -> old = f_method f ->
  exists f', grf_step gauss seeded numbers f g (CMethod name) = (f', g, Err GenericException) /\
             f_method f' = name /\ f_method f' <> old.
Proof. exact C103_refuted_lemma. Qed.
Print Assumptions C103_refuted.

(** C103, the part which holds: after the rejection every later call delivers what it
    would have delivered without it. *)
Theorem C103_partial : forall G (gauss : G -> R * G) (seeded : Z -> G) numbers f g name cs,
  ~ In name documented ->
  skipn 1 (snd (grf_run gauss seeded numbers f g (CMethod name :: cs))) =
  snd (grf_run gauss seeded numbers f g cs).
Proof. exact C103_partial_lemma. Qed.
Print Assumptions C103_partial.

(** A misspelt name is not documented. *)
Example C103_case : ~ In "FFT"%string documented /\ exists f, make_grf (scalar_args 3 8 [1; 1; 1] "fft") = Ok f.
Proof. split; [simpl; intuition discriminate|]. eexists; reflexivity. Qed.

(** C104, false: the default value of grid_shape is accepted by no combination of the
    other arguments. *)
Theorem C104_refuted : forall level dims ndim name, exists e,
  make_grf (GrfArgs level SNone dims ndim name) = Err e.
Proof. exact C104_refuted_lemma. Qed.
Print Assumptions C104_refuted.

(** The same arguments with an explicit shape are accepted. *)
Example C104_case : exists f, make_grf (GrfArgs (LArray [3; 2; 2]%nat) (SArray [9; 5; 5]%nat) [1; 1; 1] 3 "fft") = Ok f.
Proof. eexists. reflexivity. Qed.

(** C105: after reseeding, every later noise and sample is the same whatever was drawn
    before and whatever state the generator was in. *)
Theorem C105_reseed : forall G (gauss : G -> R * G) (seeded : Z -> G) numbers f pre pre' cs s g g',
  List.Forall keeps_method pre -> List.Forall keeps_method pre' ->
  skipn (length pre) (snd (grf_run gauss seeded numbers f g (pre ++ CReseed s :: cs))) =
  skipn (length pre') (snd (grf_run gauss seeded numbers f g' (pre' ++ CReseed s :: cs))).
Proof. exact C105_reseed_lemma. Qed.
Print Assumptions C105_reseed.

(** C105: successive noise arrays are successive stretches of the stream of the seed,
    scaled by the noise amplitude: no draw is skipped or used twice. *)
Theorem C105_stream : forall G (gauss : G -> R * G) (seeded : Z -> G) numbers f s sh1 sh2 g f' g' r,
  grf_run gauss seeded numbers f g [CReseed s; CNoise (Some sh1); CNoise (Some sh2)] = (f', g', r) ->
  exists x1 x2, r = [Ok None; Ok (Some (sh1, x1)); Ok (Some (sh2, x2))] /\ length x1 = entries sh1 /\ length x2 = entries sh2 /\
    x1 ++ x2 = map (fun x => x * f_std f) (stream gauss (entries sh1 + entries sh2) (seeded s)).
Proof. exact C105_stream_lemma. Qed.
Print Assumptions C105_stream.

(** C105: sampling given noise neither uses nor changes the random state. *)
Theorem C105_given_noise : forall G (gauss : G -> R * G) numbers f x g g',
  snd (grf_sample gauss numbers f (Some x) g) = g /\
  fst (grf_sample gauss numbers f (Some x) g) = fst (grf_sample gauss numbers f (Some x) g').
Proof. exact C105_given_noise_lemma. Qed.
Print Assumptions C105_given_noise.

(** Histories with draws, samples, rejected methods and reseeding keep the method; the
    stream of a counting generator is not constant. *)
Example C105_case :
  List.Forall keeps_method [CNoise (Some [2; 2]%nat); CSample None; CMethod "FFT"; CReseed 4%Z] /\
  entries [2; 3; 4]%nat = 24%nat /\
  stream (fun g : nat => (INR g, S g)) 2 5%nat = [INR 5; INR 6].
Proof.
  split; [|split; reflexivity].
  repeat constructor; simpl; intuition discriminate.
Qed.

(** C106: with one level per axis and the node counts of these levels, the periodic
    domain has the requested dimensions. *)
Theorem C106_per_axis : forall lx ly lz dx dy dz name f,
  make_grf (per_axis lx ly lz (nodes lx) (nodes ly) (nodes lz) dx dy dz name) = Ok f -> f_lengths f = [dx; dy; dz].
Proof. exact C106_per_axis_lemma. Qed.
Print Assumptions C106_per_axis.

(** C106, false for a single level: the requested dimensions are ignored and every axis
    gets the length node count / 2^level. *)
Theorem C106_refuted : forall l n dims name, (1 <= n)%nat -> In name documented ->
  exists f, make_grf (scalar_args l n dims name) = Ok f /\
            f_lengths f = [INR n / 2 ^ l; INR n / 2 ^ l; INR n / 2 ^ l].
Proof. exact C106_refuted_lemma. Qed.
Print Assumptions C106_refuted.

(** Level 2 and 5 nodes: both constructions succeed. *)
Example C106_case :
  (exists f, make_grf (scalar_args 2 5 [100; 50; 50] "fft") = Ok f) /\
  (exists f, make_grf (per_axis 3 2 2 (nodes 3) (nodes 2) (nodes 2) 100 50 50 "fft") = Ok f).
Proof. split; eexists; reflexivity. Qed.

(** C151: selecting a documented method later is the same, for every later history of
    calls, as constructing the field with this method. *)
Theorem C151_selected_later : forall G (gauss : G -> R * G) (seeded : Z -> G) numbers a f g name cs, In name documented -> make_grf a = Ok f ->
  exists f', make_grf (with_method name a) = Ok f' /\ snd (grf_run gauss seeded numbers f g (CMethod name :: cs)) = Ok None :: snd (grf_run gauss seeded numbers f' g cs).
Proof. exact selected_later. Qed.
Print Assumptions C151_selected_later.

Theorem C151_selected_later_vector : forall G (gauss : G -> R * G) (seeded : Z -> G) numbers a f g name cs, In name documented -> make_vector_grf a = Ok f ->
  exists f', make_vector_grf (with_method name a) = Ok f' /\ snd (grf_run gauss seeded numbers f g (CMethod name :: cs)) = Ok None :: snd (grf_run gauss seeded numbers f' g cs).
Proof. exact selected_later_vector. Qed.
Print Assumptions C151_selected_later_vector.

(** The choice matters: after the selection of "vf_fftw" a field built for "fftw" accepts
    the noise which it rejected before. *)
Example C151_case : In "vf_fftw"%string documented /\
  exists f, make_vector_grf (per_axis 2 2 2 5 5 5 1 1 1 "fftw") = Ok f /\
    snd (grf_run (fun g : nat => (INR g, S g)) (fun _ => 0%nat) (fun _ x => snd x) f 0%nat
      [CSample (Some ([5; 5; 5; 3]%nat, [1])); CMethod "vf_fftw"; CSample (Some ([5; 5; 5; 3]%nat, [1]))])
    = [Err ValueError; Ok None; Ok (Some ([5; 5; 5; 3]%nat, [1]))].
Proof. split; [simpl; tauto|]. eexists. split; reflexivity. Qed.

(** C152: only three-dimensional fields are constructed; for every other number of
    dimensions the constructor raises, whatever the other arguments (for a single
    extent: at least two nodes). *)
Theorem C152_three_dimensions : forall a, ga_ndim a <> 3%nat -> has_extent a -> exists e, make_grf a = Err e.
Proof. exact only_three. Qed.
Print Assumptions C152_three_dimensions.

(** Two dimensions raise where three succeed. *)
Example C152_case : has_extent (GrfArgs (LScalar 3) (SScalar 9) [1; 1; 1] 2 "fft") /\
  make_grf (GrfArgs (LScalar 3) (SScalar 9) [1; 1; 1] 2 "fft") = Err IndexError /\ exists f, make_grf (GrfArgs (LScalar 3) (SScalar 9) [1; 1; 1] 3 "fft") = Ok f.
Proof. split; [unfold has_extent; cbn [ga_shape]; lia|]. split; [reflexivity|]. eexists; reflexivity. Qed.
