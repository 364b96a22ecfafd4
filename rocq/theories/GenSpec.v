(** Independent vocabulary for the statements about the field generator. *)

From Coq Require Import String Reals List ZArith.
From Verif Require Import Prelude GenModel.
Import ListNotations.
Open Scope R_scope.

(** A sensible geometry: every extent positive, a buffer and margins of at least
    one node. *)
Definition sound (g : geometry) : Prop :=
  (2 <= g_Nx g)%nat /\ (2 <= g_Ny g)%nat /\ g_Nz g = nodes (g_lz g) /\ (0 < g_nb g)%Z /\ (0 < g_my g)%Z /\ (0 < g_mz g)%Z.

(** Number of rows of the noise array and its transverse extents. *)
Definition rows (g : geometry) : nat := let '(n, _, _) := noise_shape g in Z.to_nat n.
Definition cols (g : geometry) : nat := let '(_, n, _) := noise_shape g in Z.to_nat n.
Definition layers (g : geometry) : nat := let '(_, _, n) := noise_shape g in Z.to_nat n.

(** A sampler keeps the shape of its argument. *)
Definition shape_preserving (correlate : field R -> field R) : Prop :=
  forall nx ny nz f, shaped nx ny nz f -> shaped nx ny nz (correlate f).

(** Item number [r] of the infinite stream obtained by repeating a draw. *)
Fixpoint stream {G A : Type} (one : G -> A * G) (g : G) (r : nat) : A :=
  match r with
  | O => fst (one g)
  | S m => stream one (snd (one g)) m
  end.

(** State of the random generator after [r] draws. *)
Fixpoint after {G A : Type} (one : G -> A * G) (g : G) (r : nat) : G :=
  match r with
  | O => g
  | S m => after one (snd (one g)) m
  end.

(** [n] consecutive items of a sequence, starting at number [a]. *)
Definition window {A : Type} (s : nat -> A) (a n : nat) : list A := map (fun i => s (a + i)%nat) (seq 0 n).

(** The infinite noise of a generator: planes drawn one after the other. *)
Definition noise_stream {G : Type} (gauss : G -> R * G) (geo : geometry) (std : R) (g : G) : nat -> list (list (R * R * R)) :=
  stream (draw_plane gauss std (cols geo) (layers geo)) g.

(** Arguments `generate` must reject. *)
Definition bad_profile (a : profile_args) : Prop :=
  (p_type a <> "LOG" /\ p_type a <> "PL")%string
  \/ p_zref a <= 0 \/ p_uref a <= 0 \/ p_z0 a <= 0
  \/ (p_type a = "PL"%string /\ p_exp a = None).

(** A block contains a nonzero value. *)
Definition nonzero (f : field R) : Prop := exists v, In v (entries f) /\ v <> 0.

(** Pointwise maps of arrays. *)
Definition fmap {A B : Type} (h : A -> B) (f : field A) : field B :=
  map (map (map (fun v => match v with (a, b, d) => (h a, h b, h d) end))) f.

(** Adding a profile that depends on the layer only to the first component. *)
Definition with_profile (prof : list xr) (f : field R) : field xr :=
  map (map (fun c => map (fun vm => match vm with ((a, b, d), m) => (xadd (Fin a) m, Fin b, Fin d) end) (combine c prof))) f.

(** Root-mean-square equal to one. *)
Definition unit_energy (f : field R) : Prop := Rmean (map (fun v => v^2) (entries f)) = 1.

(** Raw blocks delivered by consecutive internal block generations. *)
Fixpoint raw_blocks {G : Type} (gauss : G -> R * G) (geo : geometry) (std : R) (correlate : field R -> field R)
    (n : nat) (s : gstate G) : list (field R) :=
  match n with
  | O => []
  | S m => match generate_block gauss geo std correlate s with
           | (Ok b, s1) => b :: raw_blocks gauss geo std correlate m s1
           | (Err _, _) => []
           end
  end.

(** Part of a plane that is delivered. *)
Definition crop (g : geometry) (p : list (list (R * R * R))) : list (list (R * R * R)) :=
  map (firstn (g_Nz g)) (firstn (g_Ny g) (skipn (Z.to_nat (g_my g)) p)).

(** A sampler whose output rows, away from the two ends by the buffer, are a fixed
    function of the surrounding rows (a correlation kernel with support within the
    buffer). *)
Definition local_sampler (g : geometry) (correlate : field R -> field R) (K : list (list (list (R * R * R))) -> list (list (R * R * R))) : Prop :=
  forall f, length f = rows g ->
    length (correlate f) = length f
    /\ forall i, (i < length f - 2 * Z.to_nat (g_nb g))%nat ->
         nth_error (correlate f) (i + Z.to_nat (g_nb g)) = Some (K (firstn (2 * Z.to_nat (g_nb g) + 1) (skipn i f))).

(** Raw (not normalised) block number [t] of a generator whose random stream starts
    at [g0]. *)
Definition raw_block {G : Type} (gauss : G -> R * G) (geo : geometry) (std : R) (correlate : field R -> field R)
    (g0 : G) (t : nat) : field R :=
  trim geo (central_part geo (correlate (window (noise_stream gauss geo std g0) (t * g_Nx geo) (rows geo)))).

(** A generator just constructed, whose random stream starts at [g0]. *)
Definition fresh {G : Type} (gn : generator G) (g0 : G) : Prop := gen_state G gn = GState None [] g0 None.

(** A generator with a sensible geometry and a shape-preserving sampler. *)
Definition usable {G : Type} (gn : generator G) : Prop :=
  sound (gen_geo G gn) /\ shape_preserving (gen_correlate G gn).

(** Reached from [gn0] by some sequence of generate calls, whatever their outcomes. *)
Definition reached {G : Type} (gauss : G -> R * G) (gn0 gn : generator G) : Prop :=
  exists calls, gn = snd (gen_calls G gauss calls gn0).

(** Profile arguments block by block. *)
Definition block_args (calls : list (Z * profile_args)) : list profile_args :=
  flat_map (fun c => repeat (snd c) (Z.to_nat (fst c))) calls.

(** No call raised. *)
Definition all_ok {A : Type} (rs : list (res A)) : Prop := Forall (fun r => exists v, r = Ok v) rs.

(** Mean of the squares of all entries. *)
Definition energy (f : field R) : R := Rmean (map (fun v => v^2) (entries f)).

(** All values of a profile are numbers. *)
Definition finite_profile (prof : list xr) : Prop := Forall (fun m => exists v, m = Fin v) prof.

(** Extents of one plane. *)
Definition plane_ok (ny nz : nat) (p : list (list (R * R * R))) : Prop :=
  length p = ny /\ Forall (fun c => length c = nz) p.

(** A low-frequency field, when configured, has been generated. *)
Definition low_ready (low : option low_view) : Prop :=
  match low with
  | None => True
  | Some lv => lv_interp lv <> None
  end.

(** After [k] attempted blocks: the stored noise, if any, is the window of block
    [k - 1]; the random generator is where that window ends. *)
Definition attempted {G : Type} (gauss : G -> R * G) (gn0 : generator G) (g0 : G) (k : nat) (s : gstate G) : Prop :=
  let geo := gen_geo G gn0 in
  let one := draw_plane gauss (gen_std G gn0) (cols geo) (layers geo) in
  match k with
  | O => s_noise s = None /\ s_rng s = g0
  | S t => s_noise s = Some (window (noise_stream gauss geo (gen_std G gn0) g0) (t * g_Nx geo) (rows geo))
           /\ s_rng s = after one g0 (rows geo + t * g_Nx geo)
  end.

(** Filtering along the first axis with a kernel of [nb] planes on each side,
    periodically continued. *)
Definition cyclic_filter (nb : nat) (K : list (list (list (R * R * R))) -> list (list (R * R * R))) (f : field R) : field R :=
  map (fun i => K (map (fun r => nth ((i + length f + r - nb) mod length f) f []) (seq 0 (2 * nb + 1)))) (seq 0 (length f)).

(** Arrays whose divergence can be formed, and their nodes. *)
Definition grid_ok (f : garray) : Prop := (2 <= ar_nx f)%nat /\ (2 <= ar_ny f)%nat /\ (2 <= ar_nz f)%nat /\ ar_nc f = 3%nat.
Definition inside (f : garray) (i j k : nat) : Prop := (i < ar_nx f)%nat /\ (j < ar_ny f)%nat /\ (k < ar_nz f)%nat.
