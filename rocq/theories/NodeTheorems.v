(** Property theorems about the noise and the single values of a generated field
    (C140, C141). *)

From Coq Require Import String Reals Lra Lia List Arith ZArith Bool.
From Verif Require Import Prelude SpectraModel GenModel GenSpec GenProofs GenMore GenApi GenPhys GenSeam GenDemo NodeSpec NodeProofs.
Import ListNotations.
Open Scope R_scope.

(** C140: the noise behind the blocks consists of the numbers of the random generator in
    order, scaled, planes after planes. *)
Theorem C140_noise : forall G (gauss : G -> R * G) gn0 gn g0, usable gn0 -> fresh gn0 g0 -> reached gauss gn0 gn ->
  let geo := gen_geo G gn0 in
  s_noise (gen_state G gn) = None
  \/ exists t, s_noise (gen_state G gn)
       = Some (white_noise (stream gauss g0) (gen_std G gn0) (cols geo) (layers geo) (t * g_Nx geo) (rows geo)).
Proof. exact stored_noise. Qed.
Print Assumptions C140_noise.

(** No number is used for two places ... *)
Theorem C140_once : forall ny nz x y z c x' y' z' c',
  (y < ny)%nat -> (y' < ny)%nat -> (z < nz)%nat -> (z' < nz)%nat -> (c < 3)%nat -> (c' < 3)%nat ->
  draw_number ny nz x y z c = draw_number ny nz x' y' z' c' -> x = x' /\ y = y' /\ z = z' /\ c = c'.
Proof. exact draw_number_inj. Qed.
Print Assumptions C140_once.

(** ... and none is skipped. *)
Theorem C140_none_skipped : forall ny nz m, (0 < ny)%nat -> (0 < nz)%nat ->
  exists x y z c, (y < ny)%nat /\ (z < nz)%nat /\ (c < 3)%nat /\ m = draw_number ny nz x y z c.
Proof. exact draw_number_onto. Qed.
Print Assumptions C140_none_skipped.

(** Extents of the noise and its amplitude: the least buffers which cover three times
    L Gamma and L, and a variance equal to the volume of a cell. *)
Theorem C140_sizes : forall stored G (seeded : Z -> G) sampler C2 (low_make : C2 -> G -> res (low_view * G)) a config w gn w' cs
  Lx Ly Lz lx ly lz,
  ga_dims a = (Lx, Ly, Lz) -> ga_levels a = (lx, ly, lz) -> 0 < Lx -> 0 < Ly -> 0 < Lz ->
  scales_of stored a = Ok cs -> 0 < cs_L cs -> 0 < cs_Gamma cs ->
  construct stored G seeded sampler C2 low_make a config w = Ok (gn, w') ->
  let geo := gen_geo G gn in
  exists nb my mz,
    rows geo = (2 ^ lx + 1 + 2 * nb + Z.to_nat (ga_blend a - 1))%nat
    /\ cols geo = (2 ^ ly + 1 + 2 * my)%nat /\ layers geo = (2 ^ lz + 1 + 2 * mz)%nat
    /\ g_nb geo = Z.of_nat nb /\ g_my geo = Z.of_nat my
    /\ (let dx := Lx / INR (2 ^ lx + 1) in 3 * cs_Gamma cs * cs_L cs <= INR nb * dx < 3 * cs_Gamma cs * cs_L cs + dx)
    /\ (let dy := Ly / INR (2 ^ ly + 1) in cs_L cs <= INR my * dy < cs_L cs + dy)
    /\ (let dz := Lz / INR (2 ^ lz + 1) in cs_L cs <= INR mz * dz < cs_L cs + dz)
    /\ 0 < gen_std G gn
    /\ (gen_std G gn)^2 * INR ((2 ^ lx + 1) * (2 ^ ly + 1) * (2 ^ lz + 1)) = Lx * Ly * Lz.
Proof. exact constructed_sizes. Qed.
Print Assumptions C140_sizes.

Example C140_case : usable (demo None) /\ fresh (demo None) 0%nat
  /\ node_value (white_noise (stream demo_gauss 0%nat) 1 4 4 2 4) 0 3 3 = Some (1 * 1, 1 * 1, 1 * 1)
  /\ node_value (white_noise (stream demo_gauss 0%nat) 1 4 4 2 4) 1 0 0 = Some (-2 * 1, -2 * 1, -2 * 1)
  /\ draw_number 4 4 3 0 0 0 = 144%nat.
Proof. split; [apply demo_usable|]. split; [reflexivity|]. split; [reflexivity|]. split; reflexivity. Qed.

(** C141: every value delivered by a successful call.  Node (p, q, r) of the i-th new
    block is the sampled field behind the buffer and margin, divided by the factor of the
    block, plus the mean profile at its layer in the first component, plus the
    low-frequency field at its position (the box centred across it) in the first two. *)
Theorem C141_values : forall G (gauss : G -> R * G) gn0 gn g0 n a f,
  usable gn0 -> fresh gn0 g0 -> reached gauss gn0 gn -> fst (gen_call G gauss n a gn) = Ok f ->
  let geo := gen_geo G gn0 in
  exists k, forall i, (i < Z.to_nat n)%nat ->
  exists prof sd, mean_profile geo a = Ok prof /\ 0 < sd
  /\ forall p q r, (p < g_Nx geo)%nat -> (q < g_Ny geo)%nat -> (r < g_Nz geo)%nat ->
     exists u v w m,
       node_value (gen_correlate G gn0 (white_noise (stream gauss g0) (gen_std G gn0) (cols geo) (layers geo)
                                          ((k + i) * g_Nx geo) (rows geo)))
                  (Z.to_nat (g_nb geo) + p) (Z.to_nat (g_my geo) + q) r = Some (u, v, w)
       /\ nth_error prof r = Some m
       /\ let low := low_value (gen_low G gn0) (INR (i * g_Nx geo + p) * (fst (fst (g_dims geo)) / INR (g_Nx geo)))
                       (centred (low_width (gen_low G gn0)) (snd (fst (g_dims geo))) (g_Ny geo) q) in
          node_value f (length (s_total (gen_state G gn)) + (i * g_Nx geo + p)) q r
          = Some (xadd (xadd (Fin (u / sd)) m) (Fin (fst low)), Fin (v / sd + snd low), Fin (w / sd)).
Proof. exact delivered_nodes. Qed.
Print Assumptions C141_values.

Example C141_case : exists f, fst (gen_call nat demo_gauss 2 demo_args (demo None)) = Ok f
  /\ exists sd, 0 < sd /\ exists u v w m, node_value f 3 1 0 = Some (xadd (xadd (Fin (u / sd)) m) (Fin 0), Fin (v / sd + 0), Fin (w / sd)).
Proof.
  destruct (demo_call 2 ltac:(lia)) as [f Hf]. exists f. split; [exact Hf|].
  destruct (C141_values nat demo_gauss (demo None) (demo None) 0%nat 2 demo_args f (demo_usable _) eq_refl
              (ex_intro _ [] eq_refl) Hf) as [k H].
  destruct (H 1%nat ltac:(cbn; lia)) as (prof & sd & _ & Hsd & HV). exists sd. split; [exact Hsd|].
  destruct (HV 1%nat 1%nat 0%nat ltac:(cbn; lia) ltac:(cbn; lia) ltac:(cbn; lia)) as (u & v & w & m & _ & _ & E).
  exists u, v, w, m. exact E.
Qed.
