(** Property theorems about generated fields at physical positions (C142, C143). *)

From Coq Require Import String Reals Lra Lia List Arith ZArith Bool.
From Coquelicot Require Import Complex.
From Verif Require Import Prelude RdtModel RdtSpec SpectraModel GenModel GenSpec GenDemo DftModel DftSpec DftField EndSpec EndProofs EndDft EndTheorems
  LowModel LowSpec LowMore LowDemo NodeSpec SiteSpec SiteProofs SiteLow.
Import ListNotations.
Open Scope R_scope.

(** C142: covariance of the field sampled by a constructed generator from unit normal
    noise of the amplitude the generator uses.  Between two nodes it is the mean, over
    the wave vectors of the box of the noise, of the tensor of the model, turned by
    k . (x - x') with x and x' the positions at the node distances of the requested
    grid; for every size of the noise, with the pairing of opposite modes made by the
    real transform. *)
Theorem C142_any_size : forall hyp net h_ref stored G (seeded : Z -> G) C2 (low_make : C2 -> G -> res (low_view * G)) a config w gn w' cs
  Lx Ly Lz lx ly lz,
  ga_dims a = (Lx, Ly, Lz) -> ga_levels a = (lx, ly, lz) -> 0 < Lx -> 0 < Ly -> 0 < Lz ->
  scales_of stored a = Ok cs -> 0 < cs_L cs -> 0 < cs_Gamma cs ->
  construct stored G seeded (vf_sampler hyp net h_ref) C2 low_make a config w = Ok (gn, w') ->
  let d := (rows (gen_geo G gn), cols (gen_geo G gn), layers (gen_geo G gn)) in
  let h := (Lx / INR (2 ^ lx + 1), Ly / INR (2 ^ ly + 1), Lz / INR (2 ^ lz + 1)) in
  forall i j x x', on_grid d x -> on_grid d x' ->
  RtoC (noise_covariance (gen_std G gn) d (fun n => component_at (gen_correlate G gn (laid_out d n))) i j x x')
  = phase_mean h d (fun m => covariance (paired d (kernel_at (model_kernel hyp net h_ref (ga_model a) cs) (periodic_box h d) d) m) i j) x x'.
Proof. exact site_covariance. Qed.
Print Assumptions C142_any_size.

(** For an odd blending number the pairing changes nothing. *)
Theorem C142_odd : forall hyp net h_ref stored G (seeded : Z -> G) C2 (low_make : C2 -> G -> res (low_view * G)) a config w gn w' cs
  Lx Ly Lz lx ly lz m,
  (forall k1 k2 k3, net (- k1) (- k2) (- k3) = net k1 k2 k3) ->
  ga_dims a = (Lx, Ly, Lz) -> ga_levels a = (S lx, S ly, S lz) -> 0 < Lx -> 0 < Ly -> 0 < Lz ->
  ga_blend a = (2 * Z.of_nat m + 1)%Z ->
  scales_of stored a = Ok cs -> 0 < cs_L cs -> 0 < cs_Gamma cs ->
  construct stored G seeded (vf_sampler hyp net h_ref) C2 low_make a config w = Ok (gn, w') ->
  let d := (rows (gen_geo G gn), cols (gen_geo G gn), layers (gen_geo G gn)) in
  let h := (Lx / INR (2 ^ S lx + 1), Ly / INR (2 ^ S ly + 1), Lz / INR (2 ^ S lz + 1)) in
  forall i j x x', on_grid d x -> on_grid d x' ->
  RtoC (noise_covariance (gen_std G gn) d (fun n => component_at (gen_correlate G gn (laid_out d n))) i j x x')
  = phase_mean h d (fun m => covariance (kernel_at (model_kernel hyp net h_ref (ga_model a) cs) (periodic_box h d) d m) i j) x x'.
Proof. exact site_covariance_odd. Qed.
Print Assumptions C142_odd.

Definition odd_args : gen_args := GenArgs 1 10 (1, 2, 1) (1, 1, 1)%nat "Mann" (Some 1) (Some 1) (Some 1) None (Some 3%Z) 9.

Example C142_case : exists cs gn w', scales_of (fun _ => Err FileNotFoundError) odd_args = Ok cs /\ 0 < cs_L cs /\ 0 < cs_Gamma cs
  /\ ga_blend odd_args = (2 * Z.of_nat 4 + 1)%Z
  /\ construct (fun _ => Err FileNotFoundError) nat (fun _ => 0%nat) (vf_sampler (fun x => 1 + x^2) (fun _ _ _ => 0) 10) unit (fun _ _ => Err RuntimeError)
        odd_args None (World nat 7%nat 9%nat) = Ok (gn, w')
  /\ on_grid (rows (gen_geo nat gn), cols (gen_geo nat gn), layers (gen_geo nat gn)) (2, 1, 0)%nat.
Proof.
  destruct (classic_scales (fun _ => Err FileNotFoundError) odd_args 1 1 1) as (E0 & HE & _); try reflexivity; try (cbn; lra); [right; reflexivity|].
  destruct (GenPhys.geometry_sound 1 2 1 1 1 1 1 1 9) as (g & Hg & _); try lra.
  assert (HC : construct (fun _ => Err FileNotFoundError) nat (fun _ => 0%nat) (vf_sampler (fun x => 1 + x^2) (fun _ _ _ => 0) 10) unit (fun _ _ => Err RuntimeError)
        odd_args None (World nat 7%nat 9%nat) = Ok (Generator nat g (noise_std (1, 2, 1) (1, 1, 1)%nat)
          (vf_sampler (fun x => 1 + x^2) (fun _ _ _ => 0) 10 "Mann" (CovScales 1 1 E0) g) None (GState None [] 0%nat None), World nat 7%nat 9%nat)).
  { unfold construct. rewrite HE. cbn [bind cs_L cs_Gamma].
    change (ga_dims odd_args) with (1, 2, 1). change (ga_levels odd_args) with (1, 1, 1)%nat. change (ga_blend odd_args) with 9%Z.
    rewrite Hg. cbn [bind]. reflexivity. }
  do 3 eexists. split; [exact HE|]. split; [cbn; lra|]. split; [cbn; lra|]. split; [reflexivity|]. split; [exact HC|].
  destruct (NodeProofs.constructed_sizes _ _ _ _ _ _ odd_args _ _ _ _ _ 1 2 1 1%nat 1%nat 1%nat eq_refl eq_refl ltac:(lra) ltac:(lra) ltac:(lra) HE ltac:(cbn; lra) ltac:(cbn; lra) HC)
    as (nb & my & mz & -> & -> & -> & _). unfold on_grid. cbn [Nat.pow]. lia.
Qed.

(** C143: the low-frequency field added to the values is the one drawn from the global
    random state: bilinear between its nodes where these exist, and zero elsewhere. *)
Theorem C143_value_partial : forall stored G (gauss : G -> R * G) (seeded : Z -> G) sampler quad a cfg w gn w',
  positive_lengths cfg ->
  construct stored G seeded sampler low_config (make_low gauss quad) a (Some cfg) w = Ok (gn, w') ->
  exists w0 w1 u1 u2, low_construct quad cfg = Ok w0 /\ fst (low_generate gauss w0 (w_global G w)) = Ok w1 /\ lw_u w1 = Some (u1, u2)
  /\ low_width (gen_low G gn) = asked_L2 cfg
  /\ (forall i j x y, (S i < 2 ^ lc_e1 cfg)%nat -> (S j < 2 ^ lc_e2 cfg)%nat ->
        INR i * asked_dx cfg <= x <= INR (S i) * asked_dx cfg -> INR j * asked_dy cfg <= y <= INR (S j) * asked_dy cfg ->
        low_value (gen_low G gn) x y = (bilinear u1 (asked_dx cfg) (asked_dy cfg) i j x y, bilinear u2 (asked_dx cfg) (asked_dy cfg) i j x y))
  /\ (forall x y, x < 0 \/ asked_L1 cfg - asked_dx cfg < x \/ y < 0 \/ asked_L2 cfg - asked_dy cfg < y -> low_value (gen_low G gn) x y = (0, 0)).
Proof. exact low_part. Qed.
Print Assumptions C143_value_partial.

(** The blocks of a call which start beyond the end of the low-frequency field carry no
    low-frequency content at any node, and the call succeeds. *)
Theorem C143_refuted : forall stored G (gauss : G -> R * G) (seeded : Z -> G) sampler quad a cfg w gn0 w' cs Lx Ly Lz,
  (forall model cs geo, shape_preserving (sampler model cs geo)) ->
  ga_dims a = (Lx, Ly, Lz) -> 0 < Lx -> 0 < Ly -> 0 < Lz -> scales_of stored a = Ok cs -> 0 < cs_L cs -> 0 < cs_Gamma cs ->
  positive_lengths cfg ->
  construct stored G seeded sampler low_config (make_low gauss quad) a (Some cfg) w = Ok (gn0, w') ->
  forall gn n pa f, reached gauss gn0 gn -> fst (gen_call G gauss n pa gn) = Ok f ->
  let geo := gen_geo G gn0 in
  let g0 := match ga_seed a with Some s => seeded s | None => w_entropy G w end in
  exists k, forall i, (i < Z.to_nat n)%nat -> asked_L1 cfg <= INR i * Lx ->
  exists prof sd, mean_profile geo pa = Ok prof /\ 0 < sd
  /\ forall p q r, (p < g_Nx geo)%nat -> (q < g_Ny geo)%nat -> (r < g_Nz geo)%nat ->
     exists u v s m,
       node_value (gen_correlate G gn0 (white_noise (stream gauss g0) (gen_std G gn0) (cols geo) (layers geo)
                                          ((k + i) * g_Nx geo) (rows geo)))
                  (Z.to_nat (g_nb geo) + p) (Z.to_nat (g_my geo) + q) r = Some (u, v, s)
       /\ nth_error prof r = Some m
       /\ node_value f (length (s_total (gen_state G gn)) + (i * g_Nx geo + p)) q r = Some (xadd (Fin (u / sd)) m, Fin (v / sd), Fin (s / sd)).
Proof. exact no_low_blocks. Qed.
Print Assumptions C143_refuted.

(** Six blocks of length two over a low-frequency field of length ten: generation
    succeeds, the low-frequency field is not zero in the first block, and the sixth block
    starts beyond it. *)
Example C143_case : forall stored, exists gn0 w' f,
  construct stored nat (fun _ => 5%nat) (fun _ _ _ x => x) low_config (make_low plane_gauss unit_quad) combo_args (Some plane_cfg) (World nat 0%nat 9%nat) = Ok (gn0, w')
  /\ fst (gen_call nat plane_gauss 6 demo_args gn0) = Ok f
  /\ (forall x, 0 < x <= 5/2 -> snd (low_value (gen_low nat gn0) x 0) <> 0)
  /\ positive_lengths plane_cfg /\ (5 < Z.to_nat 6)%nat /\ asked_L1 plane_cfg <= INR 5 * 2
  /\ shape_preserving (fun x => x)
  /\ INR 1 * asked_dx plane_cfg <= 3 <= INR 2 * asked_dx plane_cfg.
Proof.
  intros stored. destruct (six_blocks stored) as (gn0 & w' & f & H1 & H2 & H3). exists gn0, w', f. split; [exact H1|]. split; [exact H2|]. split; [exact H3|].
  split; [exact plane_positive|]. split; [cbn; lia|]. destruct plane_spacing as [-> _]. split; [unfold asked_L1, plane_cfg; cbn; lra|].
  split; [intros nx ny nz v H; exact H|cbn; lra].
Qed.
