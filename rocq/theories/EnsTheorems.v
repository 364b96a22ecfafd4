(** Property theorems about averages of generated blocks over random seeds (C175). *)

From Coq Require Import String Reals Lra Lia List Arith ZArith Bool.
From Coquelicot Require Import Complex.
From Verif Require Import Prelude RdtModel RdtSpec GenModel GenSpec DftModel DftSpec DftField EndSpec LowModel EstSpec EstLimit SiteSpec SiteTheorems EnsSpec EnsProofs.
Import ListNotations.
Open Scope R_scope.

(** C175: over seeds whose first draws are uncorrelated with unit mean square, the
    product of two values of the same block, before the block is divided by its standard
    deviation, averages to the prescribed covariance of their separation: for every
    block, and wherever in the block the two nodes are. *)
Theorem C175_within : forall hyp net h_ref stored G (seeded : Z -> G) C2 (low_make : C2 -> G -> res (low_view * G)) a config w w' gn cs
  Lx Ly Lz lx ly lz gauss,
  ga_dims a = (Lx, Ly, Lz) -> ga_levels a = (lx, ly, lz) -> 0 < Lx -> 0 < Ly -> 0 < Lz ->
  scales_of stored a = Ok cs -> 0 < cs_L cs -> 0 < cs_Gamma cs ->
  construct stored G seeded (vf_sampler hyp net h_ref) C2 low_make a config w = Ok (gn, w') ->
  forall ens t N i j x x', (draws_until (gen_geo G gn) t <= N)%nat -> white gauss N ens ->
  in_block (gen_geo G gn) x -> in_block (gen_geo G gn) x' ->
  let h := (Lx / INR (2 ^ lx + 1), Ly / INR (2 ^ ly + 1), Lz / INR (2 ^ lz + 1)) in
  let d := noise_grid (gen_geo G gn) in
  RtoC (mean ens (fun g => block_value gauss gn t i x g * block_value gauss gn t j x' g))
  = phase_mean h d (fun m => covariance (paired d (kernel_at (model_kernel hyp net h_ref (ga_model a) cs) (periodic_box h d) d) m) i j) x x'.
Proof. exact within_covariance. Qed.
Print Assumptions C175_within.

(** Values of two blocks are correlated through the noise both blocks use and through
    nothing else: the row [a] of the later noise array is the row [s + a] of the earlier
    one, with [s] the rows by which the later block is ahead. *)
Theorem C175_shared : forall hyp net h_ref stored G (seeded : Z -> G) C2 (low_make : C2 -> G -> res (low_view * G)) a config w w' gn cs
  Lx Ly Lz lx ly lz gauss,
  ga_dims a = (Lx, Ly, Lz) -> ga_levels a = (lx, ly, lz) -> 0 < Lx -> 0 < Ly -> 0 < Lz ->
  scales_of stored a = Ok cs -> 0 < cs_L cs -> 0 < cs_Gamma cs ->
  construct stored G seeded (vf_sampler hyp net h_ref) C2 low_make a config w = Ok (gn, w') ->
  forall ens t t' N i j x x', (t <= t')%nat -> (draws_until (gen_geo G gn) t' <= N)%nat -> white gauss N ens ->
  in_block (gen_geo G gn) x -> in_block (gen_geo G gn) x' ->
  let s := ((t' - t) * g_Nx (gen_geo G gn))%nat in
  mean ens (fun g => block_value gauss gn t i x g * block_value gauss gn t' j x' g)
  = Rsum (map (fun y => sum3 (fun l => if (s + row_of y <? rows (gen_geo G gn))%nat
                                       then response gn l (rows_on s y) i x * response gn l y j x' else 0))
              (nodes_of (noise_grid (gen_geo G gn)))).
Proof. exact shared_covariance. Qed.
Print Assumptions C175_shared.

(** Blocks further apart than the noise array is long are uncorrelated. *)
Theorem C175_far : forall hyp net h_ref stored G (seeded : Z -> G) C2 (low_make : C2 -> G -> res (low_view * G)) a config w w' gn cs
  Lx Ly Lz lx ly lz gauss,
  ga_dims a = (Lx, Ly, Lz) -> ga_levels a = (lx, ly, lz) -> 0 < Lx -> 0 < Ly -> 0 < Lz ->
  scales_of stored a = Ok cs -> 0 < cs_L cs -> 0 < cs_Gamma cs ->
  construct stored G seeded (vf_sampler hyp net h_ref) C2 low_make a config w = Ok (gn, w') ->
  forall ens t t' N i j x x', (t * g_Nx (gen_geo G gn) + rows (gen_geo G gn) <= t' * g_Nx (gen_geo G gn))%nat ->
  (draws_until (gen_geo G gn) t' <= N)%nat -> white gauss N ens ->
  in_block (gen_geo G gn) x -> in_block (gen_geo G gn) x' ->
  mean ens (fun g => block_value gauss gn t i x g * block_value gauss gn t' j x' g) = 0.
Proof. exact far_blocks. Qed.
Print Assumptions C175_far.

(** If the draws have mean zero, so have the values of every block. *)
Theorem C175_centred : forall hyp net h_ref stored G (seeded : Z -> G) C2 (low_make : C2 -> G -> res (low_view * G)) a config w w' gn cs
  Lx Ly Lz lx ly lz gauss,
  ga_dims a = (Lx, Ly, Lz) -> ga_levels a = (lx, ly, lz) -> 0 < Lx -> 0 < Ly -> 0 < Lz ->
  scales_of stored a = Ok cs -> 0 < cs_L cs -> 0 < cs_Gamma cs ->
  construct stored G seeded (vf_sampler hyp net h_ref) C2 low_make a config w = Ok (gn, w') ->
  forall ens t N i x, (draws_until (gen_geo G gn) t <= N)%nat -> (forall m, (m < N)%nat -> mean ens (fun g => stream gauss g m) = 0) ->
  in_block (gen_geo G gn) x -> mean ens (fun g => block_value gauss gn t i x g) = 0.
Proof. exact centred_blocks. Qed.
Print Assumptions C175_centred.

(** The generator of C142, an ensemble of seeds with uncorrelated draws, three blocks
    that share noise and a pair of blocks that does not. *)
Example C175_case : forall seeded, exists cs gn w' ens N,
  let stored := fun _ => Err FileNotFoundError in
  let geo := gen_geo _ gn in
  ga_dims odd_args = (1, 2, 1) /\ ga_levels odd_args = (1, 1, 1)%nat
  /\ scales_of stored odd_args = Ok cs /\ 0 < cs_L cs /\ 0 < cs_Gamma cs
  /\ construct stored (R * nat * nat) seeded (vf_sampler (fun x => 1 + x^2) (fun _ _ _ => 0) 10) unit (fun _ _ => Err RuntimeError)
        odd_args None (World _ (1, 0%nat, 0%nat) (1, 0%nat, 0%nat)) = Ok (gn, w')
  /\ white single_gauss N ens /\ (forall m, (m < N)%nat -> mean ens (fun g => stream single_gauss g m) = 0)
  /\ (draws_until geo 20 <= N)%nat /\ in_block geo (2, 1, 0)%nat /\ in_block geo (0, 2, 1)%nat
  /\ (1 * g_Nx geo < rows geo)%nat /\ (exists t, (t <= 20)%nat /\ (0 * g_Nx geo + rows geo <= t * g_Nx geo)%nat).
Proof.
  intros seeded.
  destruct (GenPhys.geometry_sound 1 2 1 1 1 1 1 1 9) as (g & Hg & _ & N1 & N2 & N3 & _); try lra.
  destruct (EndProofs.classic_scales (fun _ => Err FileNotFoundError) odd_args 1 1 1) as (E0 & HE & _); try reflexivity; try (cbn; lra); [right; reflexivity|].
  assert (HC : construct (fun _ => Err FileNotFoundError) (R * nat * nat) seeded (vf_sampler (fun x => 1 + x^2) (fun _ _ _ => 0) 10) unit (fun _ _ => Err RuntimeError)
        odd_args None (World _ (1, 0%nat, 0%nat) (1, 0%nat, 0%nat)) = Ok (Generator (R * nat * nat) g (noise_std (1, 2, 1) (1, 1, 1)%nat)
          (vf_sampler (fun x => 1 + x^2) (fun _ _ _ => 0) 10 "Mann" (CovScales 1 1 E0) g) None (GState None [] (seeded 3%Z) None), World _ (1, 0%nat, 0%nat) (1, 0%nat, 0%nat))).
  { unfold construct. rewrite HE. cbn [bind cs_L cs_Gamma].
    change (ga_dims odd_args) with (1, 2, 1). change (ga_levels odd_args) with (1, 1, 1)%nat. change (ga_blend odd_args) with 9%Z.
    rewrite Hg. cbn [bind]. reflexivity. }
  destruct (NodeProofs.constructed_sizes _ _ _ _ _ _ odd_args _ _ _ _ _ 1 2 1 1%nat 1%nat 1%nat eq_refl eq_refl ltac:(lra) ltac:(lra) ltac:(lra) HE ltac:(cbn; lra) ltac:(cbn; lra) HC)
    as (nb & my & mz & R1 & R2 & R3 & _ & _ & B1 & _).
  cbn [gen_geo cs_L cs_Gamma] in *. cbn [Nat.pow Nat.mul Nat.add] in R1. change (Z.to_nat (ga_blend odd_args - 1)) with 8%nat in R1.
  assert (HNB : (nb <= 11)%nat).
  { apply INR_le. replace (INR 11) with 11 by (cbn; ring). destruct B1 as (_ & B1). cbn in B1. lra. }
  assert (P : (0 < draws_until g 20)%nat).
  { unfold draws_until. rewrite R2, R3. cbn [Nat.pow]. assert (0 < rows g)%nat by lia. nia. }
  do 2 eexists. exists (World _ (1, 0%nat, 0%nat) (1, 0%nat, 0%nat)), (single_family (draws_until g 20)), (draws_until g 20). cbv zeta.
  destruct (single_white (draws_until g 20) P) as (W1 & _ & W2).
  split; [reflexivity|]. split; [reflexivity|]. split; [exact HE|]. split; [cbn; lra|]. split; [cbn; lra|]. split; [exact HC|].
  split; [exact W1|]. split; [exact W2|]. cbn [gen_geo]. unfold in_block. rewrite N1, N2, N3. unfold nodes. cbn [Nat.pow Nat.mul Nat.add].
  split; [lia|]. split; [lia|]. split; [lia|]. split; [lia|]. exists 20%nat. lia.
Qed.
