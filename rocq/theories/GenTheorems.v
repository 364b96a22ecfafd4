(** Property theorems about the field generator (C37-C47, C50, C57, C62, C68, C69,
    C92, C93). *)

From Coq Require Import String Reals Lra Lia List Arith ZArith Bool.
From Verif Require Import Prelude SpectraModel GenModel GenSpec GenProofs GenMore GenApi GenPhys GenSeam GenDemo.
Import ListNotations.
Open Scope R_scope.

(** C37 *)

Theorem C37_block_shape : forall stored G (gauss : G -> R * G) (seeded : Z -> G) sampler C2 (low_make : C2 -> G -> res (low_view * G)) a config w gn0 w' cs
  Lx Ly Lz lx ly lz gn n p f,
  ga_dims a = (Lx, Ly, Lz) -> ga_levels a = (lx, ly, lz) ->
  0 < Lx -> 0 < Ly -> 0 < Lz ->
  scales_of stored a = Ok cs -> 0 < cs_L cs -> 0 < cs_Gamma cs ->
  (forall geo, shape_preserving (sampler (ga_model a) cs geo)) ->
  construct stored G seeded sampler C2 low_make a config w = Ok (gn0, w') ->
  reached gauss gn0 gn ->
  fst (gen_call G gauss n p gn) = Ok f ->
  exists m new, f = s_total (gen_state G gn) ++ new
  /\ shaped (m * (2 ^ lx + 1)) (2 ^ ly + 1) (2 ^ lz + 1) (s_total (gen_state G gn))
  /\ shaped (Z.to_nat n * (2 ^ lx + 1)) (2 ^ ly + 1) (2 ^ lz + 1) new.
Proof. exact constructed_shape. Qed.
Print Assumptions C37_block_shape.

Theorem C37_buffers_cover : forall Lx Ly Lz lx ly lz L T blend, 0 < Lx -> 0 < Ly -> 0 < Lz -> 0 < L -> 0 < T ->
  exists g, make_geometry (Lx, Ly, Lz) (lx, ly, lz) L T blend = Ok g /\ sound g
  /\ g_Nx g = nodes lx /\ g_Ny g = nodes ly /\ g_Nz g = nodes lz /\ g_blend g = blend /\ g_dims g = (Lx, Ly, Lz)
  /\ (let dx := Lx / INR (nodes lx) in 3 * T * L <= IZR (g_nb g) * dx < 3 * T * L + dx)
  /\ (let dy := Ly / INR (nodes ly) in L <= IZR (g_my g) * dy < L + dy)
  /\ (let dz := Lz / INR (nodes lz) in L <= IZR (g_mz g) * dz < L + dz).
Proof. exact geometry_sound. Qed.
Print Assumptions C37_buffers_cover.

Example C37_case : exists cs gn w',
  scales_of (fun _ => Err FileNotFoundError) (mann_args (Some 0%Z)) = Ok cs /\ 0 < cs_L cs /\ 0 < cs_Gamma cs
  /\ construct (fun _ => Err FileNotFoundError) nat (fun _ => 0%nat) (fun _ _ _ x => x) unit (fun _ _ => Err RuntimeError)
       (mann_args (Some 0%Z)) None (World nat 7%nat 9%nat) = Ok (gn, w')
  /\ forall n, exists f, fst (gen_call nat (fun c => (1, S c)) n demo_args gn) = Ok f.
Proof. exact mann_demo. Qed.

(** C38: the promise is broken for every grid and every argument. *)

Theorem C38_refuted : forall stored G (gauss : G -> R * G) (seeded : Z -> G) sampler C2 (low_make : C2 -> G -> res (low_view * G)) a w
  Lx Ly Lz lx ly lz L E,
  ga_dims a = (Lx, Ly, Lz) -> ga_levels a = (lx, ly, lz) -> 0 < Lx -> 0 < Ly -> 0 < Lz ->
  (ga_model a = "Mann" \/ ga_model a = "VK")%string -> ga_L a = Some L -> 0 < L -> ga_T a = Some 0 -> ga_E a = Some E -> 0 < ga_href a ->
  exists gn w', construct stored G seeded sampler C2 low_make a None w = Ok (gn, w')
  /\ forall calls r, In r (fst (gen_calls G gauss calls gn)) -> r = Ok [] \/ exists e, r = Err e.
Proof. exact constructed_no_buffer. Qed.
Print Assumptions C38_refuted.

Example C38_case : let a := GenArgs 1 1 (2, 2, 2) (1%nat, 1%nat, 1%nat) "Mann" (Some 1) (Some 0) (Some 1) None (Some 0%Z) 10 in
  ga_model a = "Mann"%string /\ ga_T a = Some 0 /\ 0 < ga_href a.
Proof. cbv zeta. repeat split. cbn. lra. Qed.

(** C39 *)

Theorem C39_content : forall G (gauss : G -> R * G) calls gn g0, usable gn -> gen_low G gn = None -> fresh gn g0 ->
  all_ok (fst (gen_calls G gauss calls gn)) ->
  exists fs, s_total (gen_state G (snd (gen_calls G gauss calls gn))) = concat fs
  /\ length fs = length (block_args calls)
  /\ forall t f a, nth_error fs t = Some f -> nth_error (block_args calls) t = Some a ->
       exists prof sd, mean_profile (gen_geo G gn) a = Ok prof /\ 0 < sd
       /\ unit_energy (fmap (fun v => v / sd) (raw_block gauss (gen_geo G gn) (gen_std G gn) (gen_correlate G gn) g0 t))
       /\ f = with_profile prof (fmap (fun v => v / sd) (raw_block gauss (gen_geo G gn) (gen_std G gn) (gen_correlate G gn) g0 t)).
Proof. exact content_from_fresh. Qed.
Print Assumptions C39_content.

Theorem C39_noise_is_one_stream : forall G (gauss : G -> R * G) gn0 gn g0, usable gn0 -> fresh gn0 g0 -> reached gauss gn0 gn ->
  s_noise (gen_state G gn) = None
  \/ exists t, s_noise (gen_state G gn)
       = Some (window (noise_stream gauss (gen_geo G gn0) (gen_std G gn0) g0) (t * g_Nx (gen_geo G gn0)) (rows (gen_geo G gn0))).
Proof. exact noise_window. Qed.
Print Assumptions C39_noise_is_one_stream.

Theorem C39_noise_of_last_block : forall G (gauss : G -> R * G) calls gn g0, usable gn -> gen_low G gn = None -> fresh gn g0 ->
  all_ok (fst (gen_calls G gauss calls gn)) -> (1 <= length (block_args calls))%nat ->
  s_noise (gen_state G (snd (gen_calls G gauss calls gn)))
  = Some (window (noise_stream gauss (gen_geo G gn) (gen_std G gn) g0)
            ((length (block_args calls) - 1) * g_Nx (gen_geo G gn)) (rows (gen_geo G gn))).
Proof. exact exact_noise. Qed.
Print Assumptions C39_noise_of_last_block.

Example C39_case : usable (demo None) /\ fresh (demo None) 0%nat /\ all_ok (fst (gen_calls nat demo_gauss [(2%Z, demo_args)] (demo None))).
Proof.
  split; [apply demo_usable|]. split; [reflexivity|]. cbn [gen_calls]. destruct (demo_call 2 ltac:(lia)) as [f Hf].
  destruct (gen_call nat demo_gauss 2 demo_args (demo None)) as [r gn]. cbn [fst] in *. constructor; [exists f; exact Hf|constructor].
Qed.

(** C40 *)

Theorem C40_appends : forall G (gauss : G -> R * G) gn0 gn g0 n a, usable gn0 -> fresh gn0 g0 -> reached gauss gn0 gn ->
  exists j new, (j <= Z.to_nat n)%nat
  /\ s_total (gen_state G (snd (gen_call G gauss n a gn))) = s_total (gen_state G gn) ++ new
  /\ shaped (j * g_Nx (gen_geo G gn0)) (g_Ny (gen_geo G gn0)) (g_Nz (gen_geo G gn0)) new
  /\ match fst (gen_call G gauss n a gn) with
     | Ok f => j = Z.to_nat n /\ f = s_total (gen_state G gn) ++ new
     | Err _ => (j < Z.to_nat n)%nat
     end.
Proof. exact call_appends. Qed.
Print Assumptions C40_appends.

Theorem C40_rows : forall G (gauss : G -> R * G) gn0 gn g0, usable gn0 -> fresh gn0 g0 -> reached gauss gn0 gn ->
  exists m, shaped (m * g_Nx (gen_geo G gn0)) (g_Ny (gen_geo G gn0)) (g_Nz (gen_geo G gn0)) (s_total (gen_state G gn)).
Proof. exact total_shape. Qed.
Print Assumptions C40_rows.

Example C40_case : exists gn, reached demo_gauss (demo None) gn /\ s_noise (gen_state nat gn) <> None.
Proof.
  exists (snd (gen_calls nat demo_gauss [(1%Z, demo_args)] (demo None))). split; [eexists; reflexivity|].
  rewrite (C39_noise_of_last_block nat demo_gauss [(1%Z, demo_args)] (demo None) 0%nat); [discriminate|apply demo_usable|reflexivity|reflexivity| |vm_compute; constructor].
  cbn [gen_calls]. destruct (demo_call 1 ltac:(lia)) as [f Hf]. destruct (gen_call nat demo_gauss 1 demo_args (demo None)) as [r gn].
  constructor; [exists f; exact Hf|constructor].
Qed.

(** C41: a rejected call consumes a block of noise. *)

Theorem C41_refuted : exists (bad good : profile_args) (gn : generator nat) (gauss : nat -> R * nat) f f',
  usable gn /\ fresh gn 0%nat /\ bad_profile bad
  /\ fst (gen_call nat gauss 1 bad gn) = Err ValueError
  /\ gen_state nat (snd (gen_call nat gauss 1 bad gn)) <> gen_state nat gn
  /\ fst (gen_call nat gauss 1 good gn) = Ok f
  /\ fst (gen_call nat gauss 1 good (snd (gen_call nat gauss 1 bad gn))) = Ok f'
  /\ f <> f'.
Proof.
  destruct demo_rejected as (B & E & S & f & f' & H1 & H2 & H3).
  exists (Profile 1 1 1 "PL" None), demo_args, (demo None), demo_gauss, f, f'.
  exact (conj (demo_usable None) (conj (demo_fresh None) (conj B (conj E (conj S (conj H1 (conj H2 H3))))))).
Qed.
Print Assumptions C41_refuted.

Theorem C41_partial : forall G (gauss : G -> R * G) gn0 gn g0 n a, usable gn0 -> fresh gn0 g0 -> reached gauss gn0 gn -> bad_profile a -> (1 <= n)%Z ->
  fst (gen_call G gauss n a gn) = Err ValueError
  /\ s_total (gen_state G (snd (gen_call G gauss n a gn))) = s_total (gen_state G gn)
  /\ s_noise (gen_state G (snd (gen_call G gauss n a gn))) <> None
  /\ exists k, attempted gauss gn0 g0 k (gen_state G gn) /\ attempted gauss gn0 g0 (S k) (gen_state G (snd (gen_call G gauss n a gn))).
Proof. exact bad_call. Qed.
Print Assumptions C41_partial.

Example C41_case : bad_profile (Profile 1 0 1 "LOG" None) /\ reached demo_gauss (demo None) (demo None).
Proof. split; [right; right; left; cbn; lra|exists []; reflexivity]. Qed.

(** C42 *)

Theorem C42_rejection : forall g a block nx ny, nonzero block -> shaped nx ny (nodes (g_lz g)) block ->
  (normalize_block g a block = Err ValueError <-> bad_profile a)
  /\ (~ bad_profile a -> exists f, normalize_block g a block = Ok f).
Proof. exact normalize_iff. Qed.
Print Assumptions C42_rejection.

Theorem C42_zero_block : forall g a block, ~ nonzero block -> normalize_block g a block = Err ValueError.
Proof. exact normalize_zero. Qed.
Print Assumptions C42_zero_block.

Example C42_case : nonzero (const_field 3) /\ shaped 2 2 (nodes (g_lz demo_geo)) (const_field 3)
  /\ bad_profile (Profile 1 1 1 "UNKNOWN" None) /\ ~ bad_profile demo_args.
Proof.
  split; [apply const_nonzero; lra|]. split; [split; [reflexivity|repeat constructor]|]. split; [|exact demo_args_ok].
  left. cbn. split; discriminate.
Qed.

(** C43 *)

Theorem C43_energy_and_profile : forall g a block nx ny, ~ bad_profile a -> nonzero block -> shaped nx ny (nodes (g_lz g)) block ->
  exists prof sd, mean_profile g a = Ok prof /\ 0 < sd
  /\ unit_energy (fmap (fun v => v / sd) block)
  /\ normalize_block g a block = Ok (with_profile prof (fmap (fun v => v / sd) block)).
Proof. exact normalize_good. Qed.
Print Assumptions C43_energy_and_profile.

Theorem C43_magnitude_free : forall g a block nx ny c, 0 < c -> shaped nx ny (nodes (g_lz g)) block ->
  normalize_block g a (fmap (fun v => c * v) block) = normalize_block g a block.
Proof. exact normalize_scale. Qed.
Print Assumptions C43_magnitude_free.

Example C43_case : ~ bad_profile demo_args /\ nonzero (const_field 5) /\ shaped 2 2 (nodes (g_lz demo_geo)) (const_field 5).
Proof. split; [exact demo_args_ok|]. split; [apply const_nonzero; lra|]. split; [reflexivity|repeat constructor]. Qed.

(** C44 *)

Theorem C44_reference : forall zref uref a, 0 < zref -> power_law zref zref uref a = Fin uref.
Proof. exact power_law_reference. Qed.
Print Assumptions C44_reference.

Theorem C44_ground : forall zref uref a, 0 < a -> 0 < zref -> power_law 0 zref uref a = Fin 0.
Proof. exact power_law_ground. Qed.
Print Assumptions C44_ground.

Theorem C44_increasing : forall z z' zref uref a, 0 < zref -> 0 < uref -> 0 < a -> 0 <= z -> z < z' ->
  exists v v', power_law z zref uref a = Fin v /\ power_law z' zref uref a = Fin v' /\ v < v'.
Proof. exact power_law_increasing. Qed.
Print Assumptions C44_increasing.

Example C44_case : power_law 10 10 8 (1/7) = Fin 8 /\ power_law 0 10 8 (1/7) = Fin 0
  /\ exists v v', power_law 10 10 8 (1/7) = Fin v /\ power_law 20 10 8 (1/7) = Fin v' /\ v < v'.
Proof. split; [apply C44_reference; lra|]. split; [apply C44_ground; lra|]. apply C44_increasing; lra. Qed.

(** C45: the speed at the reference height is always above the reference speed. *)

Theorem C45_refuted : forall z0 zref uref, 0 < z0 -> z0 < zref -> 0 < uref ->
  exists v, log_law zref z0 zref uref = Fin v /\ uref < v /\ v <= uref + uref * ln 2 / ln (zref / z0).
Proof. exact log_law_reference. Qed.
Print Assumptions C45_refuted.

Example C45_case : exists v, log_law 100 1 100 10 = Fin v /\ 10 < v.
Proof. destruct (C45_refuted 1 100 10) as (v & E & H & _); try lra. exists v. tauto. Qed.

(** C46 *)

Theorem C46_ground : forall z0 zref uref, 0 < z0 -> 0 < zref -> zref <> z0 -> log_law 0 z0 zref uref = Fin 0.
Proof. exact log_law_ground. Qed.
Print Assumptions C46_ground.

Theorem C46_increasing : forall z z' z0 zref uref, 0 < z0 -> z0 < zref -> 0 < uref -> 0 <= z -> z < z' ->
  exists v v', log_law z z0 zref uref = Fin v /\ log_law z' z0 zref uref = Fin v' /\ v < v'.
Proof. exact log_law_increasing. Qed.
Print Assumptions C46_increasing.

Theorem C46_near_target : forall z0 zref uref, 0 < z0 -> z0 < zref -> 0 < uref ->
  exists v, log_law zref z0 zref uref = Fin v /\ uref < v /\ v <= uref + uref * ln 2 / ln (zref / z0).
Proof. exact log_law_reference. Qed.
Print Assumptions C46_near_target.

Theorem C46_reversed_below_roughness : forall z z0 zref uref, 0 < zref -> zref < z0 -> 0 < uref -> 0 < z ->
  exists v, log_law z z0 zref uref = Fin v /\ v < 0.
Proof. exact log_law_negative. Qed.
Print Assumptions C46_reversed_below_roughness.

Example C46_case : log_law 0 1 100 10 = Fin 0 /\ exists v v', log_law 1 1 100 10 = Fin v /\ log_law 2 1 100 10 = Fin v' /\ v < v'.
Proof. split; [apply C46_ground; lra|apply C46_increasing; lra]. Qed.

(** C47 *)

Theorem C47_affine : forall hx hy hz f (c : nat -> R) (m : nat -> nat -> R), hx <> 0 -> hy <> 0 -> hz <> 0 -> grid_ok f ->
  (forall i j k q, inside f i j k -> (q < 3)%nat ->
     ar_at f i j k q = c q + m q 0%nat * (INR i * hx) + m q 1%nat * (INR j * hy) + m q 2%nat * (INR k * hz)) ->
  exists d, evaluate_divergence [hx; hy; hz] f = Ok d
  /\ forall i j k, inside f i j k -> d i j k = Fin (m 0%nat 0%nat + m 1%nat 1%nat + m 2%nat 2%nat).
Proof. exact div_affine. Qed.
Print Assumptions C47_affine.

Theorem C47_linear : forall hx hy hz f g al be, hx <> 0 -> hy <> 0 -> hz <> 0 -> grid_ok f ->
  ar_nx g = ar_nx f -> ar_ny g = ar_ny f -> ar_nz g = ar_nz f -> ar_nc g = ar_nc f ->
  exists df dg ds, evaluate_divergence [hx; hy; hz] f = Ok df /\ evaluate_divergence [hx; hy; hz] g = Ok dg
  /\ evaluate_divergence [hx; hy; hz] (GArray (ar_nx f) (ar_ny f) (ar_nz f) (ar_nc f) (fun i j k q => al * ar_at f i j k q + be * ar_at g i j k q)) = Ok ds
  /\ forall i j k, inside f i j k -> exists u v, df i j k = Fin u /\ dg i j k = Fin v /\ ds i j k = Fin (al * u + be * v).
Proof. exact div_linear. Qed.
Print Assumptions C47_linear.

Theorem C47_profile_blind : forall hx hy hz f (p : nat -> R), hx <> 0 -> hy <> 0 -> hz <> 0 -> grid_ok f ->
  exists d d', evaluate_divergence [hx; hy; hz] f = Ok d
  /\ evaluate_divergence [hx; hy; hz] (GArray (ar_nx f) (ar_ny f) (ar_nz f) (ar_nc f)
       (fun i j k q => if (q =? 0)%nat then ar_at f i j k q + p k else ar_at f i j k q)) = Ok d'
  /\ forall i j k, inside f i j k -> d' i j k = d i j k.
Proof. exact div_profile. Qed.
Print Assumptions C47_profile_blind.

Theorem C47_rejection : forall spacing f,
  evaluate_divergence spacing f = Err ValueError <-> (length spacing <> 3%nat \/ ~ grid_ok f).
Proof. exact div_raises. Qed.
Print Assumptions C47_rejection.

Example C47_case : grid_ok (GArray 4 3 2 3 (fun i j k q => 2 * (INR i * 1) + 5)) /\ inside (GArray 4 3 2 3 (fun i j k q => 2 * (INR i * 1) + 5)) 3 2 1.
Proof. unfold grid_ok, inside. cbn. lia. Qed.

(** C50 *)

Theorem C50_seed : forall stored G (gauss : G -> R * G) (seeded : Z -> G) sampler C2 (low_make : C2 -> G -> res (low_view * G)) a w1 w2 s,
  ga_seed a = Some s ->
  match construct stored G seeded sampler C2 low_make a None w1, construct stored G seeded sampler C2 low_make a None w2 with
  | Ok (gn1, _), Ok (gn2, _) => forall calls, fst (gen_calls G gauss calls gn1) = fst (gen_calls G gauss calls gn2)
  | Err e1, Err e2 => e1 = e2
  | _, _ => False
  end.
Proof. exact seed_determines. Qed.
Print Assumptions C50_seed.

Example C50_case : ga_seed (mann_args (Some 0%Z)) = Some 0%Z
  /\ exists gn w', construct (fun _ => Err FileNotFoundError) nat (fun _ => 0%nat) (fun _ _ _ x => x) unit (fun _ _ => Err RuntimeError)
       (mann_args (Some 0%Z)) None (World nat 7%nat 9%nat) = Ok (gn, w').
Proof. split; [reflexivity|]. destruct mann_demo as (cs & gn & w' & _ & _ & _ & H & _). exists gn, w'. exact H. Qed.

(** C57: every call starts the low-frequency field again at its upstream end. *)

Theorem C57_refuted : exists (gn : generator nat) (gauss : nat -> R * nat) (a : profile_args) f f',
  usable gn /\ fresh gn 0%nat /\ low_ready (gen_low nat gn)
  /\ fst (gen_call nat gauss 2 a gn) = Ok f
  /\ fst (gen_call nat gauss 1 a (snd (gen_call nat gauss 1 a gn))) = Ok f'
  /\ f <> f'.
Proof.
  destruct demo_low_restart as (f & f' & H1 & H2 & H3).
  exists (demo (Some (LowView 2 (Some (fun x _ => (x, 0)))))), demo_gauss, demo_args, f, f'.
  split; [apply demo_usable|]. split; [reflexivity|]. split; [discriminate|]. exact (conj H1 (conj H2 H3)).
Qed.
Print Assumptions C57_refuted.

Theorem C57_within_a_call_partial : forall G (gauss : G -> R * G) gn0 gn g0 lv interp n a f,
  usable gn0 -> fresh gn0 g0 -> gen_low G gn0 = Some lv -> lv_interp lv = Some interp -> reached gauss gn0 gn ->
  fst (gen_call G gauss n a gn) = Ok f ->
  let geo := gen_geo G gn0 in
  exists k bs, length bs = Z.to_nat n
  /\ f = s_total (gen_state G gn)
         ++ concat (map (fun ib => add_slice interp (block_x geo (fst ib) (g_Nx geo)) (block_y geo (lv_L2 lv)) (snd ib)) (combine (seq 0 (Z.to_nat n)) bs))
  /\ forall i b, nth_error bs i = Some b ->
       exists prof sd, mean_profile geo a = Ok prof /\ 0 < sd
       /\ b = with_profile prof (fmap (fun v => v / sd) (raw_block gauss geo (gen_std G gn0) (gen_correlate G gn0) g0 (k + i)%nat)).
Proof. exact low_positions. Qed.
Print Assumptions C57_within_a_call_partial.

Theorem C57_positions_partial : forall g i p, (0 < g_Nx g)%nat -> (p < g_Nx g)%nat ->
  nth_error (block_x g i (g_Nx g)) p = Some (INR (i * g_Nx g + p) * (fst (fst (g_dims g)) / INR (g_Nx g))).
Proof. exact block_positions. Qed.
Print Assumptions C57_positions_partial.

Example C57_case : nth_error (block_x demo_geo 3 2) 1 = Some (INR 7 * (2 / INR 2)).
Proof. exact (C57_positions_partial demo_geo 3 1 ltac:(cbn; lia) ltac:(cbn; lia)). Qed.

(** C62 *)

Theorem C62_refuted : forall g Lx Ly Lz lx ly j, g_dims g = (Lx, Ly, Lz) -> 0 < Lz -> (1 <= j < nodes (g_lz g))%nat ->
  exists z, nth_error (z_space g) j = Some z /\ z <> INR j * snd (vtk_spacing (Lx, Ly, Lz) (lx, ly, g_lz g)).
Proof. exact heights_disagree. Qed.
Print Assumptions C62_refuted.

Theorem C62_partial : forall g Lx Ly Lz lx ly j, g_dims g = (Lx, Ly, Lz) -> (j < nodes (g_lz g))%nat ->
  exists z, nth_error (z_space g) j = Some z
  /\ z = (1 + / 2 ^ g_lz g) * (INR j * snd (vtk_spacing (Lx, Ly, Lz) (lx, ly, g_lz g))).
Proof. exact heights_ratio. Qed.
Print Assumptions C62_partial.

Example C62_case : g_dims demo_geo = (2, 2, 2) /\ (1 <= 1 < nodes (g_lz demo_geo))%nat.
Proof. cbn. split; [reflexivity|lia]. Qed.

(** C68 *)

Theorem C68_calls_compose : forall G (gauss : G -> R * G) gn n m a, (0 <= n)%Z -> (0 <= m)%Z -> gen_low G gn = None ->
  gen_call G gauss (n + m) a gn
  = match gen_call G gauss n a gn with
    | (Ok _, gn1) => gen_call G gauss m a gn1
    | (Err e, gn1) => (Err e, gn1)
    end.
Proof. exact calls_compose. Qed.
Print Assumptions C68_calls_compose.

Example C68_case : gen_low nat (demo None) = None /\ exists f, fst (gen_call nat demo_gauss (1 + 1) demo_args (demo None)) = Ok f.
Proof. split; [reflexivity|]. apply (demo_call 2). lia. Qed.

(** C69 *)

Theorem C69_no_seam : forall G (gauss : G -> R * G) geo std correlate K n g0 tot bl, sound geo -> shape_preserving correlate ->
  local_sampler geo correlate K ->
  concat (raw_blocks gauss geo std correlate n (GState None tot g0 bl))
  = map (fun j => crop geo (K (window (noise_stream gauss geo std g0) j (2 * Z.to_nat (g_nb geo) + 1)))) (seq 0 (n * g_Nx geo)).
Proof. exact no_seam. Qed.
Print Assumptions C69_no_seam.

Theorem C69_periodic_filters : forall geo K, sound geo -> local_sampler geo (cyclic_filter (Z.to_nat (g_nb geo)) K) K.
Proof. exact cyclic_local. Qed.
Print Assumptions C69_periodic_filters.

Example C69_case : let K := fun w : list (list (list (R * R * R))) => nth 0 w [] in
  sound demo_geo /\ shape_preserving (cyclic_filter 1 K) /\ local_sampler demo_geo (cyclic_filter 1 K) K.
Proof.
  cbv zeta. split; [exact demo_sound|]. split; [|apply (C69_periodic_filters demo_geo); exact demo_sound].
  apply cyclic_shape. intros w ny nz Hw HL. destruct w as [|p w]; [discriminate|]. inversion Hw. assumption.
Qed.

(** C92: accepted arguments can give fields that are not numbers. *)

Theorem C92_refuted : forall g a block nx ny, p_type a = "LOG"%string -> p_zref a = p_z0 a -> ~ bad_profile a -> nonzero block ->
  shaped nx ny (nodes (g_lz g)) block ->
  exists f, normalize_block g a block = Ok f /\ In NaN (entries f).
Proof. exact nan_field. Qed.
Print Assumptions C92_refuted.

Theorem C92_infinite_refuted : forall g a e block nx ny, p_type a = "PL"%string -> p_exp a = Some e -> e < 0 -> ~ bad_profile a -> nonzero block ->
  shaped nx ny (nodes (g_lz g)) block ->
  exists f, normalize_block g a block = Ok f /\ In PInf (entries f).
Proof. exact inf_field. Qed.
Print Assumptions C92_infinite_refuted.

Theorem C92_partial : forall g a block nx ny f, 0 <= snd (g_dims g) ->
  (p_type a = "LOG"%string -> p_zref a <> p_z0 a) ->
  (forall e, p_type a = "PL"%string -> p_exp a = Some e -> 0 <= e) ->
  shaped nx ny (nodes (g_lz g)) block -> normalize_block g a block = Ok f ->
  Forall (fun v => exists r, v = Fin r) (entries f).
Proof. exact finite_field. Qed.
Print Assumptions C92_partial.

Example C92_case : (exists f, normalize_block demo_geo (Profile 1 1 1 "LOG" None) (const_field 1) = Ok f /\ In NaN (entries f))
  /\ exists f, normalize_block demo_geo demo_args (const_field 1) = Ok f.
Proof.
  split.
  - apply (C92_refuted _ _ _ 2 2); [reflexivity|reflexivity| |apply const_nonzero; lra|split; [reflexivity|repeat constructor]].
    unfold bad_profile. cbn. intros [[H _]|[H|[H|[H|[H _]]]]]; try lra; [apply H; reflexivity|discriminate].
  - apply (proj2 (C42_rejection demo_geo demo_args (const_field 1) 2 2 (const_nonzero 1 ltac:(lra)) ltac:(split; [reflexivity|repeat constructor]))). exact demo_args_ok.
Qed.

(** C93: blocks are normalised separately. *)

Theorem C93_refuted : exists (gn : generator nat) (gauss : nat -> R * nat) a f prof,
  usable gn /\ fresh gn 0%nat /\ gen_low nat gn = None
  /\ fst (gen_call nat gauss 2 a gn) = Ok f
  /\ mean_profile (gen_geo nat gn) a = Ok prof /\ finite_profile prof
  /\ ~ exists sd, sd <> 0 /\ f = concat (map (fun t => with_profile prof (fmap (fun v => v / sd)
                    (raw_block gauss (gen_geo nat gn) (gen_std nat gn) (gen_correlate nat gn) 0%nat t))) (seq 0 2)).
Proof.
  destruct demo_no_common_factor as (f & prof & H1 & H2 & H3 & H4). exists (demo None), demo_gauss, demo_args, f, prof.
  exact (conj (demo_usable None) (conj (demo_fresh None) (conj eq_refl (conj H1 (conj H2 (conj H3 H4)))))).
Qed.
Print Assumptions C93_refuted.

Theorem C93_only_for_equal_energies : forall G (gauss : G -> R * G) gn g0 n a f prof sd,
  usable gn -> gen_low G gn = None -> fresh gn g0 ->
  fst (gen_call G gauss n a gn) = Ok f ->
  mean_profile (gen_geo G gn) a = Ok prof -> finite_profile prof -> sd <> 0 ->
  f = concat (map (fun t => with_profile prof (fmap (fun v => v / sd) (raw_block gauss (gen_geo G gn) (gen_std G gn) (gen_correlate G gn) g0 t))) (seq 0 (Z.to_nat n))) ->
  forall t, (t < Z.to_nat n)%nat -> energy (raw_block gauss (gen_geo G gn) (gen_std G gn) (gen_correlate G gn) g0 t) = sd^2.
Proof. exact common_factor. Qed.
Print Assumptions C93_only_for_equal_energies.

Example C93_case : energy (raw_block demo_gauss demo_geo 1 (fun x => x) 0%nat 0) = 1 /\ energy (raw_block demo_gauss demo_geo 1 (fun x => x) 0%nat 1) = 4.
Proof. rewrite demo_block0, demo_block1, !const_energy. lra. Qed.
