(** Lemmas about the low-frequency part of generated fields. *)

From Coq Require Import String Reals Lra Lia List Arith ZArith Bool.
From Coquelicot Require Import Complex.
From Verif Require Import Prelude RdtModel RdtSpec GenModel GenSpec GenProofs GenMore GenApi GenPhys GenDemo DftModel DftSpec DftProofs DftMore DftCov DftField
  EndSpec EndDft LowModel LowSpec LowProofs LowMore LowApi LowSpectrum LowCov LowDemo NodeSpec NodeProofs SiteSpec SiteProofs.
Import ListNotations.
Open Scope R_scope.

(** ** Low-frequency part of a generated field *)

Lemma cell_bilinear : forall L1 N1 L2 N2 V i j x y, 0 < L1 -> 0 < L2 -> (S i < N1)%nat -> (S j < N2)%nat ->
  let dx := L1 / INR N1 in let dy := L2 / INR N2 in
  INR i * dx <= x <= INR (S i) * dx -> INR j * dy <= y <= INR (S j) * dy ->
  interpolate (user_coords L1 N1) (user_coords L2 N2) V x y = bilinear V dx dy i j x y.
Proof.
  intros L1 N1 L2 N2 V i j x y HL1 HL2 Hi Hj dx dy Hx Hy.
  assert (P1 : 0 < dx) by (apply Rdiv_lt_0_compat; [exact HL1|apply lt_0_INR; lia]).
  assert (P2 : 0 < dy) by (apply Rdiv_lt_0_compat; [exact HL2|apply lt_0_INR; lia]).
  rewrite (interpolate_cell _ _ _ x y i j).
  - rewrite !user_coords_nth by lia. fold dx dy. unfold between, bilinear, value. rewrite !S_INR. cbv zeta.
    replace ((x - INR i * dx) / ((INR i + 1) * dx - INR i * dx)) with (x / dx - INR i) by (field; lra).
    replace ((y - INR j * dy) / ((INR j + 1) * dy - INR j * dy)) with (y / dy - INR j) by (field; lra).
    reflexivity.
  - apply user_coords_increasing; assumption.
  - apply user_coords_increasing; assumption.
  - split; [rewrite user_coords_length; exact Hi|]. rewrite !user_coords_nth by lia. exact Hx.
  - split; [rewrite user_coords_length; exact Hj|]. rewrite !user_coords_nth by lia. exact Hy.
Qed.

Lemma low_part : forall stored G (gauss : G -> R * G) (seeded : Z -> G) sampler quad a cfg w gn w',
  positive_lengths cfg ->
  construct stored G seeded sampler low_config (make_low gauss quad) a (Some cfg) w = Ok (gn, w') ->
  exists w0 w1 u1 u2, low_construct quad cfg = Ok w0 /\ fst (low_generate gauss w0 (w_global G w)) = Ok w1 /\ lw_u w1 = Some (u1, u2)
  /\ low_width (gen_low G gn) = asked_L2 cfg
  /\ (forall i j x y, (S i < 2 ^ lc_e1 cfg)%nat -> (S j < 2 ^ lc_e2 cfg)%nat ->
        INR i * asked_dx cfg <= x <= INR (S i) * asked_dx cfg -> INR j * asked_dy cfg <= y <= INR (S j) * asked_dy cfg ->
        low_value (gen_low G gn) x y = (bilinear u1 (asked_dx cfg) (asked_dy cfg) i j x y, bilinear u2 (asked_dx cfg) (asked_dy cfg) i j x y))
  /\ (forall x y, x < 0 \/ asked_L1 cfg - asked_dx cfg < x \/ y < 0 \/ asked_L2 cfg - asked_dy cfg < y -> low_value (gen_low G gn) x y = (0, 0)).
Proof.
  intros stored G gauss seeded sampler quad a cfg w gn w' HP H. unfold construct in H.
  destruct (scales_of stored a) as [cs|e]; [|discriminate]. cbn [bind] in H.
  destruct (make_geometry _ _ _ _ _) as [g|e]; [|discriminate]. cbn [bind] in H.
  destruct (make_low gauss quad cfg (w_global G w)) as [[lv g']|e] eqn:E; [|discriminate]. cbn [bind fst snd] in H.
  apply (f_equal (fun r => match r with Ok x => fst x | Err _ => gn end)) in H. cbn [fst] in H. subst gn. cbn [gen_low].
  unfold make_low in E. destruct (low_construct quad cfg) as [w0|e] eqn:EW; [|discriminate]. cbn [bind] in E.
  destruct (low_constructed quad cfg w0 EW HP) as (_ & F & _).
  destruct (low_generated G gauss w0 cfg (w_global G w) F) as (u1 & u2 & EG & S1 & S2 & _).
  rewrite EG in E. injection E as <- _.
  exists w0. eexists. exists u1, u2. split; [reflexivity|]. rewrite EG. split; [reflexivity|]. split; [reflexivity|].
  split; [cbn; apply (gf_L2 _ _ F)|].
  assert (EV : forall x y, low_value (Some (view_of (LowGen (lw_cfg w0) (lw_c w0) (lw_grid w0) (Some (u1, u2))))) x y
     = (interpolate (user_coords (asked_L1 cfg) (2 ^ lc_e1 cfg)) (user_coords (asked_L2 cfg) (2 ^ lc_e2 cfg)) u1 x y,
        interpolate (user_coords (asked_L1 cfg) (2 ^ lc_e1 cfg)) (user_coords (asked_L2 cfg) (2 ^ lc_e2 cfg)) u2 x y)).
  { intros x y. cbn [low_value view_of lv_interp lw_u lw_grid low_interp].
    rewrite (gf_L1 _ _ F), (gf_L2 _ _ F), (gf_N1 _ _ F), (gf_N2 _ _ F). reflexivity. }
  assert (D1 : asked_dx cfg = asked_L1 cfg / INR (2 ^ lc_e1 cfg)) by (unfold asked_dx; rewrite pow2_INR; reflexivity).
  assert (D2 : asked_dy cfg = asked_L2 cfg / INR (2 ^ lc_e2 cfg)) by (unfold asked_dy; rewrite pow2_INR; reflexivity).
  destruct HP as (HL & HF1 & HF2).
  assert (P1 : 0 < asked_L1 cfg) by (apply Rmult_lt_0_compat; assumption).
  assert (P2 : 0 < asked_L2 cfg) by (apply Rmult_lt_0_compat; assumption).
  split.
  - intros i j x y Hi Hj Hx Hy. rewrite EV. rewrite D1, D2 in *. f_equal; apply cell_bilinear; assumption.
  - assert (HN : forall e, (0 < 2 ^ e)%nat) by (intros e; apply Nat.neq_0_lt_0, Nat.pow_nonzero; lia).
    assert (HO : forall L e, L - L / INR (2 ^ e) = INR (2 ^ e - 1) * (L / INR (2 ^ e))).
    { intros L e. pose proof (HN e). rewrite minus_INR by lia. cbn [INR]. field. apply not_0_INR. lia. }
    intros x y Ho. rewrite EV.
    assert (O : outside (user_coords (asked_L1 cfg) (2 ^ lc_e1 cfg)) x \/ outside (user_coords (asked_L2 cfg) (2 ^ lc_e2 cfg)) y).
    { unfold outside. rewrite !user_coords_length. pose proof (HN (lc_e1 cfg)). pose proof (HN (lc_e2 cfg)).
      rewrite !user_coords_nth by lia. rewrite <- !HO, <- D1, <- D2. cbn [INR]. rewrite !Rmult_0_l. tauto. }
    rewrite !interpolate_outside by exact O. reflexivity.
Qed.

Lemma xadd_zero : forall v, xadd v (Fin 0) = v.
Proof. intros [x| | |]; try reflexivity. cbn. f_equal. ring. Qed.

Lemma no_low_blocks : forall stored G (gauss : G -> R * G) (seeded : Z -> G) sampler quad a cfg w gn0 w' cs Lx Ly Lz,
  (forall model cs geo, shape_preserving (sampler model cs geo)) ->
  ga_dims a = (Lx, Ly, Lz) -> 0 < Lx -> 0 < Ly -> 0 < Lz -> scales_of stored a = Ok cs -> 0 < cs_L cs -> 0 < cs_Gamma cs ->
  positive_lengths cfg ->
  construct stored G seeded sampler low_config (make_low gauss quad) a (Some cfg) w = Ok (gn0, w') ->
  forall gn n pa f, reached gauss gn0 gn -> fst (gen_call G gauss n pa gn) = Ok f ->
  let geo := gen_geo G gn0 in
  let g0 := match ga_seed a with Some s => seeded s | None => w_entropy G w end in
  exists k, forall i, (i < Z.to_nat n)%nat -> asked_L1 cfg <= INR i * Lx ->
  exists prof sd, mean_profile geo pa = Ok prof /\ 0 < sd
  /\ forall p q r, (p < g_Nx geo)%nat -> (q < g_Ny geo)%nat -> (r < g_Nz geo)%nat ->
     exists u v s m,
       node_value (gen_correlate G gn0 (white_noise (stream gauss g0) (gen_std G gn0) (cols geo) (layers geo)
                                          ((k + i) * g_Nx geo) (rows geo)))
                  (Z.to_nat (g_nb geo) + p) (Z.to_nat (g_my geo) + q) r = Some (u, v, s)
       /\ nth_error prof r = Some m
       /\ node_value f (length (s_total (gen_state G gn)) + (i * g_Nx geo + p)) q r = Some (xadd (Fin (u / sd)) m, Fin (v / sd), Fin (s / sd)).
Proof.
  intros stored G gauss seeded sampler quad a cfg w gn0 w' cs Lx Ly Lz HS ED HLx HLy HLz Hcs HL HT HP HC gn n pa f Hr Hcall. cbv zeta.
  pose proof (constructed stored G seeded sampler low_config (make_low gauss quad) a (Some cfg) w gn0 w' cs HC Hcs) as K. rewrite ED in K.
  destruct (ga_levels a) as [[lx ly] lz] eqn:EL. destruct (K HLx HLy HLz HL HT (fun geo => HS (ga_model a) cs geo)) as (Hu & Hf & _).
  destruct (constructed_parts _ _ _ _ _ _ _ _ _ _ _ _ _ _ _ _ _ _ ED EL HLx HLy HLz Hcs HL HT HC) as (_ & EDim & N1 & _).
  destruct (low_part _ _ _ _ _ _ _ _ _ _ _ HP HC) as (w0 & w1 & u1 & u2 & _ & _ & _ & _ & _ & HZ).
  destruct (delivered_nodes G gauss gn0 gn _ n pa f Hu Hf Hr Hcall) as [k H]. exists k. intros i Hi Hfar.
  destruct (H i Hi) as (prof & sd & EP & Hsd & HV). exists prof, sd. split; [exact EP|]. split; [exact Hsd|].
  intros p q r Hp Hq Hr'. destruct (HV p q r Hp Hq Hr') as (u & v & s & m & E1 & E2 & E3). exists u, v, s, m.
  split; [exact E1|]. split; [exact E2|]. cbv zeta in E3. rewrite E3, HZ.
  - cbn [fst snd]. rewrite xadd_zero, Rplus_0_r. reflexivity.
  - right. left. rewrite EDim. cbn [fst snd].
    assert (HN : 0 < INR (g_Nx (gen_geo G gn0))) by (apply lt_0_INR; lia).
    assert (PD : 0 < asked_dx cfg).
    { destruct HP as (A & B & _). unfold asked_dx, asked_L1. apply Rdiv_lt_0_compat; [apply Rmult_lt_0_compat; assumption|]. apply pow_lt. lra. }
    rewrite plus_INR, mult_INR. replace ((INR i * INR (g_Nx (gen_geo G gn0)) + INR p) * (Lx / INR (g_Nx (gen_geo G gn0))))
      with (INR i * Lx + INR p * (Lx / INR (g_Nx (gen_geo G gn0)))) by (field; lra).
    assert (0 <= INR p * (Lx / INR (g_Nx (gen_geo G gn0)))).
    { apply Rmult_le_pos; [apply pos_INR|]. left. apply Rdiv_lt_0_compat; assumption. }
    lra.
Qed.

(** A witness: six blocks of length two, a low-frequency field of length ten. *)
Lemma six_blocks : forall stored, exists gn0 w' f,
  construct stored nat (fun _ => 5%nat) (fun _ _ _ x => x) low_config (make_low plane_gauss unit_quad) combo_args (Some plane_cfg) (World nat 0%nat 9%nat) = Ok (gn0, w')
  /\ fst (gen_call nat plane_gauss 6 demo_args gn0) = Ok f
  /\ (forall x, 0 < x <= 5/2 -> snd (low_value (gen_low nat gn0) x 0) <> 0).
Proof.
  intros stored. destruct views_differ as (i0 & i1 & g0 & g1 & E0 & E1 & HV).
  assert (HS : exists cs, scales_of stored combo_args = Ok cs /\ cs_L cs = 1 /\ cs_Gamma cs = 1).
  { unfold scales_of, combo_args. cbn [ga_model ga_href ga_L ga_T ga_E ga_ustar]. unfold xpow. destruct (Rlt_dec 0 1); [|exfalso; lra].
    cbn. eexists. split; [reflexivity|]. split; reflexivity. }
  destruct HS as (cs & HS & C1 & C2).
  destruct (geometry_sound 2 10 2 1 1 1 1 1 3) as (geo & Eg & Hs & N1 & N2 & N3 & _ & ED & _); try lra.
  pose (std := noise_std (2, 10, 2) (1%nat, 1%nat, 1%nat)).
  exists (Generator nat geo std (fun x => x) (Some (LowView 10 (Some i0))) (GState None [] 5%nat None)), (World nat g0 9%nat).
  assert (Hstd : std <> 0).
  { unfold std, noise_std. apply Rgt_not_eq. apply sqrt_lt_R0. pose proof (nodes_INR 1).
    assert (0 < 2 / INR (nodes 1)) by (apply Rdiv_lt_0_compat; lra). assert (0 < 10 / INR (nodes 1)) by (apply Rdiv_lt_0_compat; lra).
    apply Rmult_lt_0_compat; [apply Rmult_lt_0_compat|]; assumption. }
  assert (HG : forall g, fst (plane_gauss g) <> 0) by (intros g; unfold plane_gauss; cbn [fst]; destruct (g =? 0)%nat; lra).
  edestruct (call_succeeds nat plane_gauss (Generator nat geo std (fun x => x) (Some (LowView 10 (Some i0))) (GState None [] 5%nat None)) 5%nat 0 6 demo_args) as [f Hf].
  - split; [exact Hs|intros nx ny nz f H; exact H].
  - discriminate.
  - exact demo_args_ok.
  - apply fresh_at. reflexivity.
  - intros t _. apply nonzero_noise_block; assumption.
  - exists f. split; [|split; [exact Hf|]].
    + unfold construct. rewrite HS. cbn [bind]. rewrite C1, C2. cbn [combo_args ga_dims ga_levels ga_blend ga_seed ga_model]. rewrite Eg. cbn [bind w_global]. rewrite E0. reflexivity.
    + intros x Hx. cbn [gen_low low_value lv_interp]. destruct (HV x Hx) as [V1 V0]. lra.
Qed.
