(** Property theorems about the two-dimensional low-frequency generator (C07 for its
    kernel, C51-C56, C58, C96-C98). *)

From Coq Require Import String Reals List ZArith Bool Lia Lra.
From Coquelicot Require Import Complex.
From Verif Require Import Prelude GenModel GenSpec GenDemo DftModel DftSpec DftCov LowModel LowSpec LowProofs LowFourier LowMore LowSpectrum LowCov LowDemo LowApi LowPositions.
Import ListNotations.
Open Scope R_scope.

(** C07: the low-frequency kernels are Hermitian. *)
Theorem C07_low_kernel_hermitian : forall c L psi zi dx dy k1 k2,
  low_Q1 c L psi zi dx dy (- k1) (- k2) = Cconj (low_Q1 c L psi zi dx dy k1 k2)
  /\ low_Q2 c L psi zi dx dy (- k1) (- k2) = Cconj (low_Q2 c L psi zi dx dy k1 k2).
Proof. exact (fun c L psi zi dx dy k1 k2 => conj (Q1_minus2 c L psi zi dx dy k1 (- k1) k2 (or_intror eq_refl)) (Q2_minus1 c L psi zi dx dy k1 k2 (- k2) (or_intror eq_refl))). Qed.
Print Assumptions C07_low_kernel_hermitian.

(** C07: on the grid, exactly the coefficients at the highest lateral (first component)
    or streamwise (second component) wave number are dropped. *)
Theorem C07_low_coefficients_partial : forall quad cfg w noise a b, positive_lengths cfg -> low_construct quad cfg = Ok w ->
  let g := lw_grid w in let d := (lg_cN1 g, lg_cN2 g, 1%nat) in
  (a < lg_cN1 g)%nat -> (b < lg_cN2 g)%nat ->
  fourier d (low_sample (gen_Q1 w) g noise) (a, b, 0%nat) = (if (2 * b =? lg_cN2 g)%nat then RtoC 0 else prescribed (gen_Q1 w) g noise (a, b, 0%nat))
  /\ fourier d (low_sample (gen_Q2 w) g noise) (a, b, 0%nat) = (if (2 * a =? lg_cN1 g)%nat then RtoC 0 else prescribed (gen_Q2 w) g noise (a, b, 0%nat)).
Proof. exact coefficients_api. Qed.
Print Assumptions C07_low_coefficients_partial.

(** C07: the dropped coefficients are not zero. *)
Theorem C07_low_refuted : forall quad cfg w, positive_lengths cfg -> low_construct quad cfg = Ok w -> 0 < lc_sigma2 cfg -> lc_L cfg <= 10^6 ->
  (4 <= lg_cN2 (lw_grid w))%nat -> lg_cL2 (lw_grid w) <= 10^10 ->
  let g := lw_grid w in let k := ((lg_cN1 g / 2)%nat, 1%nat, 0%nat) in
  exists noise, fourier (lg_cN1 g, lg_cN2 g, 1%nat) (low_sample (gen_Q2 w) g noise) k <> prescribed (gen_Q2 w) g noise k.
Proof.
  intros quad cfg w HP HC Hs HL HN HL10 g k. exists (spike (0, 0, 0)%nat).
  destruct (nyquist_divergence quad cfg w HP HC Hs HL HN HL10) as (_ & H0 & H1 & _). fold g in H0, H1. fold k in H0, H1. rewrite H0. apply not_eq_sym. exact H1.
Qed.
Print Assumptions C07_low_refuted.

Example C07_low_case : exists w, low_construct unit_quad plane_cfg = Ok w /\ positive_lengths plane_cfg /\ 0 < lc_sigma2 plane_cfg /\ lc_L plane_cfg <= 10^6
  /\ (4 <= lg_cN2 (lw_grid w))%nat /\ lg_cL2 (lw_grid w) <= 10^10.
Proof.
  destruct plane_exists as (w & HC). exists w. pose proof (plane_constructed _ _ HC) as P. split; [exact HC|]. split; [exact plane_positive|].
  rewrite (pl_c2 w P), (pl_cL2 w P). cbn. repeat split; lra || lia.
Qed.

(** C51: the combined field depends on the process-wide random state, not only on the
    seed. *)
Theorem C51_refuted : forall stored,
  exists gn0 gn1 wa wb f0 f1,
    construct stored nat (fun _ => 5%nat) (fun _ _ _ x => x) low_config (make_low plane_gauss unit_quad) combo_args (Some plane_cfg) (World nat 0%nat 9%nat) = Ok (gn0, wa)
    /\ construct stored nat (fun _ => 5%nat) (fun _ _ _ x => x) low_config (make_low plane_gauss unit_quad) combo_args (Some plane_cfg) (World nat 1%nat 9%nat) = Ok (gn1, wb)
    /\ fst (gen_call nat plane_gauss 2 demo_args gn0) = Ok f0
    /\ fst (gen_call nat plane_gauss 2 demo_args gn1) = Ok f1
    /\ f0 <> f1.
Proof. exact combined_depends. Qed.
Print Assumptions C51_refuted.

(** C51: seed and global random state together determine the field. *)
Theorem C51_partial : forall stored G (gauss : G -> R * G) (seeded : Z -> G) sampler quad a cfg wa wb s,
  ga_seed a = Some s -> w_global G wa = w_global G wb ->
  match construct stored G seeded sampler low_config (make_low gauss quad) a (Some cfg) wa,
        construct stored G seeded sampler low_config (make_low gauss quad) a (Some cfg) wb with
  | Ok (gn1, _), Ok (gn2, _) => forall calls, fst (gen_calls G gauss calls gn1) = fst (gen_calls G gauss calls gn2)
  | Err e1, Err e2 => e1 = e2
  | _, _ => False
  end.
Proof. exact combined_same_global. Qed.
Print Assumptions C51_partial.

(** C51: building a second generator with the same arguments in one process starts from
    a different global state. *)
Theorem C51_global_state_advances : forall stored G (gauss : G -> R * G) (seeded : Z -> G) sampler quad a cfg wa gn wb,
  construct stored G seeded sampler low_config (make_low gauss quad) a (Some cfg) wa = Ok (gn, wb) ->
  exists w, low_construct quad cfg = Ok w
  /\ w_global G wb = snd (normal2 gauss (lg_cN1 (lw_grid w)) (lg_cN2 (lw_grid w)) (w_global G wa)) /\ w_entropy G wb = w_entropy G wa.
Proof. exact combined_consumes. Qed.
Print Assumptions C51_global_state_advances.

Example C51_case : ga_seed combo_args = Some 0%Z /\ w_global nat (World nat 0%nat 9%nat) = w_global nat (World nat 0%nat 7%nat)
  /\ exists gn w', construct (fun _ => Err FileNotFoundError) nat (fun _ => 5%nat) (fun _ _ _ x => x) low_config (make_low plane_gauss unit_quad) combo_args (Some plane_cfg) (World nat 0%nat 9%nat) = Ok (gn, w').
Proof.
  split; [reflexivity|]. split; [reflexivity|]. destruct (C51_refuted (fun _ => Err FileNotFoundError)) as (gn & _ & w' & _ & _ & _ & H & _). exists gn, w'. exact H.
Qed.

(** C52 *)

Theorem C52_grid : forall cfg, positive_lengths cfg ->
  exists g, make_low_grid cfg = Ok g
  /\ lg_L1 g = asked_L1 cfg /\ lg_L2 g = asked_L2 cfg /\ lg_N1 g = (2 ^ lc_e1 cfg)%nat /\ lg_N2 g = (2 ^ lc_e2 cfg)%nat
  /\ (let d := Rmin (asked_dx cfg) (asked_dy cfg) in
      lg_cdx g = d /\ lg_cdy g = d
      /\ Nat.Even (lg_cN1 g) /\ (2 <= lg_cN1 g)%nat /\ (lg_N1 g <= lg_cN1 g)%nat
      /\ lg_cL1 g = INR (lg_cN1 g) * d /\ Rmax (asked_L1 cfg) (5 * lc_L cfg) <= lg_cL1 g
      /\ (forall m, Nat.Even m -> Rmax (asked_L1 cfg) (5 * lc_L cfg) <= INR m * d -> (lg_cN1 g <= m)%nat)
      /\ Nat.Even (lg_cN2 g) /\ (2 <= lg_cN2 g)%nat /\ (lg_N2 g <= lg_cN2 g)%nat
      /\ lg_cL2 g = INR (lg_cN2 g) * d /\ Rmax (asked_L2 cfg) (5 * lc_L cfg) <= lg_cL2 g
      /\ (forall m, Nat.Even m -> Rmax (asked_L2 cfg) (5 * lc_L cfg) <= INR m * d -> (lg_cN2 g <= m)%nat)).
Proof. exact grid_api. Qed.
Print Assumptions C52_grid.

Theorem C52_only_positive : forall cfg g, / 10^9 < 5 * lc_L cfg -> make_low_grid cfg = Ok g -> positive_lengths cfg.
Proof. exact make_low_grid_positive. Qed.
Print Assumptions C52_only_positive.

Example C52_case : positive_lengths plane_cfg /\ exists g, make_low_grid plane_cfg = Ok g /\ lg_cN1 g = 4%nat /\ lg_cL1 g = 10 /\ / 10^9 < 5 * lc_L plane_cfg.
Proof.
  split; [exact plane_positive|]. destruct plane_exists as (w & HC). pose proof (plane_constructed _ _ HC) as P. exists (lw_grid w).
  split; [|rewrite (pl_c1 w P), (pl_cL1 w P); cbn; split; [reflexivity|split; [reflexivity|lra]]].
  unfold low_construct in HC. destruct (compute_c unit_quad plane_cfg) as [c|e]; [|discriminate]. cbn [bind] in HC.
  destruct (make_low_grid plane_cfg) as [g|e]; [|discriminate]. cbn [bind] in HC. injection HC as <-. reflexivity.
Qed.

(** C53 *)

Theorem C53_window : forall quad cfg w G (gauss : G -> R * G) g0, positive_lengths cfg -> low_construct quad cfg = Ok w ->
  let gr := lw_grid w in
  let n1 := (2 ^ lc_e1 cfg)%nat in let n2 := (2 ^ lc_e2 cfg)%nat in
  exists f1 f2 u1 u2 w', low_full w (fst (normal2 gauss (lg_cN1 gr) (lg_cN2 gr) g0)) = (f1, f2)
  /\ low_generate gauss w g0 = (Ok w', snd (normal2 gauss (lg_cN1 gr) (lg_cN2 gr) g0)) /\ lw_u w' = Some (u1, u2) /\ lw_grid w' = gr
  /\ shape2 (lg_cN1 gr) (lg_cN2 gr) f1 /\ shape2 (lg_cN1 gr) (lg_cN2 gr) f2 /\ shape2 n1 n2 u1 /\ shape2 n1 n2 u2
  /\ exists s1 s2, (lg_cN1 gr - n1 - 1 <= 2 * s1 <= lg_cN1 gr - n1)%nat /\ (lg_cN2 gr - n2 - 1 <= 2 * s2 <= lg_cN2 gr - n2)%nat
     /\ forall i j, (i < n1)%nat -> (j < n2)%nat -> entry u1 i j = entry f1 (i + s1) (j + s2) /\ entry u2 i j = entry f2 (i + s1) (j + s2)
        /\ entry u1 i j <> None /\ entry u2 i j <> None.
Proof. exact window_api. Qed.
Print Assumptions C53_window.

Theorem C53_any_sizes : forall cx cy nx ny f, shape2 cx cy f -> (0 < cx)%nat -> (nx <= cx)%nat -> (ny <= cy)%nat ->
  exists u, extract nx ny f = Ok u /\ shape2 nx ny u /\
    forall i j, (i < nx)%nat -> (j < ny)%nat -> entry u i j = entry f (i + (cx - nx) / 2) (j + (cy - ny) / 2).
Proof. exact extract_window. Qed.
Print Assumptions C53_any_sizes.

Theorem C53_rejects_small : forall cx cy nx ny f, shape2 cx cy f -> (0 < cx)%nat -> (0 < nx)%nat ->
  ((nx <= cx)%nat /\ (ny <= cy)%nat <-> exists u, extract nx ny f = Ok u)
  /\ (~ ((nx <= cx)%nat /\ (ny <= cy)%nat) <-> extract nx ny f = Err ValueError).
Proof. exact extract_iff. Qed.
Print Assumptions C53_rejects_small.

Example C53_case : let f := [[1; 2; 3; 4]; [5; 6; 7; 8]; [9; 10; 11; 12]; [13; 14; 15; 16]] in
  shape2 4 4 f /\ extract 2 2 f = Ok [[6; 7]; [10; 11]] /\ extract 5 2 f = Err ValueError.
Proof. cbv zeta. split; [split; [reflexivity|repeat constructor]|]. split; reflexivity. Qed.

(** C54: samples are computed with the smaller of the two spacings in both directions,
    but are labelled with the user's spacings; the offset of the window is the same
    for all noise. *)
Theorem C54_positions_partial : forall quad cfg w, positive_lengths cfg -> low_construct quad cfg = Ok w ->
  let gr := lw_grid w in
  let dl := Rmin (asked_dx cfg) (asked_dy cfg) in
  exists x0 y0, forall G (gauss : G -> R * G) g0,
  let noise := at2 (fst (normal2 gauss (lg_cN1 gr) (lg_cN2 gr) g0)) in
  exists w' g1, low_generate gauss w g0 = (Ok w', g1)
  /\ forall i j, (i < 2 ^ lc_e1 cfg)%nat -> (j < 2 ^ lc_e2 cfg)%nat ->
       low_interp w' (INR i * asked_dx cfg) (INR j * asked_dy cfg)
       = Ok (plane_waves gr (prescribed (gen_Q1 w) gr noise) (x0 + INR i * dl) (y0 + INR j * dl),
             plane_waves gr (prescribed (gen_Q2 w) gr noise) (x0 + INR i * dl) (y0 + INR j * dl)).
Proof. exact positions_api. Qed.
Print Assumptions C54_positions_partial.

(** C54: with equal spacings the coordinates are the positions, up to that offset. *)
Theorem C54_equal_spacing_partial : forall quad cfg w, positive_lengths cfg -> low_construct quad cfg = Ok w -> asked_dx cfg = asked_dy cfg ->
  let gr := lw_grid w in
  exists x0 y0, forall G (gauss : G -> R * G) g0,
  let noise := at2 (fst (normal2 gauss (lg_cN1 gr) (lg_cN2 gr) g0)) in
  exists w' g1, low_generate gauss w g0 = (Ok w', g1)
  /\ forall i j, (i < 2 ^ lc_e1 cfg)%nat -> (j < 2 ^ lc_e2 cfg)%nat ->
       let x := INR i * asked_dx cfg in let y := INR j * asked_dy cfg in
       low_interp w' x y = Ok (plane_waves gr (prescribed (gen_Q1 w) gr noise) (x0 + x) (y0 + y),
                               plane_waves gr (prescribed (gen_Q2 w) gr noise) (x0 + x) (y0 + y)).
Proof. exact equal_api. Qed.
Print Assumptions C54_equal_spacing_partial.

(** C54: with unequal spacings no offset makes them agree for all noise. *)
Theorem C54_refuted : forall quad cfg w, positive_lengths cfg -> low_construct quad cfg = Ok w -> 0 < lc_sigma2 cfg -> lc_L cfg <= 10^6 ->
  lg_cL1 (lw_grid w) <= 10^10 -> lg_cL2 (lw_grid w) <= 10^10 -> (1 <= lc_e1 cfg)%nat -> (1 <= lc_e2 cfg)%nat -> asked_dx cfg <> asked_dy cfg ->
  let gr := lw_grid w in
  ~ exists x0 y0, forall G (gauss : G -> R * G) g0,
      let noise := at2 (fst (normal2 gauss (lg_cN1 gr) (lg_cN2 gr) g0)) in
      exists w' g1, low_generate gauss w g0 = (Ok w', g1)
      /\ forall i j, (i < 2 ^ lc_e1 cfg)%nat -> (j < 2 ^ lc_e2 cfg)%nat ->
           let x := INR i * asked_dx cfg in let y := INR j * asked_dy cfg in
           low_interp w' x y = Ok (plane_waves gr (prescribed (gen_Q1 w) gr noise) (x0 + x) (y0 + y),
                                   plane_waves gr (prescribed (gen_Q2 w) gr noise) (x0 + x) (y0 + y)).
Proof. exact no_offset. Qed.
Print Assumptions C54_refuted.

Example C54_case : asked_dx plane_cfg = asked_dy plane_cfg
  /\ (let cfg := LowConfig 1 1 (PI / 4) 1 10 20 2 2 in positive_lengths cfg /\ asked_dx cfg <> asked_dy cfg /\ 0 < lc_sigma2 cfg
      /\ exists w, low_construct unit_quad cfg = Ok w /\ lg_cL1 (lw_grid w) <= 10^10 /\ lg_cL2 (lw_grid w) <= 10^10).
Proof.
  split; [destruct plane_spacing as [-> ->]; reflexivity|]. cbv zeta. set (cfg := LowConfig 1 1 (PI / 4) 1 10 20 2 2).
  assert (HP : positive_lengths cfg) by (unfold positive_lengths, cfg; cbn; lra).
  assert (HD : asked_dx cfg = 5/2 /\ asked_dy cfg = 5) by (unfold asked_dx, asked_dy, asked_L1, asked_L2, cfg; cbn; lra).
  split; [exact HP|]. split; [lra|]. split; [cbn; lra|].
  destruct (low_construct_ok unit_quad cfg HP) as (w & HC); [unfold unit_quad; apply Rle_trans with (/ 1); [apply Rinv_le_contravar; lra|lra]|].
  exists w. split; [exact HC|]. destruct (low_constructed _ _ _ HC HP) as (_ & F & _).
  pose proof (gf_c1 _ _ F) as C1. pose proof (gf_c2 _ _ F) as C2. pose proof (gf_s1 _ _ F) as S1. pose proof (gf_s2 _ _ F) as S2.
  destruct (gf_d _ _ F) as [D1 D2]. destruct HD as [E1 E2]. rewrite E1, E2, Rmin_left in D1, D2 by lra. rewrite C1, C2. rewrite D1 in *. rewrite D2 in *.
  unfold asked_L1, asked_L2, cfg in S1, S2. cbn [lc_f1 lc_f2 lc_L] in S1, S2. rewrite Rmax_left in S1, S2 by lra. lra.
Qed.

(** C55 *)

Theorem C55_kernel : forall c L psi zi dx dy k1 k2,
  Cplus (Cmult (RtoC k1) (low_Q1 c L psi zi dx dy k1 k2)) (Cmult (RtoC k2) (low_Q2 c L psi zi dx dy k1 k2)) = RtoC 0.
Proof. exact Q_solenoidal. Qed.
Print Assumptions C55_kernel.

Theorem C55_zero_mode : forall c L psi zi dx dy, low_Q1 c L psi zi dx dy 0 0 = RtoC 0 /\ low_Q2 c L psi zi dx dy 0 0 = RtoC 0.
Proof. exact Q_zero. Qed.
Print Assumptions C55_zero_mode.

Theorem C55_even_amplitude : forall c L psi zi dx dy k1 k2,
  low_phi c L psi zi dx dy (- k1) k2 = low_phi c L psi zi dx dy k1 k2 /\ low_phi c L psi zi dx dy k1 (- k2) = low_phi c L psi zi dx dy k1 k2.
Proof. exact (fun c L psi zi dx dy k1 k2 => conj (low_phi_even1 c L psi zi dx dy k1 k2) (low_phi_even2 c L psi zi dx dy k1 k2)). Qed.
Print Assumptions C55_even_amplitude.

Theorem C55_zero_mean : forall quad cfg w noise, positive_lengths cfg -> low_construct quad cfg = Ok w ->
  let g := lw_grid w in let d := (lg_cN1 g, lg_cN2 g, 1%nat) in
  Rsum (map (low_sample (gen_Q1 w) g noise) (nodes_of d)) = 0 /\ Rsum (map (low_sample (gen_Q2 w) g noise) (nodes_of d)) = 0.
Proof. exact mean_api. Qed.
Print Assumptions C55_zero_mean.

(** C55: the field is free of horizontal divergence away from the highest wave numbers
    of the grid ... *)
Theorem C55_field_partial : forall quad cfg w noise a b, positive_lengths cfg -> low_construct quad cfg = Ok w ->
  let g := lw_grid w in
  (a < lg_cN1 g)%nat -> (b < lg_cN2 g)%nat -> (2 * a <> lg_cN1 g)%nat -> (2 * b <> lg_cN2 g)%nat ->
  horizontal_divergence g (low_sample (gen_Q1 w) g noise) (low_sample (gen_Q2 w) g noise) (a, b, 0%nat) = RtoC 0.
Proof. exact divergence_api. Qed.
Print Assumptions C55_field_partial.

(** ... but not at the highest streamwise wave number. *)
Theorem C55_refuted : forall quad cfg w, positive_lengths cfg -> low_construct quad cfg = Ok w -> 0 < lc_sigma2 cfg -> lc_L cfg <= 10^6 ->
  (4 <= lg_cN2 (lw_grid w))%nat -> lg_cL2 (lw_grid w) <= 10^10 ->
  let g := lw_grid w in
  exists noise k, on_grid (lg_cN1 g, lg_cN2 g, 1%nat) k /\ horizontal_divergence g (low_sample (gen_Q1 w) g noise) (low_sample (gen_Q2 w) g noise) k <> RtoC 0.
Proof.
  intros quad cfg w HP HC Hs HL HN HL10 g. exists (spike (0, 0, 0)%nat), ((lg_cN1 g / 2)%nat, 1%nat, 0%nat). split.
  - destruct (low_constructed quad cfg w HC HP) as (_ & F & _). pose proof (gf_21 _ _ F) as H2. fold g in H2, HN.
    unfold on_grid. split; [|lia]. apply Nat.div_lt; lia.
  - destruct (nyquist_divergence quad cfg w HP HC Hs HL HN HL10) as (H & _). exact H.
Qed.
Print Assumptions C55_refuted.

Example C55_case : exists w, low_construct unit_quad plane_cfg = Ok w /\ positive_lengths plane_cfg /\ 0 < lc_sigma2 plane_cfg
  /\ (4 <= lg_cN2 (lw_grid w))%nat /\ (1 < lg_cN1 (lw_grid w))%nat /\ (2 * 1 <> lg_cN1 (lw_grid w))%nat.
Proof.
  destruct plane_exists as (w & HC). exists w. pose proof (plane_constructed _ _ HC) as P. split; [exact HC|]. split; [exact plane_positive|].
  rewrite (pl_c1 w P), (pl_c2 w P). cbn. repeat split; lra || lia.
Qed.

(** C56 *)

Theorem C56_bilinear_formula : forall xs ys V x y i j, increasing xs -> increasing ys -> in_cell xs i x -> in_cell ys j y ->
  let t := between (nth i xs 0) (nth (S i) xs 0) x in
  let s := between (nth j ys 0) (nth (S j) ys 0) y in
  interpolate xs ys V x y = (1 - t) * ((1 - s) * value V i j + s * value V i (S j)) + t * ((1 - s) * value V (S i) j + s * value V (S i) (S j)).
Proof. exact interpolate_cell. Qed.
Print Assumptions C56_bilinear_formula.

Theorem C56_nodes : forall w u1 u2 i j, lw_u w = Some (u1, u2) -> 0 < lg_L1 (lw_grid w) -> 0 < lg_L2 (lw_grid w) ->
  (i < lg_N1 (lw_grid w))%nat -> (j < lg_N2 (lw_grid w))%nat ->
  low_interp w (INR i * (lg_L1 (lw_grid w) / INR (lg_N1 (lw_grid w)))) (INR j * (lg_L2 (lw_grid w) / INR (lg_N2 (lw_grid w)))) = Ok (value u1 i j, value u2 i j).
Proof. exact interp_nodes_api. Qed.
Print Assumptions C56_nodes.

Theorem C56_exact_on_bilinear : forall xs ys V a b c e x y i j, increasing xs -> increasing ys -> in_cell xs i x -> in_cell ys j y ->
  (forall p q, (p < length xs)%nat -> (q < length ys)%nat -> value V p q = a + b * nth p xs 0 + c * nth q ys 0 + e * nth p xs 0 * nth q ys 0) ->
  interpolate xs ys V x y = a + b * x + c * y + e * x * y.
Proof. exact interpolate_bilinear. Qed.
Print Assumptions C56_exact_on_bilinear.

Theorem C56_range : forall w u1 u2 x y lo hi, lw_u w = Some (u1, u2) -> 0 < lg_L1 (lw_grid w) -> 0 < lg_L2 (lw_grid w) ->
  (2 <= lg_N1 (lw_grid w))%nat -> (2 <= lg_N2 (lw_grid w))%nat ->
  0 <= x <= INR (lg_N1 (lw_grid w) - 1) * (lg_L1 (lw_grid w) / INR (lg_N1 (lw_grid w))) ->
  0 <= y <= INR (lg_N2 (lw_grid w) - 1) * (lg_L2 (lw_grid w) / INR (lg_N2 (lw_grid w))) ->
  (forall i j, (i < lg_N1 (lw_grid w))%nat -> (j < lg_N2 (lw_grid w))%nat -> lo <= value u1 i j <= hi /\ lo <= value u2 i j <= hi) ->
  exists v1 v2, low_interp w x y = Ok (v1, v2) /\ lo <= v1 <= hi /\ lo <= v2 <= hi.
Proof. exact interp_range_api. Qed.
Print Assumptions C56_range.

Theorem C56_surrounding_nodes : forall xs ys V x y i j lo hi, increasing xs -> increasing ys -> in_cell xs i x -> in_cell ys j y ->
  (forall p q, (p = i \/ p = S i) -> (q = j \/ q = S j) -> lo <= value V p q <= hi) -> lo <= interpolate xs ys V x y <= hi.
Proof. exact interpolate_range. Qed.
Print Assumptions C56_surrounding_nodes.

Theorem C56_zero_outside : forall xs ys V x y, outside xs x \/ outside ys y -> interpolate xs ys V x y = 0.
Proof. exact interpolate_outside. Qed.
Print Assumptions C56_zero_outside.

Theorem C56_before_generate : forall w x y, lw_u w = None -> low_interp w x y = Err RuntimeError.
Proof. exact interp_before_generate. Qed.
Print Assumptions C56_before_generate.

Example C56_case : let xs := [0; 1; 3] in let V := [[0; 2; 6]; [1; 4; 10]; [3; 8; 18]] in
  increasing xs /\ in_cell xs 1 2 /\ in_cell xs 0 (1/2) /\ interpolate xs xs V 2 (1/2) = 4.
Proof.
  cbv zeta. assert (HI : increasing [0; 1; 3]).
  { intros i j [Hij Hj]. cbn in Hj. destruct i as [|[|[|i]]]; destruct j as [|[|[|j]]]; try lia; cbn; lra. }
  assert (C1 : in_cell [0; 1; 3] 1 2) by (split; cbn; [lia|lra]). assert (C0 : in_cell [0; 1; 3] 0 (1/2)) by (split; cbn; [lia|lra]).
  split; [exact HI|]. split; [exact C1|]. split; [exact C0|].
  rewrite (C56_bilinear_formula _ _ _ 2 (1/2) 1 0 HI HI C1 C0). unfold between, value. cbn. field.
Qed.

(** C58 *)

Theorem C58_non_negative : forall w u1 u2 tol ks F1 F2, lw_u w = Some (u1, u2) -> 0 < lg_L1 (lw_grid w) ->
  compute_spectrum w tol = Ok (ks, F1, F2) -> List.Forall (fun v => 0 <= v) F1 /\ List.Forall (fun v => 0 <= v) F2.
Proof. exact spectrum_nonneg. Qed.
Print Assumptions C58_non_negative.

(** C58: every positive wave number below the highest receives the energy of its mode;
    the highest receives nothing. *)
Theorem C58_estimate_partial : forall w u1 u2 tol, lw_u w = Some (u1, u2) ->
  let g := lw_grid w in
  0 < lg_L1 g -> (0 < lg_N1 g)%nat -> lg_dx g = lg_L1 g / INR (lg_N1 g) -> 0 < tol < 2 * PI / lg_L1 g ->
  exists ks F1 F2, compute_spectrum w tol = Ok (ks, F1, F2)
  /\ length ks = (lg_N1 g / 2)%nat /\ length F1 = (lg_N1 g / 2)%nat /\ length F2 = (lg_N1 g / 2)%nat
  /\ forall a, (1 <= a)%nat -> (a <= lg_N1 g / 2)%nat ->
       nth (a - 1) ks 0 = 2 * PI * INR a / lg_L1 g
       /\ nth (a - 1) F1 0 = (if (2 * a <? lg_N1 g)%nat then lg_L1 g / (2 * PI) * (mode_energy (lg_N1 g) (lg_N2 g) (at2 u1) a / (INR (lg_N1 g) * INR (lg_N2 g))^2) else 0)
       /\ nth (a - 1) F2 0 = (if (2 * a <? lg_N1 g)%nat then lg_L1 g / (2 * PI) * (mode_energy (lg_N1 g) (lg_N2 g) (at2 u2) a / (INR (lg_N1 g) * INR (lg_N2 g))^2) else 0).
Proof. exact compute_spectrum_spec. Qed.
Print Assumptions C58_estimate_partial.

Theorem C58_sum_rule_partial : forall m n L (u : node -> R), (0 < m)%nat -> (0 < n)%nat -> 0 < L ->
  let N := INR (2 * m) * INR n in
  let F a := L / (2 * PI) * (mode_energy (2 * m) n u a / N^2) in
  2 * Rsum (map (fun a => F a * (2 * PI / L)) (seq 1 (m - 1)))
  = Rsum (map (fun x => (u x)^2) (nodes_of (2 * m, n, 1)%nat)) / N - mode_energy (2 * m) n u 0 / N^2 - mode_energy (2 * m) n u m / N^2.
Proof. exact sum_rule. Qed.
Print Assumptions C58_sum_rule_partial.

Theorem C58_refuted : exists w u1 u2 w' g1 ks F1 F2,
  low_construct unit_quad plane_cfg = Ok w
  /\ low_generate plane_gauss w 0%nat = (Ok w', g1) /\ lw_u w' = Some (u1, u2)
  /\ compute_spectrum w' (1/2) = Ok (ks, F1, F2)
  /\ nth 1 ks 0 = 2 * PI * 2 / 10 /\ nth 1 F1 0 = 0
  /\ 0 < mode_energy 4 4 (at2 u1) 2.
Proof.
  destruct plane_exists as (w & HC). destruct (plane_generated w (plane_constructed _ _ HC) 0%nat) as (u1 & u2 & g1 & HG & _).
  assert (HT : 0 < 1/2 < 2 * PI / 10) by (pose proof PI_RGT_0; pose proof PI_4; pose proof PI2_3_2; lra).
  destruct (nyquist_unreported w u1 u2 (1/2) g1 HC HG HT) as (HE & ks & F1 & F2 & ES & K & V).
  exists w, u1, u2. do 2 eexists. exists ks, F1, F2. split; [exact HC|]. split; [exact HG|]. split; [reflexivity|]. tauto.
Qed.
Print Assumptions C58_refuted.

Example C58_case : exists w u1 u2, lw_u w = Some (u1, u2) /\ 0 < lg_L1 (lw_grid w) /\ (0 < lg_N1 (lw_grid w))%nat
  /\ lg_dx (lw_grid w) = lg_L1 (lw_grid w) / INR (lg_N1 (lw_grid w)) /\ 0 < 1/2 < 2 * PI / lg_L1 (lw_grid w).
Proof.
  destruct plane_exists as (w & HC). pose proof (plane_constructed _ _ HC) as P.
  destruct (plane_generated w P 0%nat) as (u1 & u2 & g1 & HG & _).
  exists (LowGen (lw_cfg w) (lw_c w) (lw_grid w) (Some (u1, u2))), u1, u2. split; [reflexivity|]. cbn [lw_grid].
  rewrite (gf_dx _ _ (pl_facts w P)), (pl_L1 w P), (pl_n1 w P). destruct plane_spacing as [-> _].
  split; [lra|]. split; [lia|]. split; [cbn [INR]; lra|]. pose proof PI_RGT_0. pose proof PI2_3_2. lra.
Qed.

(** C96: the last strip of the requested domain (one spacing wide) and everything
    beyond receives zero. *)
Theorem C96_refuted : forall quad cfg w G (gauss : G -> R * G) g0, positive_lengths cfg -> low_construct quad cfg = Ok w ->
  exists w' g1, low_generate gauss w g0 = (Ok w', g1)
  /\ (forall x y, asked_L1 cfg - asked_dx cfg < x -> low_interp w' x y = Ok (0, 0))
  /\ (forall x y, asked_L2 cfg - asked_dy cfg < y -> low_interp w' x y = Ok (0, 0)).
Proof. exact far_end_api. Qed.
Print Assumptions C96_refuted.

Example C96_case : exists w, low_construct unit_quad plane_cfg = Ok w /\ positive_lengths plane_cfg /\ asked_L1 plane_cfg - asked_dx plane_cfg < 9 /\ 9 < asked_L1 plane_cfg.
Proof.
  destruct plane_exists as (w & HC). exists w. split; [exact HC|]. split; [exact plane_positive|]. destruct plane_spacing as [-> _].
  unfold asked_L1. cbn. lra.
Qed.

(** C97: kernel of the generator and integrand of the analytical spectrum. *)
Theorem C97_kernel_matches_analytical : forall c L psi zi dx dy k1 k2, 0 <= c -> 0 < L -> L <= 10^6 -> / 10^16 <= dx * dy ->
  / 10^20 <= k1^2 + k2^2 -> / 10^20 <= low_kappa2 psi k1 k2 ->
  (Cmod (low_Q1 c L psi zi dx dy k1 k2))^2 = (2 * PI)^2 / (dx * dy) * integrand11 c L psi zi k1 k2
  /\ (Cmod (low_Q2 c L psi zi dx dy k1 k2))^2 = (2 * PI)^2 / (dx * dy) * integrand22 c L psi zi k1 k2.
Proof. exact kernel_integrand. Qed.
Print Assumptions C97_kernel_matches_analytical.

Theorem C97_integrand_is_model_spectrum : forall c L psi zi k1 k2, 0 < L -> L <= 10^6 -> / 10^24 <= k1^2 + k2^2 -> / 10^24 <= low_kappa2 psi k1 k2 ->
  integrand11 c L psi zi k1 k2 = planar c L psi zi k1 k2 * (k2^2 / (k1^2 + k2^2))
  /\ integrand22 c L psi zi k1 k2 = planar c L psi zi k1 k2 * (k1^2 / (k1^2 + k2^2)).
Proof. exact integrands_planar. Qed.
Print Assumptions C97_integrand_is_model_spectrum.

Theorem C97_covariance : forall quad cfg w x x', positive_lengths cfg -> low_construct quad cfg = Ok w -> 0 <= lc_sigma2 cfg -> lc_L cfg <= 10^6 ->
  let g := lw_grid w in
  lg_cL1 g <= 10^8 -> lg_cL2 g <= 10^8 -> / 10^16 <= lg_cdx g * lg_cdy g -> / 100 <= Rabs (cos (lc_psi cfg)) -> / 100 <= Rabs (sin (lc_psi cfg)) ->
  let d := (lg_cN1 g, lg_cN2 g, 1%nat) in
  let cell := (2 * PI / lg_cL1 g) * (2 * PI / lg_cL2 g) in
  on_grid d x -> on_grid d x' ->
  plane_covariance d (low_sample (gen_Q1 w) g) x x'
  = Rsum (map (fun k => let '(a, b, _) := k in
                 (if (2 * b =? lg_cN2 g)%nat then 0
                  else integrand11 (lw_c w) (lc_L cfg) (lc_psi cfg) (lc_zi cfg) (physical_k (lg_cL1 g) (lg_cN1 g) a) (physical_k (lg_cL2 g) (lg_cN2 g) b) * cell)
                 * cos (angle d k x - angle d k x')) (nodes_of d))
  /\ plane_covariance d (low_sample (gen_Q2 w) g) x x'
  = Rsum (map (fun k => let '(a, b, _) := k in
                 (if (2 * a =? lg_cN1 g)%nat then 0
                  else integrand22 (lw_c w) (lc_L cfg) (lc_psi cfg) (lc_zi cfg) (physical_k (lg_cL1 g) (lg_cN1 g) a) (physical_k (lg_cL2 g) (lg_cN2 g) b) * cell)
                 * cos (angle d k x - angle d k x')) (nodes_of d)).
Proof. exact low_covariance. Qed.
Print Assumptions C97_covariance.

Example C97_case : exists w, low_construct unit_quad plane_cfg = Ok w /\ 0 <= lc_sigma2 plane_cfg
  /\ lg_cL1 (lw_grid w) <= 10^8 /\ / 10^16 <= lg_cdx (lw_grid w) * lg_cdy (lw_grid w)
  /\ / 100 <= Rabs (cos (lc_psi plane_cfg)) /\ / 100 <= Rabs (sin (lc_psi plane_cfg)).
Proof.
  destruct plane_exists as (w & HC). exists w. pose proof (plane_constructed _ _ HC) as P. split; [exact HC|]. split; [cbn; lra|].
  rewrite (pl_cL1 w P), (pl_dx w P), (pl_dy w P). split; [lra|]. split; [apply Rle_trans with (/ 1); [apply Rinv_le_contravar; lra|lra]|].
  cbn [plane_cfg lc_psi]. rewrite cos_PI4, sin_PI4. assert (HS : 0 < sqrt 2) by (apply sqrt_lt_R0; lra).
  assert (HS2 : sqrt 2 <= 2). { rewrite <- (sqrt_square 2) at 2 by lra. apply sqrt_le_1; lra. }
  assert (H : / 2 <= 1 / sqrt 2) by (unfold Rdiv; rewrite Rmult_1_l; apply Rinv_le_contravar; assumption).
  rewrite Rabs_pos_eq by lra. split; lra.
Qed.

(** C98: the scale of the energy spectrum. *)
Theorem C98_variance : forall quad cfg w, low_construct quad cfg = Ok w -> (forall (r : R) f, quad (fun k => r * f k) = r * quad f) ->
  2 * quad (fun kappa => lw_c w * low_shape (lc_L cfg) (lc_zi cfg) kappa) = lc_sigma2 cfg.
Proof. exact c_normalises. Qed.
Print Assumptions C98_variance.

Theorem C98_shape : forall L zi kappa c, 0 < L -> L <= 10^6 -> / 10^15 <= kappa -> c * low_shape L zi kappa = E_exact c L zi kappa.
Proof. exact shape_exact. Qed.
Print Assumptions C98_shape.

Example C98_case : exists w, low_construct (fun f => f 1) plane_cfg = Ok w /\ lw_c w <> 0.
Proof.
  assert (H1 : / 10^16 <= low_shape 1 1 1).
  { rewrite <- (Rmult_1_l (low_shape 1 1 1)). rewrite C98_shape; [|lra|lra|apply Rle_trans with (/ 1); [apply Rinv_le_contravar; lra|lra]].
    unfold E_exact. replace (/ 1 ^ 2 + 1 ^ 2) with 2 by field. replace (1 + 1^2 * 1^2) with 2 by ring. replace (1 * 1^3) with 1 by ring.
    assert (HP : Rpower 2 (7/3) <= 8). { replace 8 with (Rpower 2 (INR 3)) by (rewrite Rpower_pow by lra; ring). apply Rle_Rpower; [lra|cbn; lra]. }
    assert (H0 : 0 < Rpower 2 (7/3)) by (unfold Rpower; apply exp_pos). unfold Rdiv. rewrite Rmult_1_l. apply Rinv_le_contravar; lra. }
  destruct (low_construct_ok (fun f => f 1) plane_cfg plane_positive H1) as (w & HC). exists w. split; [exact HC|].
  pose proof (pl_c w (plane_constructed _ _ HC)). lra.
Qed.
