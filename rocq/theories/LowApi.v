(** The low-frequency generator as seen by its user: lemmas in the form of the
    property statements. *)

From Coq Require Import String Reals List ZArith Bool Lia Lra.
From Coquelicot Require Import Complex.
From Verif Require Import Prelude GenModel GenSpec GenProofs DftModel DftSpec DftProofs DftMore DftCov LowModel LowSpec LowProofs LowFourier LowMore LowSpectrum LowCov LowDemo.
Import ListNotations.
Open Scope R_scope.

Lemma smallest_even : forall n d t, 0 < d -> Nat.Even n -> (INR n - 2) * d < t -> forall m, Nat.Even m -> t <= INR m * d -> (n <= m)%nat.
Proof.
  intros n d t Hd [a ->] H m [b ->] Hm. destruct (le_lt_dec (2 * a) (2 * b)) as [|HL]; [assumption|exfalso].
  assert (HI : INR (2 * b) <= INR (2 * a) - 2).
  { replace (INR (2 * a) - 2) with (INR (2 * a - 2)) by (rewrite minus_INR by lia; cbn [INR]; lra). apply le_INR. lia. }
  assert (INR (2 * b) * d <= (INR (2 * a) - 2) * d) by (apply Rmult_le_compat_r; lra). lra.
Qed.

Lemma grid_api : forall cfg, positive_lengths cfg ->
  exists g, make_low_grid cfg = Ok g
  /\ lg_L1 g = asked_L1 cfg /\ lg_L2 g = asked_L2 cfg /\ lg_N1 g = (2 ^ lc_e1 cfg)%nat /\ lg_N2 g = (2 ^ lc_e2 cfg)%nat
  /\ (let d := Rmin (asked_dx cfg) (asked_dy cfg) in
      lg_cdx g = d /\ lg_cdy g = d
      /\ Nat.Even (lg_cN1 g) /\ (2 <= lg_cN1 g)%nat /\ (lg_N1 g <= lg_cN1 g)%nat
      /\ lg_cL1 g = INR (lg_cN1 g) * d /\ Rmax (asked_L1 cfg) (5 * lc_L cfg) <= lg_cL1 g
      /\ (forall m, Nat.Even m -> Rmax (asked_L1 cfg) (5 * lc_L cfg) <= INR m * d -> (lg_cN1 g <= m)%nat)
      /\ Nat.Even (lg_cN2 g) /\ (2 <= lg_cN2 g)%nat /\ (lg_N2 g <= lg_cN2 g)%nat
      /\ lg_cL2 g = INR (lg_cN2 g) * d /\ Rmax (asked_L2 cfg) (5 * lc_L cfg) <= lg_cL2 g
      /\ (forall m, Nat.Even m -> Rmax (asked_L2 cfg) (5 * lc_L cfg) <= INR m * d -> (lg_cN2 g <= m)%nat)).
Proof.
  intros cfg HP. destruct (make_low_grid_ok cfg HP) as (g & E & F). exists g. split; [exact E|]. destruct (gf_d _ _ F) as [D1 D2]. pose proof (gf_dpos _ _ F) as DP.
  pose proof (gf_s1 _ _ F) as S1. pose proof (gf_s2 _ _ F) as S2. pose proof (gf_c1 _ _ F) as C1. pose proof (gf_c2 _ _ F) as C2. rewrite D1 in S1, C1. rewrite D2 in S2, C2.
  destruct F. cbv zeta. repeat (split; [assumption|]). split; [|repeat (split; [assumption|])].
  - apply (smallest_even _ _ _ DP gf_e1 S1).
  - apply (smallest_even _ _ _ DP gf_e2 S2).
Qed.

Lemma extract_iff : forall cx cy nx ny f, shape2 cx cy f -> (0 < cx)%nat -> (0 < nx)%nat ->
  ((nx <= cx)%nat /\ (ny <= cy)%nat <-> exists u, extract nx ny f = Ok u)
  /\ (~ ((nx <= cx)%nat /\ (ny <= cy)%nat) <-> extract nx ny f = Err ValueError).
Proof.
  intros cx cy nx ny f HS Hc Hn. destruct (le_lt_dec nx cx) as [A|A]; [destruct (le_lt_dec ny cy) as [B|B]|].
  - destruct (extract_window cx cy nx ny f HS Hc A B) as (u & E & _). rewrite E. split; (split; [|intros H]).
    + intros _. exists u. reflexivity.
    + tauto.
    + tauto.
    + discriminate H.
  - rewrite (extract_small cx cy nx ny f HS Hc Hn (or_intror B)). split; (split; [|intros H]).
    + lia.
    + destruct H as (u & H). discriminate H.
    + reflexivity.
    + lia.
  - rewrite (extract_small cx cy nx ny f HS Hc Hn (or_introl A)). split; (split; [|intros H]).
    + lia.
    + destruct H as (u & H). discriminate H.
    + reflexivity.
    + lia.
Qed.

(** Delivered window of the fields of the computational domain. *)
Lemma window_api : forall quad cfg w G (gauss : G -> R * G) g0, positive_lengths cfg -> low_construct quad cfg = Ok w ->
  let gr := lw_grid w in
  let n1 := (2 ^ lc_e1 cfg)%nat in let n2 := (2 ^ lc_e2 cfg)%nat in
  exists f1 f2 u1 u2 w', low_full w (fst (normal2 gauss (lg_cN1 gr) (lg_cN2 gr) g0)) = (f1, f2)
  /\ low_generate gauss w g0 = (Ok w', snd (normal2 gauss (lg_cN1 gr) (lg_cN2 gr) g0)) /\ lw_u w' = Some (u1, u2) /\ lw_grid w' = gr
  /\ shape2 (lg_cN1 gr) (lg_cN2 gr) f1 /\ shape2 (lg_cN1 gr) (lg_cN2 gr) f2 /\ shape2 n1 n2 u1 /\ shape2 n1 n2 u2
  /\ exists s1 s2, (lg_cN1 gr - n1 - 1 <= 2 * s1 <= lg_cN1 gr - n1)%nat /\ (lg_cN2 gr - n2 - 1 <= 2 * s2 <= lg_cN2 gr - n2)%nat
     /\ forall i j, (i < n1)%nat -> (j < n2)%nat -> entry u1 i j = entry f1 (i + s1) (j + s2) /\ entry u2 i j = entry f2 (i + s1) (j + s2)
        /\ entry u1 i j <> None /\ entry u2 i j <> None.
Proof.
  intros quad cfg w G gauss g0 HP HC gr n1 n2. destruct (low_constructed quad cfg w HC HP) as (_ & F & _).
  destruct (low_generated G gauss w cfg g0 F) as (u1 & u2 & E & S1 & S2 & V). fold gr in F, E, S1, S2, V.
  rewrite (gf_N1 _ _ F), (gf_N2 _ _ F) in *. fold n1 n2 in S1, S2, V.
  set (nz := fst (normal2 gauss (lg_cN1 gr) (lg_cN2 gr) g0)) in *.
  exists (fst (low_full w nz)), (snd (low_full w nz)), u1, u2. eexists. split; [reflexivity|]. split; [exact E|]. split; [reflexivity|]. split; [reflexivity|].
  split; [apply tabulate2_shape|]. split; [apply tabulate2_shape|]. split; [exact S1|]. split; [exact S2|].
  exists ((lg_cN1 gr - n1) / 2)%nat, ((lg_cN2 gr - n2) / 2)%nat.
  split; [pose proof (Nat.div_mod (lg_cN1 gr - n1) 2 ltac:(lia)); pose proof (Nat.mod_upper_bound (lg_cN1 gr - n1) 2); lia|].
  split; [pose proof (Nat.div_mod (lg_cN2 gr - n2) 2 ltac:(lia)); pose proof (Nat.mod_upper_bound (lg_cN2 gr - n2) 2); lia|].
  intros i j Hi Hj. destruct (V i j Hi Hj) as (A & B & C & D). split; [exact A|]. split; [exact B|]. rewrite C, D. split; discriminate.
Qed.

(** Positions at which the delivered samples were computed. *)
Lemma positions_api : forall quad cfg w, positive_lengths cfg -> low_construct quad cfg = Ok w ->
  let gr := lw_grid w in
  let dl := Rmin (asked_dx cfg) (asked_dy cfg) in
  exists x0 y0, forall G (gauss : G -> R * G) g0,
  let noise := at2 (fst (normal2 gauss (lg_cN1 gr) (lg_cN2 gr) g0)) in
  exists w' g1, low_generate gauss w g0 = (Ok w', g1)
  /\ forall i j, (i < 2 ^ lc_e1 cfg)%nat -> (j < 2 ^ lc_e2 cfg)%nat ->
       low_interp w' (INR i * asked_dx cfg) (INR j * asked_dy cfg)
       = Ok (plane_waves gr (prescribed (gen_Q1 w) gr noise) (x0 + INR i * dl) (y0 + INR j * dl),
             plane_waves gr (prescribed (gen_Q2 w) gr noise) (x0 + INR i * dl) (y0 + INR j * dl)).
Proof.
  intros quad cfg w HP HC gr dl. destruct (low_constructed quad cfg w HC HP) as (_ & F & _). fold gr in F.
  exists (INR ((lg_cN1 gr - lg_N1 gr) / 2) * dl), (INR ((lg_cN2 gr - lg_N2 gr) / 2) * dl). intros G gauss g0 noise.
  destruct (window_positions G gauss w cfg g0 F) as (w' & g1 & u1 & u2 & EG & EU & EGr & V). fold gr in EGr, V. fold noise in V. fold dl in V.
  exists w', g1. split; [exact EG|]. intros i j Hi Hj. destruct (V i j Hi Hj) as [V1 V2].
  unfold low_interp. rewrite EU, EGr. destruct HP as (HL & HF1 & HF2).
  assert (A1 : 0 < lg_L1 gr) by (rewrite (gf_L1 _ _ F); apply Rmult_lt_0_compat; assumption).
  assert (A2 : 0 < lg_L2 gr) by (rewrite (gf_L2 _ _ F); apply Rmult_lt_0_compat; assumption).
  assert (Ex : INR i * asked_dx cfg = nth i (user_coords (lg_L1 gr) (lg_N1 gr)) 0).
  { rewrite user_coords_nth by (rewrite (gf_N1 _ _ F); exact Hi). unfold asked_dx. rewrite (gf_L1 _ _ F), (gf_N1 _ _ F), pow2_INR. reflexivity. }
  assert (Ey : INR j * asked_dy cfg = nth j (user_coords (lg_L2 gr) (lg_N2 gr)) 0).
  { rewrite user_coords_nth by (rewrite (gf_N2 _ _ F); exact Hj). unfold asked_dy. rewrite (gf_L2 _ _ F), (gf_N2 _ _ F), pow2_INR. reflexivity. }
  assert (HI : forall u, interpolate (user_coords (lg_L1 gr) (lg_N1 gr)) (user_coords (lg_L2 gr) (lg_N2 gr)) u (INR i * asked_dx cfg) (INR j * asked_dy cfg) = value u i j).
  { intros u. rewrite Ex, Ey. apply interpolate_node; try (apply user_coords_increasing; assumption);
      rewrite user_coords_length, ?(gf_N1 _ _ F), ?(gf_N2 _ _ F); assumption. }
  rewrite !HI. rewrite (entry_value _ _ _ _ V1), (entry_value _ _ _ _ V2). reflexivity.
Qed.

Lemma equal_api : forall quad cfg w, positive_lengths cfg -> low_construct quad cfg = Ok w -> asked_dx cfg = asked_dy cfg ->
  let gr := lw_grid w in
  exists x0 y0, forall G (gauss : G -> R * G) g0,
  let noise := at2 (fst (normal2 gauss (lg_cN1 gr) (lg_cN2 gr) g0)) in
  exists w' g1, low_generate gauss w g0 = (Ok w', g1)
  /\ forall i j, (i < 2 ^ lc_e1 cfg)%nat -> (j < 2 ^ lc_e2 cfg)%nat ->
       let x := INR i * asked_dx cfg in let y := INR j * asked_dy cfg in
       low_interp w' x y = Ok (plane_waves gr (prescribed (gen_Q1 w) gr noise) (x0 + x) (y0 + y),
                               plane_waves gr (prescribed (gen_Q2 w) gr noise) (x0 + x) (y0 + y)).
Proof.
  intros quad cfg w HP HC HE. destruct (low_constructed quad cfg w HC HP) as (_ & F & _).
  apply (equal_spacing_positions w cfg HP F HE).
Qed.

(** Fourier coefficients of the generated fields. *)
Lemma coefficients_api : forall quad cfg w noise a b, positive_lengths cfg -> low_construct quad cfg = Ok w ->
  let g := lw_grid w in let d := (lg_cN1 g, lg_cN2 g, 1%nat) in
  (a < lg_cN1 g)%nat -> (b < lg_cN2 g)%nat ->
  fourier d (low_sample (gen_Q1 w) g noise) (a, b, 0%nat) = (if (2 * b =? lg_cN2 g)%nat then RtoC 0 else prescribed (gen_Q1 w) g noise (a, b, 0%nat))
  /\ fourier d (low_sample (gen_Q2 w) g noise) (a, b, 0%nat) = (if (2 * a =? lg_cN1 g)%nat then RtoC 0 else prescribed (gen_Q2 w) g noise (a, b, 0%nat)).
Proof.
  intros quad cfg w noise a b HP HC g d Ha Hb. destruct (low_constructed quad cfg w HC HP) as (_ & F & _). fold g in F.
  pose proof (gf_21 _ _ F). pose proof (gf_22 _ _ F). unfold gen_Q1, gen_Q2. fold g. unfold d.
  split; [apply coefficients1|apply coefficients2]; try lia; try apply (gf_c1 _ _ F); try apply (gf_c2 _ _ F).
Qed.

Lemma divergence_api : forall quad cfg w noise a b, positive_lengths cfg -> low_construct quad cfg = Ok w ->
  let g := lw_grid w in
  (a < lg_cN1 g)%nat -> (b < lg_cN2 g)%nat -> (2 * a <> lg_cN1 g)%nat -> (2 * b <> lg_cN2 g)%nat ->
  horizontal_divergence g (low_sample (gen_Q1 w) g noise) (low_sample (gen_Q2 w) g noise) (a, b, 0%nat) = RtoC 0.
Proof.
  intros quad cfg w noise a b HP HC g Ha Hb Na Nb. destruct (low_constructed quad cfg w HC HP) as (_ & F & _). fold g in F.
  pose proof (gf_21 _ _ F). pose proof (gf_22 _ _ F). unfold gen_Q1, gen_Q2. fold g.
  apply divergence_regular; try lia; try apply (gf_c1 _ _ F); try apply (gf_c2 _ _ F).
Qed.

(** The mean of the fields over the computational domain vanishes. *)
Lemma mean_api : forall quad cfg w noise, positive_lengths cfg -> low_construct quad cfg = Ok w ->
  let g := lw_grid w in let d := (lg_cN1 g, lg_cN2 g, 1%nat) in
  Rsum (map (low_sample (gen_Q1 w) g noise) (nodes_of d)) = 0 /\ Rsum (map (low_sample (gen_Q2 w) g noise) (nodes_of d)) = 0.
Proof.
  intros quad cfg w noise HP HC g d. destruct (low_constructed quad cfg w HC HP) as (_ & F & _). fold g in F.
  pose proof (gf_21 _ _ F). pose proof (gf_22 _ _ F).
  assert (HM : forall u, RtoC (Rsum (map u (nodes_of d))) = fourier d u (0, 0, 0)%nat).
  { intros u. rewrite fourier_fftn. unfold fftn. rewrite Rsum_RtoC, csum_nodes_of. apply csum_ext. intros [[p q] r] _.
    replace (theta d (0, 0, 0)%nat (p, q, r)) with 0 by (unfold d, theta; cbn [INR]; unfold Rdiv; ring). rewrite Ropp_0, cis_0. ring. }
  destruct (coefficients_api quad cfg w noise 0 0 HP HC) as [C1 C2]; fold g; try lia. fold g in C1, C2.
  rewrite (proj2 (Nat.eqb_neq (2 * 0) (lg_cN2 g))) in C1 by lia. rewrite (proj2 (Nat.eqb_neq (2 * 0) (lg_cN1 g))) in C2 by lia.
  destruct (Q_zero (lw_c w) (lc_L (lw_cfg w)) (lc_psi (lw_cfg w)) (lc_zi (lw_cfg w)) (lg_cdx g) (lg_cdy g)) as [Z1 Z2].
  split; apply RtoC_inj; rewrite HM; fold d in C1, C2; rewrite ?C1, ?C2; unfold prescribed, gen_Q1, gen_Q2; fold g; rewrite !physical_k_0 by lia; rewrite ?Z1, ?Z2; ring.
Qed.

(** Interpolation of the delivered fields. *)
Lemma interp_nodes_api : forall w u1 u2 i j, lw_u w = Some (u1, u2) -> 0 < lg_L1 (lw_grid w) -> 0 < lg_L2 (lw_grid w) ->
  (i < lg_N1 (lw_grid w))%nat -> (j < lg_N2 (lw_grid w))%nat ->
  low_interp w (INR i * (lg_L1 (lw_grid w) / INR (lg_N1 (lw_grid w)))) (INR j * (lg_L2 (lw_grid w) / INR (lg_N2 (lw_grid w)))) = Ok (value u1 i j, value u2 i j).
Proof.
  intros w u1 u2 i j HU H1 H2 Hi Hj. unfold low_interp. rewrite HU. rewrite <- !user_coords_nth by assumption.
  rewrite !interpolate_node; try (apply user_coords_increasing; assumption); try (rewrite user_coords_length; assumption). reflexivity.
Qed.

Lemma interp_before_generate : forall w x y, lw_u w = None -> low_interp w x y = Err RuntimeError.
Proof. intros w x y H. unfold low_interp. rewrite H. reflexivity. Qed.

(** Spectrum and energy. *)
Lemma spectrum_nonneg : forall w u1 u2 tol ks F1 F2, lw_u w = Some (u1, u2) -> 0 < lg_L1 (lw_grid w) ->
  compute_spectrum w tol = Ok (ks, F1, F2) -> List.Forall (fun v => 0 <= v) F1 /\ List.Forall (fun v => 0 <= v) F2.
Proof.
  intros w u1 u2 tol ks F1 F2 HU HL H. unfold compute_spectrum in H. rewrite HU in H. injection H as <- <- <-.
  assert (HS : forall u k, 0 <= spectrum_at_k (lw_grid w) u tol k).
  { intros u k. unfold spectrum_at_k. apply Rmult_le_pos.
    - apply Rsum_nonneg. intros x _. destruct (Rltb _ _); [|lra]. unfold power. apply pow2_ge_0.
    - unfold spectrum_scale. unfold Rdiv. apply Rmult_le_pos; [lra|]. destruct (Req_dec ((INR (lg_N1 (lw_grid w)) * INR (lg_N2 (lw_grid w)))^2 * (2 * PI)) 0) as [->|HN].
      + rewrite Rinv_0. lra.
      + left. apply Rinv_0_lt_compat. pose proof (pow2_ge_0 (INR (lg_N1 (lw_grid w)) * INR (lg_N2 (lw_grid w)))). pose proof PI_RGT_0.
        assert (0 <= (INR (lg_N1 (lw_grid w)) * INR (lg_N2 (lw_grid w)))^2 * (2 * PI)) by (apply Rmult_le_pos; lra). lra. }
  split; apply List.Forall_forall; intros v Hv; apply in_map_iff in Hv; destruct Hv as (k & <- & _); apply HS.
Qed.

(** Sum rule: twice the integral of the estimated spectrum is the mean square of the
    delivered field without its streamwise mean and without the highest streamwise
    wave number. *)
Lemma sum_rule : forall m n L (u : node -> R), (0 < m)%nat -> (0 < n)%nat -> 0 < L ->
  let N := INR (2 * m) * INR n in
  let F a := L / (2 * PI) * (mode_energy (2 * m) n u a / N^2) in
  2 * Rsum (map (fun a => F a * (2 * PI / L)) (seq 1 (m - 1)))
  = Rsum (map (fun x => (u x)^2) (nodes_of (2 * m, n, 1)%nat)) / N - mode_energy (2 * m) n u 0 / N^2 - mode_energy (2 * m) n u m / N^2.
Proof.
  intros m n L u Hm Hn HL N F. pose proof PI_RGT_0 as HPI.
  assert (HN : 0 < N) by (unfold N; apply Rmult_lt_0_compat; apply lt_0_INR; lia).
  pose proof (energy_balance m n u Hm Hn) as HB. pose proof (energy_rows (2 * m) n u ltac:(lia) Hn) as HR.
  rewrite (Rsum_ext _ (seq 1 (m - 1)) _ (fun a => / N^2 * mode_energy (2 * m) n u a)) by (intros a _; unfold F; field; lra).
  rewrite Rsum_scal. fold N in HR. rewrite HB in HR.
  set (S := Rsum (map (mode_energy (2 * m) n u) (seq 1 (m - 1)))) in *. set (U := Rsum (map (fun x => (u x)^2) _)) in *.
  set (e0 := mode_energy (2 * m) n u 0) in *. set (em := mode_energy (2 * m) n u m) in *. clearbody S U e0 em N.
  rewrite HR. field. lra.
Qed.

(** The far end of the requested domain. *)
Lemma far_end_api : forall quad cfg w G (gauss : G -> R * G) g0, positive_lengths cfg -> low_construct quad cfg = Ok w ->
  exists w' g1, low_generate gauss w g0 = (Ok w', g1)
  /\ (forall x y, asked_L1 cfg - asked_dx cfg < x -> low_interp w' x y = Ok (0, 0))
  /\ (forall x y, asked_L2 cfg - asked_dy cfg < y -> low_interp w' x y = Ok (0, 0)).
Proof.
  intros quad cfg w G gauss g0 HP HC. destruct (low_constructed quad cfg w HC HP) as (_ & F & _).
  destruct (low_generated G gauss w cfg g0 F) as (u1 & u2 & EG & _). do 2 eexists. split; [exact EG|].
  destruct HP as (HL & HF1 & HF2).
  assert (HO : forall L e, 0 < 2^e -> L - L / 2^e = INR (2 ^ e - 1) * (L / INR (2 ^ e))).
  { intros L e He. rewrite minus_INR by (apply Nat.neq_0_lt_0, Nat.pow_nonzero; lia). rewrite pow2_INR. cbn [INR]. field. lra. }
  assert (HN : forall e, (0 < 2 ^ e)%nat) by (intros e; apply Nat.neq_0_lt_0, Nat.pow_nonzero; lia).
  split; intros x y Hx; unfold low_interp; cbn [lw_u lw_grid].
  - assert (O : outside (user_coords (lg_L1 (lw_grid w)) (lg_N1 (lw_grid w))) x).
    { right. rewrite user_coords_length, (gf_N1 _ _ F), user_coords_nth by (pose proof (HN (lc_e1 cfg)); lia). rewrite (gf_L1 _ _ F).
      rewrite <- HO by (rewrite <- pow2_INR; apply pow2_pos). exact Hx. }
    rewrite !interpolate_outside by (left; exact O). reflexivity.
  - assert (O : outside (user_coords (lg_L2 (lw_grid w)) (lg_N2 (lw_grid w))) y).
    { right. rewrite user_coords_length, (gf_N2 _ _ F), user_coords_nth by (pose proof (HN (lc_e2 cfg)); lia). rewrite (gf_L2 _ _ F).
      rewrite <- HO by (rewrite <- pow2_INR; apply pow2_pos). exact Hx. }
    rewrite !interpolate_outside by (right; exact O). reflexivity.
Qed.

(** Inside the range of the nodes the interpolated value lies between the extreme
    delivered values. *)
Lemma interp_range_api : forall w u1 u2 x y lo hi, lw_u w = Some (u1, u2) -> 0 < lg_L1 (lw_grid w) -> 0 < lg_L2 (lw_grid w) ->
  (2 <= lg_N1 (lw_grid w))%nat -> (2 <= lg_N2 (lw_grid w))%nat ->
  0 <= x <= INR (lg_N1 (lw_grid w) - 1) * (lg_L1 (lw_grid w) / INR (lg_N1 (lw_grid w))) ->
  0 <= y <= INR (lg_N2 (lw_grid w) - 1) * (lg_L2 (lw_grid w) / INR (lg_N2 (lw_grid w))) ->
  (forall i j, (i < lg_N1 (lw_grid w))%nat -> (j < lg_N2 (lw_grid w))%nat -> lo <= value u1 i j <= hi /\ lo <= value u2 i j <= hi) ->
  exists v1 v2, low_interp w x y = Ok (v1, v2) /\ lo <= v1 <= hi /\ lo <= v2 <= hi.
Proof.
  intros w u1 u2 x y lo hi HU H1 H2 N1 N2 Hx Hy HV. unfold low_interp. rewrite HU. do 2 eexists. split; [reflexivity|].
  set (g := lw_grid w) in *.
  pose proof (user_coords_increasing (lg_L1 g) (lg_N1 g) H1) as I1. pose proof (user_coords_increasing (lg_L2 g) (lg_N2 g) H2) as I2.
  destruct (increasing_between (user_coords (lg_L1 g) (lg_N1 g)) x I1) as (i & Hi).
  { rewrite user_coords_length. exact N1. }
  { unfold outside. rewrite user_coords_length, !user_coords_nth by lia. cbn [INR]. lra. }
  destruct (increasing_between (user_coords (lg_L2 g) (lg_N2 g)) y I2) as (j & Hj).
  { rewrite user_coords_length. exact N2. }
  { unfold outside. rewrite user_coords_length, !user_coords_nth by lia. cbn [INR]. lra. }
  pose proof (proj1 Hi) as Li. pose proof (proj1 Hj) as Lj. rewrite user_coords_length in Li, Lj.
  split; apply (interpolate_range _ _ _ x y i j lo hi I1 I2 Hi Hj); intros p q [-> | ->] [-> | ->]; apply HV; lia.
Qed.
