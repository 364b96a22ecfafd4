(** Property theorems about the comparison of spectra of figure 2 (C159). *)

From Coq Require Import Reals List ZArith Bool Lia Lra.
From Coquelicot Require Import Coquelicot.
From Verif Require Import Prelude GenSpec DftModel DftSpec LowModel LowSpec LowProofs LowMore LowSpectrum LowDemo EstSpec EstProofs EstLimit StudyModel StudySpec StudyProofs StudyFinal Fig2Model Fig2Spec Fig2Proofs Fig2Final.
Import ListNotations.
Open Scope R_scope.

(** C159: the estimates of every realisation exist and share their wave numbers. *)
Theorem C159_estimates : forall G (gauss : G -> R * G) quad cfg w, usable quad cfg w ->
  exists ks, length ks = (2 ^ lc_e1 cfg / 2)%nat /\ (forall a, (1 <= a <= 2 ^ lc_e1 cfg / 2)%nat -> nth (a - 1) ks 0 = 2 * PI * INR a / asked_L1 cfg)
  /\ forall g, exists F1 F2, estimated gauss w (/ 10^9) g ks F1 F2 /\ length F1 = length ks /\ length F2 = length ks.
Proof. exact usable_waves. Qed.
Print Assumptions C159_estimates.

(** C159: both reports are produced; their curves are the premultiplied analytical spectra on
    the announced abscissae and the premultiplied averages of the estimates of [n] successive
    realisations. *)
Theorem C159_curves : forall G (gauss : G -> R * G) quad2 qa qb cfga cfgb wa wb n, usable qa cfga wa -> usable qb cfgb wb -> (1 <= n)%nat ->
  let M := (draws wa + draws wb)%nat in
  forall g, exists ra rb, recreate_fig2 gauss quad2 wa wb n g = (Ok (Some (ra, rb)), after gauss g (n * M))
  /\ has_points (cr_target ra) 500 /\ has_points (cr_target rb) 500
  /\ (forall i, (i < 500)%nat -> let x := Rpower 10 (-1 + 4 * INR i / 499) in let k := x / lc_L cfga in
        curve_point (cr_target ra) i x (k * fst (analytical quad2 wa 5 k)) (k * snd (analytical quad2 wa 5 k)))
  /\ (forall i, (i < 500)%nat -> let x := Rpower 10 (1/2 + 4 * INR i / 499) in let k := x / lc_L cfgb in
        curve_point (cr_target rb) i x (k * fst (analytical quad2 wb 5 k)) (k * snd (analytical quad2 wb 5 k)))
  /\ has_points (cr_numerical ra) (2 ^ lc_e1 cfga / 2) /\ has_points (cr_numerical rb) (2 ^ lc_e1 cfgb / 2)
  /\ (forall ks F1 F2, (forall r, (r < n)%nat -> estimated gauss wa (/ 10^9) (after gauss g (r * M)) ks (F1 r) (F2 r)) ->
        forall i, (i < 2 ^ lc_e1 cfga / 2)%nat -> curve_point (cr_numerical ra) i (nth i ks 0 * lc_L cfga)
          (nth i ks 0 * (Rsum (map (fun r => nth i (F1 r) 0) (seq 0 n)) / INR n)) (nth i ks 0 * (Rsum (map (fun r => nth i (F2 r) 0) (seq 0 n)) / INR n)))
  /\ (forall ks F1 F2, (forall r, (r < n)%nat -> estimated gauss wb (/ 10^9) (after gauss g (r * M + draws wa)) ks (F1 r) (F2 r)) ->
        forall i, (i < 2 ^ lc_e1 cfgb / 2)%nat -> curve_point (cr_numerical rb) i (nth i ks 0 * lc_L cfgb)
          (nth i ks 0 * (Rsum (map (fun r => nth i (F1 r) 0) (seq 0 n)) / INR n)) (nth i ks 0 * (Rsum (map (fun r => nth i (F2 r) 0) (seq 0 n)) / INR n))).
Proof. exact figure_curves. Qed.
Print Assumptions C159_curves.

(** C159: the printed values are points of the two curves nearest to the announced abscissae
    and highest points of the curves. *)
Theorem C159_printed : forall G (gauss : G -> R * G) quad2 qa qb cfga cfgb wa wb n, usable qa cfga wa -> usable qb cfgb wb -> (1 <= n)%nat ->
  forall g ra rb g', recreate_fig2 gauss quad2 wa wb n g = (Ok (Some (ra, rb)), g') ->
  printed_values ra [/ 10; 1; 10] /\ printed_values rb [10; 100; 1000].
Proof. exact figure_printed. Qed.
Print Assumptions C159_printed.

(** C159: without realisations nothing is drawn and the random state stays. *)
Theorem C159_none : forall G (gauss : G -> R * G) quad2 wa wb g, recreate_fig2 gauss quad2 wa wb 0 g = (Ok None, g).
Proof. exact figure_none. Qed.
Print Assumptions C159_none.

(** C159: averaged over the seeds, the numerical curves below the highest wave number are the
    premultiplied Riemann sums over the lateral wave numbers.  Missing: the highest wave number, where
    the claim is false. *)
Theorem C159_unbiased_partial : forall G (gauss : G -> R * G) ens quad2 qa cfga wa qb cfgb wb n, usable qa cfga wa -> usable qb cfgb wb -> (1 <= n)%nat ->
  white gauss (n * (draws wa + draws wb)) ens ->
  forall (fig : G -> case_report * case_report), (forall g, fst (recreate_fig2 gauss quad2 wa wb n g) = Ok (Some (fig g))) ->
  (plain_domain cfga -> guarded cfga -> forall a y1 y2, (1 <= a)%nat -> (2 * a < 2 ^ lc_e1 cfga)%nat ->
     let N2 := (2 ^ lc_e2 cfga)%nat in let k1 := 2 * PI * INR a / asked_L1 cfga in let dk := 2 * PI / asked_L2 cfga in
     (forall g, exists x, curve_point (cr_numerical (fst (fig g))) (a - 1) x (y1 g) (y2 g)) ->
     mean ens y1 = k1 * Rsum (map (fun j => integrand11 (lw_c wa) (lc_L cfga) (lc_psi cfga) (lc_zi cfga) k1 (dk * (INR j - INR N2 / 2)) * dk) (seq 1 (N2 - 1)))
     /\ mean ens y2 = k1 * Rsum (map (fun j => integrand22 (lw_c wa) (lc_L cfga) (lc_psi cfga) (lc_zi cfga) k1 (dk * (INR j - INR N2 / 2)) * dk) (seq 0 N2)))
  /\ (plain_domain cfgb -> guarded cfgb -> forall a y1 y2, (1 <= a)%nat -> (2 * a < 2 ^ lc_e1 cfgb)%nat ->
     let N2 := (2 ^ lc_e2 cfgb)%nat in let k1 := 2 * PI * INR a / asked_L1 cfgb in let dk := 2 * PI / asked_L2 cfgb in
     (forall g, exists x, curve_point (cr_numerical (snd (fig g))) (a - 1) x (y1 g) (y2 g)) ->
     mean ens y1 = k1 * Rsum (map (fun j => integrand11 (lw_c wb) (lc_L cfgb) (lc_psi cfgb) (lc_zi cfgb) k1 (dk * (INR j - INR N2 / 2)) * dk) (seq 1 (N2 - 1)))
     /\ mean ens y2 = k1 * Rsum (map (fun j => integrand22 (lw_c wb) (lc_L cfgb) (lc_psi cfgb) (lc_zi cfgb) k1 (dk * (INR j - INR N2 / 2)) * dk) (seq 0 N2))).
Proof. exact figure_unbiased. Qed.
Print Assumptions C159_unbiased_partial.

(** C159: at the highest wave number the numerical curves are zero for every seed and every
    number of realisations. *)
Theorem C159_highest_partial : forall G (gauss : G -> R * G) quad2 qa qb cfga cfgb wa wb n, usable qa cfga wa -> usable qb cfgb wb -> (1 <= n)%nat ->
  forall g ra rb g', recreate_fig2 gauss quad2 wa wb n g = (Ok (Some (ra, rb)), g') ->
  curve_point (cr_numerical ra) (2 ^ lc_e1 cfga / 2 - 1) (PI * 2 ^ lc_e1 cfga / lc_f1 cfga) 0 0
  /\ curve_point (cr_numerical rb) (2 ^ lc_e1 cfgb / 2 - 1) (PI * 2 ^ lc_e1 cfgb / lc_f1 cfgb) 0 0.
Proof. exact figure_highest. Qed.
Print Assumptions C159_highest_partial.

(** C159: although the analytical curve is positive there, so that the two never agree. *)
Theorem C159_highest_refuted : forall G (gauss : G -> R * G) qa cfga wa qb cfgb wb n, usable qa cfga wa -> usable qb cfgb wb -> (1 <= n)%nat ->
  guarded cfga -> 0 < lc_sigma2 cfga -> forall g ra rb g', recreate_fig2 gauss exact_quad wa wb n g = (Ok (Some (ra, rb)), g') ->
  let k := PI * 2 ^ lc_e1 cfga / asked_L1 cfga in
  curve_point (cr_numerical ra) (2 ^ lc_e1 cfga / 2 - 1) (k * lc_L cfga) 0 0 /\ 0 < k * snd (analytical exact_quad wa 5 k).
Proof. exact figure_highest_target. Qed.
Print Assumptions C159_highest_refuted.

(** C159: a generator with a single point along the wind raises. *)
Theorem C159_single_refuted : forall G (gauss : G -> R * G) quad2 qa cfga wa qb cfgb wb n g, positive_lengths cfga -> low_construct qa cfga = Ok wa ->
  positive_lengths cfgb -> low_construct qb cfgb = Ok wb -> (1 <= n)%nat -> lc_e1 cfga = 0%nat \/ lc_e1 cfgb = 0%nat ->
  fst (recreate_fig2 gauss quad2 wa wb n g) = Err ValueError.
Proof. exact figure_single. Qed.
Print Assumptions C159_single_refuted.

Example C159_case : exists w fig, usable unit_quad plane_cfg w /\ guarded plane_cfg /\ plain_domain plane_cfg /\ 0 < lc_sigma2 plane_cfg
  /\ white single_gauss (3 * (draws w + draws w)) (single_family (3 * (draws w + draws w)))
  /\ (forall g, fst (recreate_fig2 single_gauss exact_quad w w 3 g) = Ok (Some (fig g)))
  /\ exists y1 y2, forall g, exists x, curve_point (cr_numerical (fst (fig g))) 0 x (y1 g) (y2 g).
Proof.
  destruct plane_exists as (w & HC). destruct plane_plain as (HD & Hp & L1 & D1).
  assert (HU : usable unit_quad plane_cfg w) by (split; [exact plane_positive|]; split; [exact HC|]; split; [cbn; lia|rewrite L1; lra]).
  assert (HF : forall g, exists ra rb, fst (recreate_fig2 single_gauss exact_quad w w 3 g) = Ok (Some (ra, rb)) /\ exists x y1 y2, curve_point (cr_numerical ra) 0 x y1 y2).
  { intros g. destruct (C159_curves _ single_gauss exact_quad unit_quad unit_quad plane_cfg plane_cfg w w 3 HU HU ltac:(lia) g) as (ra & rb & E & _ & _ & _ & _ & (P1 & P2 & P3) & _). exists ra, rb. rewrite E. split; [reflexivity|].
    unfold curve_point. change (2 ^ lc_e1 plane_cfg / 2)%nat with 2%nat in P1, P2, P3. destruct (cu_x (cr_numerical ra)) as [|x l]; [discriminate|]. destruct (cu_11 (cr_numerical ra)) as [|y1 l1]; [discriminate|]. destruct (cu_22 (cr_numerical ra)) as [|y2 l2]; [discriminate|].
    exists x, y1, y2. split; [reflexivity|]. split; reflexivity. }
  set (some := fun g => match fst (recreate_fig2 single_gauss exact_quad w w 3 g) with Ok (Some p) => p | _ => (CaseReport (Curve2 [] [] []) (Curve2 [] [] []) [] [], CaseReport (Curve2 [] [] []) (Curve2 [] [] []) [] []) end).
  exists w, some. split; [exact HU|]. split.
  { split; [cbn; lra|]. split; [cbn; lra|]. split; [rewrite L1; lra|]. split; [rewrite D1; apply Rle_trans with (/ 1); [apply Rinv_le_contravar; lra|lra]|exact Hp]. }
  split; [exact HD|]. split; [cbn; lra|]. split.
  { apply single_white. destruct (low_constructed unit_quad plane_cfg w HC plane_positive) as (_ & F & _). destruct (plain_counts plane_cfg (lw_grid w) plane_positive HD F) as (C1 & C2 & _). unfold draws. rewrite C1, C2. cbn. lia. }
  split; [intros g; unfold some; destruct (HF g) as (ra & rb & E & _); rewrite E; reflexivity|].
  exists (fun g => nth 0 (cu_11 (cr_numerical (fst (some g)))) 0), (fun g => nth 0 (cu_22 (cr_numerical (fst (some g)))) 0).
  intros g. unfold some. destruct (HF g) as (ra & rb & E & x & y1 & y2 & P1 & P2 & P3). rewrite E. cbn [fst]. exists x. unfold curve_point. rewrite (nth_error_nth _ _ 0 P2), (nth_error_nth _ _ 0 P3). tauto.
Qed.

(** A generator with a single point along the wind. *)
Example C159_single_case : let cfg := LowConfig 1 1 (PI / 4) 1 10 10 0 2 in positive_lengths cfg /\ exists w, low_construct unit_quad cfg = Ok w /\ lc_e1 cfg = 0%nat.
Proof.
  cbv zeta. assert (HP : positive_lengths (LowConfig 1 1 (PI / 4) 1 10 10 0 2)) by (unfold positive_lengths; cbn; lra). split; [exact HP|].
  destruct (low_construct_ok unit_quad _ HP (unit_quad_large _)) as (w & HC). exists w. split; [exact HC|reflexivity].
Qed.
