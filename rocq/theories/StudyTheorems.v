(** Property theorems about the studies of the low-frequency generator (C144-C150). *)

From Coq Require Import String Reals List ZArith Bool Lia Lra Permutation Sorted.
From Coquelicot Require Import Coquelicot.
From Verif Require Import Prelude GenSpec DftModel DftSpec LowModel LowSpec LowProofs LowFourier LowMore LowSpectrum LowCov LowApi LowDemo EstSpec EstProofs EstLimit StudyModel StudySpec StudyProofs StudyPool StudyStats StudyResults StudyMore StudyFinal.
Import ListNotations.
Open Scope R_scope.

(** C144: the mesh study never shows a mesh: for all exponents, processes, orders of
    completion and random states it ends without a figure or raises. *)
Theorem C144_mesh_study_refuted : forall G (gauss : G -> R * G) quad low high g ps done, / 10^16 <= quad (low_shape 15000 500) ->
  (low < high)%nat -> mesh_execution gauss quad low high g ps done ->
  mesh_figure (exponents low high) done = if (low =? 0)%nat then Err ValueError else Ok None.
Proof. exact mesh_never. Qed.
Print Assumptions C144_mesh_study_refuted.

(** C144: a single run works exactly when the side of the square domain is at least
    five length scales. *)
Theorem C144_single_run_partial : forall G (gauss : G -> R * G) quad cfg f e n g, 0 < lc_L cfg -> 0 < f -> lc_f1 cfg = f -> lc_f2 cfg = f ->
  / 10^16 <= quad (low_shape (lc_L cfg) (lc_zi cfg)) -> (1 <= e)%nat -> (1 <= n)%nat ->
  (5 <= f <-> exists s, fst (run_single_mesh gauss quad e cfg n g) = Ok (e, s)) /\ (f < 5 <-> fst (run_single_mesh gauss quad e cfg n g) = Err ValueError).
Proof. exact mesh_square. Qed.
Print Assumptions C144_single_run_partial.

(** Default exponents 4 to 12 on three processes, completed in reverse order; a domain
    of eight and one of four scales. *)
Example C144_case : exists done, mesh_execution (counting (fun z => INR z)) unit_quad 4 12 0%nat [0;1;2;0;1;2;0;1;2]%nat done
  /\ mesh_figure (exponents 4 12) done = Ok None
  /\ (exists s, fst (run_single_mesh (counting (fun z => INR z)) unit_quad 3 (LowConfig 1 1 0 1 8 8 5 5) 2 0%nat) = Ok (3%nat, s))
  /\ fst (run_single_mesh (counting (fun z => INR z)) unit_quad 3 (LowConfig 1 1 0 1 4 4 5 5) 2 0%nat) = Err ValueError.
Proof.
  assert (HE : mesh_execution (counting (fun z => INR z)) unit_quad 4 12 0%nat [0;1;2;0;1;2;0;1;2]%nat
    (rev (pool (fun e => run_single_mesh (counting (fun z => INR z)) unit_quad e mesh_base 5) (fun _ => 0%nat) (combine (exponents 4 12) [0;1;2;0;1;2;0;1;2]%nat)))) by (split; [reflexivity|apply Permutation_sym, Permutation_rev]).
  eexists. split; [exact HE|]. split; [exact (C144_mesh_study_refuted _ _ _ 4 12 _ _ _ (unit_quad_large _) ltac:(lia) HE)|]. split.
  - apply (proj1 (C144_single_run_partial _ (counting (fun z => INR z)) unit_quad (LowConfig 1 1 0 1 8 8 5 5) 8 3 2 0%nat ltac:(cbn; lra) ltac:(lra) eq_refl eq_refl (unit_quad_large _) ltac:(lia) ltac:(lia))). lra.
  - apply (proj2 (C144_single_run_partial _ (counting (fun z => INR z)) unit_quad (LowConfig 1 1 0 1 4 4 5 5) 4 3 2 0%nat ltac:(cbn; lra) ltac:(lra) eq_refl eq_refl (unit_quad_large _) ltac:(lia) ltac:(lia))). lra.
Qed.

(** C145: the default factors 1 to 16 do not all appear in the domain study. *)
Theorem C145_domain_study_refuted : forall G (gauss : G -> R * G) quad g ps done, / 10^16 <= quad (low_shape 15000 500) -> domain_execution gauss quad default_factors g ps done ->
  exists c1 c2 c3 c4, domain_figure done = Some (c1, c2, c3, c4) /\ In 1 default_factors
  /\ forall y, ~ In (15 * 1, y) c1 /\ ~ In (15 * 1, y) c2 /\ ~ In (15 * 1, y) c3 /\ ~ In (15 * 1, y) c4.
Proof. exact domain_defaults. Qed.
Print Assumptions C145_domain_study_refuted.

(** C145: the sizes shown are those of at least five scales, in increasing order. *)
Theorem C145_sizes_partial : forall G (gauss : G -> R * G) quad factors g ps done, / 10^16 <= quad (low_shape 15000 500) ->
  List.Forall (fun f => 0 < f) factors -> domain_execution gauss quad factors g ps done ->
  (filter (Rleb 5) factors = [] -> domain_figure done = None)
  /\ (filter (Rleb 5) factors <> [] -> exists c1 c2 c3 c4 xs, domain_figure done = Some (c1, c2, c3, c4)
      /\ map fst c1 = xs /\ map fst c2 = xs /\ map fst c3 = xs /\ map fst c4 = xs
      /\ StronglySorted Rle xs /\ Permutation xs (map (fun f => 15 * f) (filter (Rleb 5) factors))).
Proof. exact domain_points. Qed.
Print Assumptions C145_sizes_partial.

(** C145: with the default factors the sizes shown are 75, 90, ..., 240 (in units of 1000),
    in all four curves. *)
Theorem C145_defaults_partial : forall G (gauss : G -> R * G) quad g ps done, / 10^16 <= quad (low_shape 15000 500) -> domain_execution gauss quad default_factors g ps done ->
  exists c1 c2 c3 c4, domain_figure done = Some (c1, c2, c3, c4)
  /\ List.Forall (fun c => map fst c = map (fun k => 15 * INR k) (seq 5 12)) [c1; c2; c3; c4].
Proof. exact domain_defaults_shown. Qed.
Print Assumptions C145_defaults_partial.

Example C145_case : exists done, domain_execution (counting (fun z => INR z)) unit_quad default_factors 7%nat (repeat 3%nat 16) done
  /\ List.Forall (fun f => 0 < f) default_factors /\ In 5 (filter (Rleb 5) default_factors) /\ ~ In 4 (filter (Rleb 5) default_factors).
Proof.
  eexists. split; [split; [reflexivity|apply Permutation_refl]|]. split; [exact defaults_positive|]. split.
  - apply filter_In. split; [|apply Rleb_true; lra]. unfold default_factors. apply in_map_iff. exists 5%nat. split; [cbn; ring|apply in_seq; lia].
  - intros I. apply filter_In in I. destruct I as [_ I]. apply Rleb_true in I. lra.
Qed.

(** C146: the figure depends on which process takes which task. *)
Theorem C146_processes_refuted : forall quad, / 10^16 <= quad (low_shape 15000 500) ->
  exists h done done', domain_execution (counting h) quad [5; 6] 0%nat [0; 1]%nat done /\ domain_execution (counting h) quad [5; 6] 0%nat [0; 0]%nat done'
  /\ domain_figure done <> domain_figure done'.
Proof. exact domain_processes. Qed.
Print Assumptions C146_processes_refuted.

(** C146: the order of completion does not matter. *)
Theorem C146_completion_order_partial : forall G (gauss : G -> R * G) quad factors g ps done done', / 10^16 <= quad (low_shape 15000 500) ->
  List.Forall (fun f => 0 < f) factors -> NoDup factors -> domain_execution gauss quad factors g ps done -> domain_execution gauss quad factors g ps done' ->
  domain_figure done = domain_figure done'.
Proof. exact domain_order. Qed.
Print Assumptions C146_completion_order_partial.

(** C146: with one process per task every task draws from the state of the parent, and
    the figure is that of the tasks run one by one from this state. *)
Theorem C146_one_process_each_partial : forall G (gauss : G -> R * G) quad factors g ps done, / 10^16 <= quad (low_shape 15000 500) ->
  List.Forall (fun f => 0 < f) factors -> NoDup factors -> NoDup ps -> domain_execution gauss quad factors g ps done ->
  domain_figure done = domain_figure (map (fun f => fst (run_single_domain gauss quad f domain_base 5 g)) factors).
Proof. exact domain_separate. Qed.
Print Assumptions C146_one_process_each_partial.

Example C146_case : List.Forall (fun f => 0 < f) default_factors /\ NoDup default_factors /\ NoDup (seq 0 16)
  /\ exists done done', domain_execution (counting (fun z => INR z)) unit_quad default_factors 0%nat (seq 0 16) done /\ domain_execution (counting (fun z => INR z)) unit_quad default_factors 0%nat (seq 0 16) done'
  /\ done' = rev done.
Proof.
  split; [exact defaults_positive|]. split; [exact defaults_distinct|]. split; [apply seq_NoDup|]. do 2 eexists. split; [split; [reflexivity|apply Permutation_refl]|]. split; [split; [reflexivity|apply Permutation_sym, Permutation_rev]|reflexivity].
Qed.

(** C147: the variances shown for a domain average to one fifth of the variances of
    the realisations. *)
Theorem C147_domain_variances_refuted : forall quad f, / 10^16 <= quad (low_shape 15000 500) -> 5 <= f <= 6000 ->
  exists w V1 V2, low_construct quad (with_factor f domain_base) = Ok w /\ 0 < V1 /\ 0 < V2
  /\ forall G (gauss : G -> R * G) ens st av, white gauss (5 * (2 ^ 9 * 2 ^ 9)) ens ->
     (forall g, fst (run_single_domain gauss quad f domain_base 5 g) = Ok (f, st g, 15000 * f)) ->
     (forall g, fst (average_variances gauss 5 w g) = Ok (av g)) ->
     mean ens (fun g => fst (av g)) = V1 /\ mean ens (fun g => snd (av g)) = V2
     /\ mean ens (fun g => snd (fst (st g))) = V1 / 5 /\ mean ens (fun g => snd (st g)) = V2 / 5
     /\ mean ens (fun g => fst (fst (fst (st g)))) = V1 / 5 * (15000 * f)^2 /\ mean ens (fun g => snd (fst (fst (st g)))) = V2 / 5 * (15000 * f)^2.
Proof. exact domain_variances. Qed.
Print Assumptions C147_domain_variances_refuted.

(** C147: averages of the statistics of a run of [n] realisations: the variances the
    grid carries, divided by [n]. *)
Theorem C147_run_partial : forall G (gauss : G -> R * G) ens quad cfg w n (st : G -> stats), positive_lengths cfg -> low_construct quad cfg = Ok w -> plain_domain cfg -> (1 <= n)%nat ->
  ordinary cfg (asked_L1 cfg) (asked_L2 cfg) (asked_dx cfg) (asked_dx cfg) ->
  let N1 := (2 ^ lc_e1 cfg)%nat in let N2 := (2 ^ lc_e2 cfg)%nat in
  let V1 := carried1 (lw_c w) cfg (asked_L1 cfg) (asked_L2 cfg) N1 N2 in
  let V2 := carried2 (lw_c w) cfg (asked_L1 cfg) (asked_L2 cfg) N1 N2 in
  white gauss (n * (N1 * N2)) ens ->
  (forall g, fst (run_single gauss quad cfg n g) = Ok (st g)) ->
  mean ens (fun g => fst (fst (fst (st g)))) = V1 / INR n * (asked_L1 cfg * asked_L2 cfg)
  /\ mean ens (fun g => snd (fst (fst (st g)))) = V2 / INR n * (asked_L1 cfg * asked_L2 cfg)
  /\ mean ens (fun g => snd (fst (st g))) = V1 / INR n /\ mean ens (fun g => snd (st g)) = V2 / INR n.
Proof. exact mean_run. Qed.
Print Assumptions C147_run_partial.

(** C147: whatever the schedule, the points of a domain of at least five scales are the
    norms and variances of the components of one run on this domain, each on the curve
    of its name. *)
Theorem C147_curves_partial : forall G (gauss : G -> R * G) quad factors g ps done f c1 c2 c3 c4, / 10^16 <= quad (low_shape 15000 500) ->
  List.Forall (fun f => 0 < f) factors -> domain_execution gauss quad factors g ps done -> In f factors -> 5 <= f ->
  domain_figure done = Some (c1, c2, c3, c4) ->
  exists g' n1 n2 v1 v2, fst (run_single_domain gauss quad f domain_base 5 g') = Ok (f, (n1, n2, v1, v2), 15000 * f)
  /\ In (15 * f, n1) c1 /\ In (15 * f, n2) c2 /\ In (15 * f, v1) c3 /\ In (15 * f, v2) c4.
Proof. exact domain_values. Qed.
Print Assumptions C147_curves_partial.

Example C147_case : exists st w av, white single_gauss (5 * (2 ^ 9 * 2 ^ 9)) (single_family (5 * (2 ^ 9 * 2 ^ 9))) /\ mean (single_family (5 * (2 ^ 9 * 2 ^ 9))) (fun _ => 1) = 1
  /\ low_construct unit_quad (with_factor 8 domain_base) = Ok w
  /\ (forall g, fst (run_single_domain single_gauss unit_quad 8 domain_base 5 g) = Ok (8, st g, 15000 * 8))
  /\ (forall g, fst (average_variances single_gauss 5 w g) = Ok (av g)).
Proof.
  destruct (factor_ordinary 8 ltac:(lra)) as (HP & _). destruct (low_construct_ok unit_quad _ HP (unit_quad_large _)) as (w & HC).
  destruct (reported_domain _ single_gauss 8 ltac:(lra)) as (st & HS). destruct (proj1 (reported_averages _ single_gauss unit_quad _ w 5 HP HC)) as (av & HA).
  assert (P : (1 <= 5 * (2 ^ 9 * 2 ^ 9))%nat) by (pose proof (Nat.pow_nonzero 2 9 ltac:(lia)) as P; generalize dependent (2 ^ 9)%nat; intros p Hp; nia).
  destruct (single_white (5 * (2 ^ 9 * 2 ^ 9)) P) as (SW & SM & _). exists st, w, av. split; [exact SW|]. split; [exact SM|]. split; [exact HC|]. split; [exact HS|exact HA].
Qed.

Example C147_run_case : exists w st, low_construct unit_quad plane_cfg = Ok w /\ plain_domain plane_cfg
  /\ ordinary plane_cfg (asked_L1 plane_cfg) (asked_L2 plane_cfg) (asked_dx plane_cfg) (asked_dx plane_cfg)
  /\ white single_gauss (3 * (2 ^ 2 * 2 ^ 2)) (single_family (3 * (2 ^ 2 * 2 ^ 2))) /\ forall g, fst (run_single single_gauss unit_quad plane_cfg 3 g) = Ok (st g).
Proof.
  destruct plane_exists as (w & HC). destruct plane_plain as (HD & _). destruct (reported_run _ single_gauss unit_quad plane_cfg 3 plane_positive (unit_quad_large _) ltac:(cbn; lia) ltac:(cbn; lia) ltac:(lia) HD) as (st & HS).
  destruct (single_white (3 * (2 ^ 2 * 2 ^ 2))) as (SW & _); [cbn; lia|]. exists w, st. split; [exact HC|]. split; [exact HD|]. split; [exact plane_ordinary|]. split; [exact SW|exact HS].
Qed.

(** C148: the variance printed as computed from the spectrum is at most half of the
    actual variance, so the two disagree for every field that is not constant. *)
Theorem C148_printed_variances_refuted : forall G (gauss : G -> R * G) quad cfg w w' g g' u1 u2 tol, positive_lengths cfg -> low_construct quad cfg = Ok w ->
  low_generate gauss w g = (Ok w', g') -> lw_u w' = Some (u1, u2) -> (2 <= lc_e1 cfg)%nat -> 0 < tol < 2 * PI / asked_L1 cfg ->
  exists s1 s2, printed_variances w' tol = Ok (var2 u1, s1, (var2 u2, s2)) /\ s1 <= var2 u1 / 2 /\ s2 <= var2 u2 / 2
  /\ (0 < var2 u1 -> s1 <> var2 u1) /\ (0 < var2 u2 -> s2 <> var2 u2).
Proof. exact printed_half. Qed.
Print Assumptions C148_printed_variances_refuted.

(** C148: twice the printed number, plus the variance in the streamwise modes of number
    zero and of the highest number, is the variance. *)
Theorem C148_balance_partial : forall G (gauss : G -> R * G) quad cfg w w' g g' u1 u2 tol, positive_lengths cfg -> low_construct quad cfg = Ok w ->
  low_generate gauss w g = (Ok w', g') -> lw_u w' = Some (u1, u2) -> (2 <= lc_e1 cfg)%nat -> 0 < tol < 2 * PI / asked_L1 cfg ->
  let N1 := (2 ^ lc_e1 cfg)%nat in let N2 := (2 ^ lc_e2 cfg)%nat in
  let N := INR N1 * INR N2 in
  let rest u := (mode_energy N1 N2 (at2 u) 0 + mode_energy N1 N2 (at2 u) (N1 / 2)) / N^2 - (Rsum (map (at2 u) (nodes_of (N1, N2, 1%nat))) / N)^2 in
  exists s1 s2, printed_variances w' tol = Ok (var2 u1, s1, (var2 u2, s2))
  /\ 2 * s1 + rest u1 = var2 u1 /\ 2 * s2 + rest u2 = var2 u2 /\ 0 <= s1 /\ 0 <= s2 /\ 0 <= rest u1 /\ 0 <= rest u2.
Proof. exact printed_api. Qed.
Print Assumptions C148_balance_partial.

Example C148_case : exists w w' g' u1 u2, low_construct unit_quad plane_cfg = Ok w /\ low_generate (counting (fun z => if (z =? 0)%nat then 1 else 0)) w 0%nat = (Ok w', g')
  /\ lw_u w' = Some (u1, u2) /\ 0 < var2 u1 /\ (2 <= lc_e1 plane_cfg)%nat /\ 0 < 1 / 2 < 2 * PI / asked_L1 plane_cfg.
Proof.
  destruct plane_struck as (w & w' & g' & u1 & u2 & H1 & H2 & H3 & H4). exists w, w', g', u1, u2. do 4 (split; [assumption|]). split; [cbn; lia|].
  destruct plane_plain as (_ & _ & L1 & _). rewrite L1. pose proof PI2_3_2. lra.
Qed.

(** C149: variances averaged over realisations are unbiased on the computational grid;
    those of the delivered fields never exceed this on average, and reach it when the
    domain needs no enlargement. *)
Theorem C149_delivered : forall G (gauss : G -> R * G) ens quad cfg w n, positive_lengths cfg -> low_construct quad cfg = Ok w -> (1 <= n)%nat ->
  let g := lw_grid w in
  ordinary cfg (lg_cL1 g) (lg_cL2 g) (lg_cdx g) (lg_cdy g) -> white gauss (n * (lg_cN1 g * lg_cN2 g)) ens ->
  let V1 := carried1 (lw_c w) cfg (lg_cL1 g) (lg_cL2 g) (lg_cN1 g) (lg_cN2 g) in
  let V2 := carried2 (lw_c w) cfg (lg_cL1 g) (lg_cL2 g) (lg_cN1 g) (lg_cN2 g) in
  forall (st : G -> R * R), (forall x, fst (average_variances gauss n w x) = Ok (st x)) ->
  (mean ens (fun x => fst (st x)) <= V1 /\ mean ens (fun x => snd (st x)) <= V2)
  /\ (plain_domain cfg -> mean ens (fun x => fst (st x)) = V1 /\ mean ens (fun x => snd (st x)) = V2).
Proof. exact average_delivered. Qed.
Print Assumptions C149_delivered.

Theorem C149_computational : forall G (gauss : G -> R * G) ens quad cfg w n, positive_lengths cfg -> low_construct quad cfg = Ok w -> (1 <= n)%nat ->
  let g := lw_grid w in
  ordinary cfg (lg_cL1 g) (lg_cL2 g) (lg_cdx g) (lg_cdy g) -> white gauss (n * (lg_cN1 g * lg_cN2 g)) ens ->
  let V1 := carried1 (lw_c w) cfg (lg_cL1 g) (lg_cL2 g) (lg_cN1 g) (lg_cN2 g) in
  let V2 := carried2 (lw_c w) cfg (lg_cL1 g) (lg_cL2 g) (lg_cN1 g) (lg_cN2 g) in
  forall (st : G -> R * R), (forall x, fst (average_full_variances gauss n w x) = Ok (st x)) ->
  mean ens (fun x => fst (st x)) = V1 /\ mean ens (fun x => snd (st x)) = V2.
Proof. exact average_full. Qed.
Print Assumptions C149_computational.

(** C149: the averages exist for every valid configuration and random state. *)
Theorem C149_defined : forall G (gauss : G -> R * G) quad cfg w n g, positive_lengths cfg -> low_construct quad cfg = Ok w ->
  is_ok (fst (average_variances gauss n w g)) /\ is_ok (fst (average_full_variances gauss n w g)).
Proof. exact averages_defined. Qed.
Print Assumptions C149_defined.

Example C149_case : exists w av full, low_construct unit_quad plane_cfg = Ok w
  /\ (let g := lw_grid w in ordinary plane_cfg (lg_cL1 g) (lg_cL2 g) (lg_cdx g) (lg_cdy g) /\ white single_gauss (2 * (lg_cN1 g * lg_cN2 g)) (single_family 32)
      /\ 0 < carried1 (lw_c w) plane_cfg (lg_cL1 g) (lg_cL2 g) (lg_cN1 g) (lg_cN2 g))
  /\ (forall x, fst (average_variances single_gauss 2 w x) = Ok (av x)) /\ (forall x, fst (average_full_variances single_gauss 2 w x) = Ok (full x)).
Proof.
  destruct plane_exists as (w & HC). destruct plane_plain as (HD & _). destruct (reported_averages _ single_gauss unit_quad plane_cfg w 2 plane_positive HC) as [(av & HA) (full & HF)].
  exists w, av, full. split; [exact HC|]. split; [|split; assumption]. cbv zeta. destruct (low_constructed unit_quad plane_cfg w HC plane_positive) as (_ & F & _).
  pose proof (carried_pos unit_quad plane_cfg w plane_positive HC ltac:(cbn; lra)) as CP. cbv zeta in CP.
  destruct (plain_counts plane_cfg (lw_grid w) plane_positive HD F) as (C1 & C2 & C3 & C4 & C5 & C6 & _). rewrite C1, C2, C3, C4, C5, C6 in *. cbn [lc_e1 lc_e2 plane_cfg] in *. change (2 ^ 2)%nat with 4%nat in *.
  split; [exact plane_ordinary|]. destruct (single_white 32) as (SW & _); [lia|]. split; [exact SW|]. apply (CP plane_ordinary); lia.
Qed.

(** C150: with one angle and plotting the anisotropy study raises. *)
Theorem C150_single_angle_refuted : forall G (gauss : G -> R * G) quad base, positive_lengths base -> / 10^16 <= quad (low_shape (lc_L base) (lc_zi base)) ->
  forall a n g, exists g', anisotropy_study gauss quad base [a] n true g = (Err TypeError, g').
Proof. exact study_single. Qed.
Print Assumptions C150_single_angle_refuted.

(** C150: otherwise it succeeds; results and rows are listed under the angle they were
    drawn with, the total is the sum of the components, and the symmetric colour scale
    covers every value shown and is the smallest such scale. *)
Theorem C150_several_angles_partial : forall G (gauss : G -> R * G) quad base angles n (plot : bool) g, positive_lengths base -> / 10^16 <= quad (low_shape (lc_L base) (lc_zi base)) ->
  (1 <= n)%nat -> NoDup angles -> ((if plot then 2 else 1) <= length angles)%nat ->
  exists es v rs g', anisotropy_study gauss quad base angles n plot g = (Ok (es, v, rs), g')
  /\ List.Forall2 (fun a e => fst e = a /\ exists w h h' v1 v2, low_construct quad (LowConfig (lc_sigma2 base) (lc_L base) (a * PI / 180) (lc_zi base) (lc_f1 base) (lc_f2 base) (lc_e1 base) (lc_e2 base)) = Ok w
       /\ average_variances gauss n w h = (Ok (v1, v2), h') /\ snd e = (v1, v2, v1 + v2)) angles es
  /\ (plot = true -> List.Forall2 (fun a r => fst r = a /\ drawn_with gauss quad (LowConfig (lc_sigma2 base) (lc_L base) (a * PI / 180) (lc_zi base) (lc_f1 base) (lc_f2 base) (lc_e1 base) (lc_e2 base)) (snd r)) angles rs
      /\ (forall r x, In r rs -> In x (values_of (snd r)) -> - v <= x <= v)
      /\ exists r x, In r rs /\ In x (values_of (snd r)) /\ (x = v \/ x = - v)).
Proof. exact study_succeeds. Qed.
Print Assumptions C150_several_angles_partial.

Example C150_case : positive_lengths plane_cfg /\ / 10^16 <= unit_quad (low_shape (lc_L plane_cfg) (lc_zi plane_cfg)) /\ NoDup [30; 45; 60] /\ ((if true then 2 else 1) <= length [30; 45; 60])%nat.
Proof.
  split; [exact plane_positive|]. split; [apply unit_quad_large|]. split; [|cbn; lia].
  constructor; [cbn; intros [E|[E|[]]]; lra|]. constructor; [cbn; intros [E|[]]; lra|]. constructor; [intros []|constructor].
Qed.
