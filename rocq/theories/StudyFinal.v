(** Lemmas in the form of the property theorems about the studies, and demonstrations. *)

From Coq Require Import String Reals List ZArith Bool Lia Lra Permutation Sorted.
From Coquelicot Require Import Coquelicot.
From Verif Require Import Prelude GenModel GenSpec GenProofs DftModel DftSpec DftProofs DftMore DftCov LowModel LowSpec LowProofs LowFourier LowMore LowSpectrum LowCov LowApi LowDemo EstSpec EstProofs EstLimit StudyModel StudySpec StudyProofs StudyPool StudyStats StudyAverages StudyResults StudyMore.
Import ListNotations.
Open Scope R_scope.

(** ** Mesh and domain studies *)

Lemma mesh_never : forall G (gauss : G -> R * G) quad low high g ps done, / 10^16 <= quad (low_shape 15000 500) ->
  (low < high)%nat -> mesh_execution gauss quad low high g ps done ->
  mesh_figure (exponents low high) done = if (low =? 0)%nat then Err ValueError else Ok None.
Proof.
  intros G gauss quad low high g ps done HQ HL HE. destruct (Nat.eqb_spec low 0) as [->|NE].
  - exact (mesh_raises G gauss quad high g ps done ltac:(lia) HQ HE).
  - exact (mesh_nothing G gauss quad low high g ps done ltac:(lia) HE).
Qed.

Lemma defaults_positive : List.Forall (fun f => 0 < f) default_factors.
Proof. unfold default_factors. apply Forall_forall. intros f Hf. apply in_map_iff in Hf. destruct Hf as (k & <- & Hk). apply in_seq in Hk. apply lt_0_INR. lia. Qed.

Lemma defaults_distinct : NoDup default_factors.
Proof.
  unfold default_factors. assert (H : forall l : list nat, NoDup l -> NoDup (map INR l)); [|apply H, seq_NoDup].
  intros l Hl. induction Hl as [|x l Hx Hl IH]; cbn; constructor; [|exact IH]. intros I. apply in_map_iff in I. destruct I as (y & E & Hy). apply INR_eq in E. subst y. exact (Hx Hy).
Qed.

Lemma domain_defaults : forall G (gauss : G -> R * G) quad g ps done, / 10^16 <= quad (low_shape 15000 500) -> domain_execution gauss quad default_factors g ps done ->
  exists c1 c2 c3 c4, domain_figure done = Some (c1, c2, c3, c4) /\ In 1 default_factors
  /\ forall y, ~ In (15 * 1, y) c1 /\ ~ In (15 * 1, y) c2 /\ ~ In (15 * 1, y) c3 /\ ~ In (15 * 1, y) c4.
Proof.
  intros G gauss quad g ps done HQ HE. destruct (domain_points G gauss quad default_factors g ps done HQ defaults_positive HE) as [_ HS].
  assert (NE : filter (Rleb 5) default_factors <> []).
  { assert (I : In 5 (filter (Rleb 5) default_factors)) by (apply filter_In; split; [unfold default_factors; apply in_map_iff; exists 5%nat; split; [cbn; ring|apply in_seq; lia]|apply Rleb_true; lra]). intros E. rewrite E in I. exact I. }
  destruct (HS NE) as (c1 & c2 & c3 & c4 & xs & EF & M1 & M2 & M3 & M4 & _ & PX). exists c1, c2, c3, c4. split; [exact EF|]. split.
  - unfold default_factors. apply in_map_iff. exists 1%nat. split; [reflexivity|apply in_seq; lia].
  - assert (NX : ~ In (15 * 1) xs).
    { intros I. apply (Permutation_in _ PX) in I. apply in_map_iff in I. destruct I as (f & E & I). apply filter_In in I. destruct I as [_ I]. apply Rleb_true in I. lra. }
    assert (H : forall c : list (R * R), map fst c = xs -> forall y, ~ In (15 * 1, y) c).
    { intros c M y I. apply NX. rewrite <- M. apply (in_map fst) in I. exact I. }
    intros y. repeat split; apply H; assumption.
Qed.

Lemma sorted_unique : forall l l', StronglySorted Rle l -> StronglySorted Rle l' -> Permutation l l' -> l = l'.
Proof.
  induction l as [|x l IH]; intros l' S S' P; [apply Permutation_nil in P; symmetry; exact P|].
  destruct l' as [|y l']; [symmetry in P; apply Permutation_nil in P; discriminate|].
  inversion S as [|? ? S1 F1]; subst. inversion S' as [|? ? S2 F2]; subst. rewrite Forall_forall in F1, F2.
  assert (E : x = y).
  { apply Rle_antisym.
    - destruct (Permutation_in y (Permutation_sym P) (or_introl eq_refl)) as [->|I]; [lra|exact (F1 _ I)].
    - destruct (Permutation_in x P (or_introl eq_refl)) as [->|I]; [lra|exact (F2 _ I)]. }
  subst y. f_equal. apply IH; [exact S1|exact S2|]. exact (Permutation_cons_inv P).
Qed.

Lemma seq_sorted : forall n a, StronglySorted Rle (map (fun k => 15 * INR k) (seq a n)).
Proof.
  induction n as [|n IH]; intros a; cbn [seq map]; constructor; [apply IH|].
  apply Forall_forall. intros x I. apply in_map_iff in I. destruct I as (k & <- & I). apply in_seq in I. assert (INR a <= INR k) by (apply le_INR; lia). lra.
Qed.

Lemma filter_defaults : filter (Rleb 5) default_factors = map INR (seq 5 12).
Proof.
  unfold default_factors. change (seq 1 16) with (seq 1 4 ++ seq 5 12)%list. rewrite map_app, filter_app.
  assert (F1 : forall l, List.Forall (fun k => (k < 5)%nat) l -> filter (Rleb 5) (map INR l) = []).
  { induction 1 as [|k l HK HL IH]; [reflexivity|]. cbn [map filter]. destruct (Rleb 5 (INR k)) eqn:E; [|exact IH]. apply Rleb_true in E.
    replace 5 with (INR 5) in E by (cbn; ring). apply INR_le in E. lia. }
  assert (F2 : forall l, List.Forall (fun k => (5 <= k)%nat) l -> filter (Rleb 5) (map INR l) = map INR l).
  { induction 1 as [|k l HK HL IH]; [reflexivity|]. cbn [map filter]. replace (Rleb 5 (INR k)) with true; [rewrite IH; reflexivity|].
    symmetry. apply Rleb_true. replace 5 with (INR 5) by (cbn; ring). apply le_INR. exact HK. }
  rewrite F1, F2; [reflexivity| |]; apply Forall_forall; intros k I; apply in_seq in I; lia.
Qed.

Lemma domain_defaults_shown : forall G (gauss : G -> R * G) quad g ps done, / 10^16 <= quad (low_shape 15000 500) -> domain_execution gauss quad default_factors g ps done ->
  exists c1 c2 c3 c4, domain_figure done = Some (c1, c2, c3, c4)
  /\ List.Forall (fun c => map fst c = map (fun k => 15 * INR k) (seq 5 12)) [c1; c2; c3; c4].
Proof.
  intros G gauss quad g ps done HQ HE. destruct (domain_points G gauss quad default_factors g ps done HQ defaults_positive HE) as [_ HS].
  rewrite filter_defaults in HS. destruct HS as (c1 & c2 & c3 & c4 & xs & EF & M1 & M2 & M3 & M4 & SX & PX); [discriminate|].
  rewrite map_map in PX. pose proof (sorted_unique _ _ SX (seq_sorted 12 5) PX) as ->.
  exists c1, c2, c3, c4. split; [exact EF|]. repeat (constructor; [assumption|]). constructor.
Qed.

(** ** Variances shown by the domain study *)

Lemma factor_ordinary : forall f, 5 <= f <= 6000 -> let c := with_factor f domain_base in
  positive_lengths c /\ plain_domain c /\ ordinary c (asked_L1 c) (asked_L2 c) (asked_dx c) (asked_dx c) /\ asked_L1 c = 15000 * f /\ asked_L2 c = 15000 * f.
Proof.
  intros f Hf c. assert (HP : positive_lengths c) by (unfold positive_lengths; cbn; lra). assert (E1 : asked_L1 c = 15000 * f) by (unfold asked_L1; cbn; ring). assert (E2 : asked_L2 c = 15000 * f) by (unfold asked_L2; cbn; ring).
  split; [exact HP|]. split; [apply factor_plain; lra|]. split; [|split; assumption].
  assert (ED : 1 <= asked_dx c). { unfold asked_dx. rewrite E1. change (lc_e1 c) with 9%nat. lra. }
  unfold ordinary. rewrite E1, E2. change (lc_sigma2 c) with 2. change (lc_L c) with 15000. change (lc_psi c) with (deg2rad 45). rewrite deg45, cos_PI4, sin_PI4.
  assert (S2 : / 100 <= Rabs (1 / sqrt 2)).
  { assert (P : 0 < sqrt 2) by (apply sqrt_lt_R0; lra). assert (B : sqrt 2 <= 2) by (rewrite <- (sqrt_square 2) at 2 by lra; apply sqrt_le_1; lra).
    rewrite Rabs_right by (apply Rle_ge, Rlt_le, Rdiv_lt_0_compat; lra). unfold Rdiv. rewrite Rmult_1_l. apply Rinv_le_contravar; lra. }
  repeat split; try lra; try exact S2. apply Rle_trans with (1 * 1); [|apply Rmult_le_compat; lra]. apply Rle_trans with (/ 1); [apply Rinv_le_contravar; lra|lra].
Qed.

Lemma domain_variances : forall quad f, / 10^16 <= quad (low_shape 15000 500) -> 5 <= f <= 6000 ->
  exists w V1 V2, low_construct quad (with_factor f domain_base) = Ok w /\ 0 < V1 /\ 0 < V2
  /\ forall G (gauss : G -> R * G) ens st av, white gauss (5 * (2 ^ 9 * 2 ^ 9)) ens ->
     (forall g, fst (run_single_domain gauss quad f domain_base 5 g) = Ok (f, st g, 15000 * f)) ->
     (forall g, fst (average_variances gauss 5 w g) = Ok (av g)) ->
     mean ens (fun g => fst (av g)) = V1 /\ mean ens (fun g => snd (av g)) = V2
     /\ mean ens (fun g => snd (fst (st g))) = V1 / 5 /\ mean ens (fun g => snd (st g)) = V2 / 5
     /\ mean ens (fun g => fst (fst (fst (st g)))) = V1 / 5 * (15000 * f)^2 /\ mean ens (fun g => snd (fst (fst (st g)))) = V2 / 5 * (15000 * f)^2.
Proof.
  intros quad f HQ Hf. destruct (factor_ordinary f Hf) as (HP & HD & HO & E1 & E2). cbv zeta in HP, HD, HO, E1, E2. set (cfg := with_factor f domain_base) in *.
  destruct (low_construct_ok quad cfg HP HQ) as (w & HC). exists w.
  destruct (low_constructed quad cfg w HC HP) as (EC & F & _). destruct (plain_counts cfg (lw_grid w) HP HD F) as (C1 & C2 & C3 & C4 & C5 & C6 & _).
  pose proof (carried_pos quad cfg w HP HC ltac:(cbn; lra)) as CP. cbv zeta in CP. rewrite C1, C2, C3, C4, C5, C6 in CP.
  assert (H4 : (4 <= 2 ^ lc_e1 cfg)%nat /\ (4 <= 2 ^ lc_e2 cfg)%nat).
  { pose proof (Nat.pow_le_mono_r 2 2 9 ltac:(lia) ltac:(lia)) as Q. change (2 ^ 2)%nat with 4%nat in Q. split; exact Q. }
  destruct (CP HO (proj1 H4) (proj2 H4)) as (V1P & V2P). clear CP. do 2 eexists. split; [exact HC|]. split; [exact V1P|]. split; [exact V2P|].
  intros G gauss ens st av HW HS HA.
  assert (HR : forall g, fst (run_single gauss quad cfg 5 g) = Ok (st g)).
  { intros g. specialize (HS g). unfold run_single_domain in HS. fold cfg in HS. destruct (run_single gauss quad cfg 5 g) as [[s|e] g1]; cbn [bind fst] in HS |- *; [|discriminate].
    apply (f_equal (fun r => match r with Ok (_, x, _) => x | Err _ => s end)) in HS. cbv beta iota in HS. rewrite HS. reflexivity. }
  destruct (mean_run G gauss ens quad cfg w 5 st HP HC HD ltac:(lia) HO HW HR) as (M1 & M2 & M3 & M4).
  pose proof (average_delivered G gauss ens quad cfg w 5 HP HC) as AD. cbv zeta in AD. rewrite C1, C2, C3, C4, C5, C6 in AD. destruct (AD ltac:(lia) HO HW av HA) as [_ AE]. destruct (AE HD) as [A1 A2].
  replace (INR 5) with 5 in * by (cbn; ring). rewrite E1, E2 in *. split; [exact A1|]. split; [exact A2|]. split; [exact M3|]. split; [exact M4|]. split; [rewrite M1|rewrite M2]; ring.
Qed.

(** ** Printed variances *)

Lemma printed_api : forall G (gauss : G -> R * G) quad cfg w w' g g' u1 u2 tol, positive_lengths cfg -> low_construct quad cfg = Ok w ->
  low_generate gauss w g = (Ok w', g') -> lw_u w' = Some (u1, u2) -> (2 <= lc_e1 cfg)%nat -> 0 < tol < 2 * PI / asked_L1 cfg ->
  let N1 := (2 ^ lc_e1 cfg)%nat in let N2 := (2 ^ lc_e2 cfg)%nat in
  let N := INR N1 * INR N2 in
  let rest u := (mode_energy N1 N2 (at2 u) 0 + mode_energy N1 N2 (at2 u) (N1 / 2)) / N^2 - (Rsum (map (at2 u) (nodes_of (N1, N2, 1%nat))) / N)^2 in
  exists s1 s2, printed_variances w' tol = Ok (var2 u1, s1, (var2 u2, s2))
  /\ 2 * s1 + rest u1 = var2 u1 /\ 2 * s2 + rest u2 = var2 u2 /\ 0 <= s1 /\ 0 <= s2 /\ 0 <= rest u1 /\ 0 <= rest u2.
Proof.
  intros G gauss quad cfg w w' g g' u1 u2 tol HP HC HG HU He HT N1 N2 N rest. destruct (low_constructed quad cfg w HC HP) as (EC & F & _).
  destruct (realisation G gauss cfg w w g HP EC F eq_refl eq_refl eq_refl) as (v1 & v2 & EG & S1 & S2 & _). rewrite EG in HG.
  apply (f_equal fst) in HG. cbn [fst] in HG. apply (f_equal (fun r => match r with Ok x => x | Err _ => w' end)) in HG. cbv beta iota in HG. rewrite <- HG in HU |- *. cbn [lw_u] in HU. injection HU as <- <-.
  rewrite (gf_N1 _ _ F), (gf_N2 _ _ F) in S1, S2. fold N1 N2 in S1, S2.
  assert (EN : N1 = (2 * (N1 / 2))%nat). { unfold N1. replace (lc_e1 cfg) with (S (lc_e1 cfg - 1)) by lia. rewrite Nat.pow_succ_r', (Nat.mul_comm 2 (2 ^ _)), Nat.div_mul by lia. lia. }
  assert (H2 : (2 <= N1 / 2)%nat). { pose proof (Nat.pow_le_mono_r 2 2 (lc_e1 cfg) ltac:(lia) He) as Q. fold N1 in Q. cbn [Nat.pow Nat.mul Nat.add] in Q. lia. }
  assert (P2 : (0 < N2)%nat) by (pose proof (Nat.pow_nonzero 2 (lc_e2 cfg) ltac:(lia)); unfold N2; lia).
  destruct HP as (PL & P1 & P2'). assert (PL1 : 0 < asked_L1 cfg) by (unfold asked_L1; apply Rmult_lt_0_compat; assumption).
  destruct (printed_identity (LowGen (lw_cfg w) (lw_c w) (lw_grid w) (Some (v1, v2))) v1 v2 tol (N1 / 2) eq_refl) as (s1 & s2 & EP & I1 & I2 & Z1 & Z2).
  all: cbn [lw_grid]; rewrite ?(gf_N1 _ _ F), ?(gf_N2 _ _ F), ?(gf_L1 _ _ F), ?(gf_dx _ _ F) ; try assumption; try reflexivity.
  { unfold asked_dx. rewrite pow_INR. reflexivity. }
  cbv zeta in I1, I2. cbn [lw_grid] in I1, I2, EP. rewrite ?(gf_N1 _ _ F), ?(gf_N2 _ _ F) in I1, I2. fold N1 N2 in I1, I2.
  exists s1, s2. split; [exact EP|]. rewrite <- EN in I1, I2. split; [exact I1|]. split; [exact I2|]. split; [exact Z1|]. split; [exact Z2|].
  assert (RN : forall u : plane, 0 <= rest u).
  { intros u. unfold rest. pose proof (rest_nonneg (N1 / 2) N2 (at2 u) ltac:(lia) P2) as RN. cbv zeta in RN. rewrite <- EN in RN. fold N in RN. lra. }
  split; apply RN.
Qed.

Lemma printed_half : forall G (gauss : G -> R * G) quad cfg w w' g g' u1 u2 tol, positive_lengths cfg -> low_construct quad cfg = Ok w ->
  low_generate gauss w g = (Ok w', g') -> lw_u w' = Some (u1, u2) -> (2 <= lc_e1 cfg)%nat -> 0 < tol < 2 * PI / asked_L1 cfg ->
  exists s1 s2, printed_variances w' tol = Ok (var2 u1, s1, (var2 u2, s2)) /\ s1 <= var2 u1 / 2 /\ s2 <= var2 u2 / 2
  /\ (0 < var2 u1 -> s1 <> var2 u1) /\ (0 < var2 u2 -> s2 <> var2 u2).
Proof.
  intros G gauss quad cfg w w' g g' u1 u2 tol HP HC HG HU He HT. destruct (printed_api G gauss quad cfg w w' g g' u1 u2 tol HP HC HG HU He HT) as (s1 & s2 & EP & I1 & I2 & Z1 & Z2 & R1 & R2).
  exists s1, s2. split; [exact EP|]. repeat split; lra.
Qed.

(** A field of positive variance on the domain of the demonstrations. *)
Lemma plane_struck : exists w w' g' u1 u2, low_construct unit_quad plane_cfg = Ok w /\ low_generate (counting (fun z => if (z =? 0)%nat then 1 else 0)) w 0%nat = (Ok w', g') /\ lw_u w' = Some (u1, u2) /\ 0 < var2 u1.
Proof.
  destruct plane_exists as (w & HC). pose proof plane_positive as HP. destruct (low_constructed _ _ w HC HP) as (EC & F & _). destruct plane_plain as (HD & _). destruct (plain_counts plane_cfg (lw_grid w) HP HD F) as (C1 & C2 & C3 & C4 & C5 & C6 & _).
  cbn [lc_e1 lc_e2 plane_cfg] in C1, C2. change (2 ^ 2)%nat with 4%nat in C1, C2.
  destruct (realisation nat (counting (fun z => if (z =? 0)%nat then 1 else 0)) plane_cfg w w 0%nat HP EC F eq_refl eq_refl eq_refl) as (u1 & u2 & EG & S1 & S2 & VV). cbv zeta in VV. rewrite (gf_N1 _ _ F), (gf_N2 _ _ F) in S1, S2, VV. cbn [lc_e1 lc_e2 plane_cfg] in S1, S2, VV. change (2 ^ 2)%nat with 4%nat in S1, S2, VV. rewrite C1, C2 in VV. change ((4 - 4) / 2)%nat with 0%nat in VV.
  exists w. do 2 eexists. exists u1, u2. split; [exact HC|]. split; [exact EG|]. split; [reflexivity|].
  destruct (field_active unit_quad plane_cfg w HP HC ltac:(cbn; lra) ltac:(cbn; lra)) as [FA _]. rewrite C1, C2 in FA. rewrite C6 in FA. destruct (FA ltac:(unfold asked_L2; cbn; lra) ltac:(lia)) as (x & Hx & NZ). clear FA.
  pose proof (fun noise => proj1 (mean_api unit_quad plane_cfg w noise HP HC)) as MA. rewrite C1, C2 in MA.
  set (T := low_sample (gen_Q1 w) (lw_grid w)) in *.
  assert (EU : forall y, on_grid (4, 4, 1)%nat y -> at2 u1 y = T (noise_of (counting (fun z => if (z =? 0)%nat then 1 else 0)) 4 4 0%nat 0) y).
  { intros [[i j] z] (Hi & Hj & Hz). replace z with 0%nat by lia. pose proof (proj1 (VV i j Hi Hj)) as V. rewrite !Nat.add_0_r in V. exact V. }
  rewrite (var2_nodes 4 4 u1 S1 ltac:(lia) ltac:(lia)).
  rewrite (Rsum_ext _ (nodes_of (4, 4, 1)%nat) (at2 u1) (T (noise_of (counting (fun z => if (z =? 0)%nat then 1 else 0)) 4 4 0%nat 0))) by (intros y Hy; apply EU, nodes_of_In; exact Hy). rewrite MA.
  replace ((0 / (INR 4 * INR 4))^2) with 0 by (unfold Rdiv; ring). rewrite Rminus_0_r. apply Rdiv_lt_0_compat; [|cbn; lra].
  (* some value differs from zero *)
  assert (NV : exists y, on_grid (4, 4, 1)%nat y /\ at2 u1 y <> 0).
  { exists x. split; [exact Hx|]. rewrite (EU x Hx). intros Z. apply NZ. rewrite <- Z.
    unfold T. apply low_sample_ext. intros [[p q] z] Hy. unfold comp_extents in Hy. rewrite C1, C2 in Hy. destruct Hy as (Hp & Hq & Hz). unfold noise_of, spike. rewrite counting_stream. replace z with 0%nat by lia.
    change (0 =? 0)%nat with true. rewrite andb_true_r. destruct (Nat.eqb_spec (0 + (0 * (4 * 4) + p * 4 + q)) 0) as [E|E]; destruct (Nat.eqb_spec p 0) as [Ep|Ep]; destruct (Nat.eqb_spec q 0) as [Eq|Eq]; try lia; reflexivity. }
  destruct NV as (y & Hy & NY). apply Rlt_le_trans with ((at2 u1 y)^2); [apply pow2_gt_0; exact NY|].
  apply (Rsum_ge_term _ (nodes_of (4, 4, 1)%nat) (fun x => (at2 u1 x)^2)); [intros z _; apply pow2_ge_0|apply nodes_of_In; exact Hy].
Qed.

(** ** Anisotropy study *)

Lemma study_succeeds : forall G (gauss : G -> R * G) quad base angles n (plot : bool) g, positive_lengths base -> / 10^16 <= quad (low_shape (lc_L base) (lc_zi base)) ->
  (1 <= n)%nat -> NoDup angles -> ((if plot then 2 else 1) <= length angles)%nat ->
  exists es v rs g', anisotropy_study gauss quad base angles n plot g = (Ok (es, v, rs), g')
  /\ List.Forall2 (fun a e => fst e = a /\ exists w h h' v1 v2, low_construct quad (LowConfig (lc_sigma2 base) (lc_L base) (a * PI / 180) (lc_zi base) (lc_f1 base) (lc_f2 base) (lc_e1 base) (lc_e2 base)) = Ok w
       /\ average_variances gauss n w h = (Ok (v1, v2), h') /\ snd e = (v1, v2, v1 + v2)) angles es
  /\ (plot = true -> List.Forall2 (fun a r => fst r = a /\ drawn_with gauss quad (LowConfig (lc_sigma2 base) (lc_L base) (a * PI / 180) (lc_zi base) (lc_f1 base) (lc_f2 base) (lc_e1 base) (lc_e2 base)) (snd r)) angles rs
      /\ (forall r x, In r rs -> In x (values_of (snd r)) -> - v <= x <= v)
      /\ exists r x, In r rs /\ In x (values_of (snd r)) /\ (x = v \/ x = - v)).
Proof.
  intros G gauss quad base angles n plot g HP HQ Hn HN HL. destruct (study_ok G gauss quad base HP HQ angles n plot g HN) as (es & v & rs & g' & E & F1 & F2 & F3 & _); [destruct plot; exact HL|].
  exists es, v, rs, g'. split; [exact E|]. split; [exact F1|]. intros Hp. destruct (F2 Hp) as [A B]. split; [exact A|]. split; [exact B|]. destruct (F3 Hp) as (r & x & Hr & Hx & Ex). exists r, x. split; [exact Hr|]. split; [exact Hx|].
  unfold Rabs in Ex. destruct (Rcase_abs x); [right; lra|left; exact Ex].
Qed.

(** ** Demonstrations *)

Lemma unit_quad_large : forall f, / 10^16 <= unit_quad f.
Proof. intros f. unfold unit_quad. apply Rle_trans with (/ 1); [apply Rinv_le_contravar; lra|lra]. Qed.

Lemma reported_domain : forall G (gauss : G -> R * G) f, 5 <= f -> exists st, forall g, fst (run_single_domain gauss unit_quad f domain_base 5 g) = Ok (f, st g, 15000 * f).
Proof.
  intros G gauss f Hf. exists (fun g => match fst (run_single_domain gauss unit_quad f domain_base 5 g) with Ok (_, s, _) => s | Err _ => (0, 0, 0, 0) end).
  intros g. destruct (domain_task gauss unit_quad (unit_quad_large _) f g ltac:(lra)) as [H _]. destruct (H Hf) as (s & E). rewrite E. reflexivity.
Qed.

Lemma reported_averages : forall G (gauss : G -> R * G) quad cfg w n, positive_lengths cfg -> low_construct quad cfg = Ok w ->
  (exists av, forall g, fst (average_variances gauss n w g) = Ok (av g)) /\ (exists av, forall g, fst (average_full_variances gauss n w g) = Ok (av g)).
Proof.
  intros G gauss quad cfg w n HP HC. split.
  - exists (fun g => match fst (average_variances gauss n w g) with Ok s => s | Err _ => (0, 0) end). intros g. destruct (proj1 (averages_defined G gauss quad cfg w n g HP HC)) as (a & E). rewrite E. reflexivity.
  - exists (fun g => match fst (average_full_variances gauss n w g) with Ok s => s | Err _ => (0, 0) end). intros g. destruct (proj2 (averages_defined G gauss quad cfg w n g HP HC)) as (a & E). rewrite E. reflexivity.
Qed.

Lemma reported_run : forall G (gauss : G -> R * G) quad cfg n, positive_lengths cfg -> / 10^16 <= quad (low_shape (lc_L cfg) (lc_zi cfg)) -> (1 <= lc_e1 cfg)%nat -> (1 <= lc_e2 cfg)%nat -> (1 <= n)%nat ->
  plain_domain cfg -> exists st : G -> stats, forall g, fst (run_single gauss quad cfg n g) = Ok (st g).
Proof.
  intros G gauss quad cfg n HP HQ E1 E2 Hn HD. exists (fun g => match fst (run_single gauss quad cfg n g) with Ok s => s | Err _ => (0, 0, 0, 0) end).
  intros g. destruct (proj1 (run_single_iff G gauss quad cfg n g HP HQ E1 E2 Hn) HD) as (s & E). rewrite E. reflexivity.
Qed.

Lemma plane_ordinary : ordinary plane_cfg (asked_L1 plane_cfg) (asked_L2 plane_cfg) (asked_dx plane_cfg) (asked_dx plane_cfg).
Proof.
  destruct plane_plain as (_ & _ & L1 & D1). assert (L2 : asked_L2 plane_cfg = 10) by (unfold asked_L2; cbn; ring). unfold ordinary. rewrite L1, L2, D1. cbn [lc_sigma2 lc_L lc_psi plane_cfg]. rewrite cos_PI4, sin_PI4.
  assert (S2 : / 100 <= Rabs (1 / sqrt 2)).
  { assert (P : 0 < sqrt 2) by (apply sqrt_lt_R0; lra). assert (B : sqrt 2 <= 2) by (rewrite <- (sqrt_square 2) at 2 by lra; apply sqrt_le_1; lra).
    rewrite Rabs_right by (apply Rle_ge, Rlt_le, Rdiv_lt_0_compat; lra). unfold Rdiv. rewrite Rmult_1_l. apply Rinv_le_contravar; lra. }
  repeat split; first [exact S2|lra].
Qed.

(** The points of a domain: the statistics of one run on this domain, each on its own curve. *)
Lemma combine_map_in : forall A X Y (f : A -> X) (h : A -> Y) l a, In a l -> In (f a, h a) (combine (map f l) (map h l)).
Proof.
  intros A X Y f h l a. induction l as [|b l IH]; intros H; [destruct H|]. cbn. destruct H as [->|H]; [left; reflexivity|right; apply IH; exact H].
Qed.

Lemma oks_in : forall A (l : list (res A)) a, In (Ok a) l -> In a (oks l).
Proof.
  intros A l a. induction l as [|r l IH]; intros H; [destruct H|]. destruct H as [->|H]; [left; reflexivity|].
  destruct r; [right|]; apply IH; exact H.
Qed.

Lemma Forall2_In_l : forall A B (P : A -> B -> Prop) l m, List.Forall2 P l m -> forall x, In x l -> exists y, In y m /\ P x y.
Proof.
  intros A B P l m H. induction H as [|x y l m Hp H IH]; intros x' Hx; [destruct Hx|]. destruct Hx as [<-|Hx].
  - exists y. split; [left; reflexivity|exact Hp].
  - destruct (IH x' Hx) as (y' & Hy & Hp'). exists y'. split; [right; exact Hy|exact Hp'].
Qed.

Lemma domain_values : forall G (gauss : G -> R * G) quad factors g ps done f c1 c2 c3 c4, / 10^16 <= quad (low_shape 15000 500) ->
  List.Forall (fun f => 0 < f) factors -> domain_execution gauss quad factors g ps done -> In f factors -> 5 <= f ->
  domain_figure done = Some (c1, c2, c3, c4) ->
  exists g' n1 n2 v1 v2, fst (run_single_domain gauss quad f domain_base 5 g') = Ok (f, (n1, n2, v1, v2), 15000 * f)
  /\ In (15 * f, n1) c1 /\ In (15 * f, n2) c2 /\ In (15 * f, v1) c3 /\ In (15 * f, v2) c4.
Proof.
  intros G gauss quad factors g ps done f c1 c2 c3 c4 HQ HF (HL & HP) HI H5 HD.
  pose proof (pool_all G R (R * stats * R) (fun f => run_single_domain gauss quad f domain_base 5)
    (fun f r => exists g', r = fst (run_single_domain gauss quad f domain_base 5 g')) (combine factors ps) (fun _ => g) ltac:(intros; eexists; reflexivity)) as FA.
  rewrite combine_fst in FA by exact HL. destruct (Forall2_In_l _ _ _ _ _ FA f HI) as (r & Hr & g' & Er).
  rewrite List.Forall_forall in HF. destruct (proj1 (domain_task gauss quad HQ f g' (HF f HI)) H5) as ((((n1 & n2) & v1) & v2) & Es).
  exists g', n1, n2, v1, v2. split; [exact Es|]. rewrite Es in Er. subst r.
  assert (IO : In (f, (n1, n2, v1, v2), 15000 * f) (oks done)) by (apply oks_in; apply (Permutation_in _ (Permutation_sym HP)); exact Hr).
  unfold domain_figure in HD. pose proof (sort_perm (fun a b : R * stats * R => Rleb (fst (fst a)) (fst (fst b))) (oks done)) as SP.
  apply (Permutation_in _ (Permutation_sym SP)) in IO. set (rs := sort_by _ (oks done)) in *.
  assert (HC : Some (curves_of (map (fun r => snd r / 1000) rs) (map (fun r : R * stats * R => snd (fst r)) rs)) = Some (c1, c2, c3, c4)) by (destruct rs; [destruct IO|exact HD]).
  unfold curves_of in HC. rewrite !map_map in HC. injection HC as <- <- <- <-.
  assert (E15 : 15 * f = 15000 * f / 1000) by field. rewrite E15.
  split; [|split; [|split]].
  - exact (combine_map_in _ _ _ (fun r : R * stats * R => snd r / 1000) (fun r : R * stats * R => fst (fst (fst (snd (fst r))))) rs _ IO).
  - exact (combine_map_in _ _ _ (fun r : R * stats * R => snd r / 1000) (fun r : R * stats * R => snd (fst (fst (snd (fst r))))) rs _ IO).
  - exact (combine_map_in _ _ _ (fun r : R * stats * R => snd r / 1000) (fun r : R * stats * R => snd (fst (snd (fst r)))) rs _ IO).
  - exact (combine_map_in _ _ _ (fun r : R * stats * R => snd r / 1000) (fun r : R * stats * R => snd (snd (fst r))) rs _ IO).
Qed.
