(** Lemmas for the fields at physical positions. *)

From Coq Require Import String Reals Lra Lia List Arith ZArith Bool.
From Coquelicot Require Import Complex.
From Verif Require Import Prelude RdtModel RdtSpec GenModel GenSpec GenProofs GenMore GenApi GenPhys GenDemo DftModel DftSpec DftProofs DftMore DftCov DftField
  EndSpec EndDft LowModel LowSpec LowProofs LowMore LowApi NodeSpec NodeProofs SiteSpec.
Import ListNotations.
Open Scope R_scope.

Lemma component_node : forall f i x, component_at f i x = at_node f i x.
Proof.
  intros f i [[p q] r]. unfold component_at, at_node, node_value.
  destruct (nth_error f p) as [pl|] eqn:E1.
  - rewrite (nth_error_nth f p [] E1). destruct (nth_error pl q) as [c|] eqn:E2.
    + rewrite (nth_error_nth pl q [] E2). destruct (nth_error c r) as [v|] eqn:E3.
      * rewrite (nth_error_nth c r (0, 0, 0) E3). destruct v as [[u v] w]. destruct i; reflexivity.
      * rewrite nth_overflow by (apply nth_error_None; exact E3). destruct i; reflexivity.
    + rewrite (nth_overflow pl) by (apply nth_error_None; exact E2). destruct r; destruct i; reflexivity.
  - rewrite (nth_overflow f) by (apply nth_error_None; exact E1). destruct q; destruct r; destruct i; reflexivity.
Qed.

Lemma turn_cos : forall t p p', cos (t - 2 * PI * (INR p - INR p')) = cos t.
Proof.
  intros t p p'. rewrite <- (cos_period (t - 2 * PI * (INR p - INR p')) p).
  rewrite <- (cos_period t p'). f_equal. ring.
Qed.
Lemma turn_sin : forall t p p', sin (t - 2 * PI * (INR p - INR p')) = sin t.
Proof.
  intros t p p'. rewrite <- (sin_period (t - 2 * PI * (INR p - INR p')) p).
  rewrite <- (sin_period t p'). f_equal. ring.
Qed.

(** One axis: the phase of the physical wave number differs from the angle of the
    transform by full turns. *)
Lemma axis_phase : forall h n a p p', 0 < h -> (0 < n)%nat ->
  exists e e', physical_k (h * INR n) n a * ((INR p - INR p') * h)
             = 2 * PI * (INR (a * p) / INR n) - 2 * PI * (INR (a * p') / INR n) - 2 * PI * (INR e - INR e').
Proof.
  intros h n a p p' Hh Hn. assert (HN : 0 < INR n) by (apply lt_0_INR; exact Hn).
  unfold physical_k. destruct (2 * a <? n)%nat.
  - exists 0%nat, 0%nat. rewrite !mult_INR. cbn [INR]. field. lra.
  - exists p, p'. rewrite !mult_INR. field. lra.
Qed.

Lemma phase_angle : forall hx hy hz nx ny nz m x x', 0 < hx -> 0 < hy -> 0 < hz -> nonempty (nx, ny, nz) ->
  let d := (nx, ny, nz) in
  cos (wave_phase (hx, hy, hz) d m x x') = cos (angle d m x - angle d m x')
  /\ sin (wave_phase (hx, hy, hz) d m x x') = sin (angle d m x - angle d m x').
Proof.
  intros hx hy hz nx ny nz [[a b] c] [[p q] r] [[p' q'] r'] Hx Hy Hz (Nx & Ny & Nz). cbv zeta. unfold wave_phase, angle.
  destruct (axis_phase hx nx a p p' Hx Nx) as (e1 & f1 & ->).
  destruct (axis_phase hy ny b q q' Hy Ny) as (e2 & f2 & ->).
  destruct (axis_phase hz nz c r r' Hz Nz) as (e3 & f3 & ->).
  match goal with |- cos ?u = cos ?v /\ _ =>
    replace u with (v - 2 * PI * (INR (e1 + (e2 + e3)) - INR (f1 + (f2 + f3)))) by (rewrite !plus_INR; ring) end.
  split; [apply turn_cos|apply turn_sin].
Qed.

Lemma noise_covariance_ext : forall s d T T' i j x x',
  (forall n k, T n k x = T' n k x) -> (forall n k, T n k x' = T' n k x') ->
  noise_covariance s d T i j x x' = noise_covariance s d T' i j x x'.
Proof.
  intros s d T T' i j x x' H H'. unfold noise_covariance. f_equal. apply map_ext. intros y. unfold sum3. rewrite !H, !H'. reflexivity.
Qed.

Lemma fold_ext : forall A (l : list A) (f g : A -> C -> C) z, (forall a c, In a l -> f a c = g a c) -> fold_right f z l = fold_right g z l.
Proof.
  intros A l f g z H. induction l as [|a l IH]; [reflexivity|]. cbn [fold_right]. rewrite IH by (intros; apply H; right; assumption).
  apply H. left. reflexivity.
Qed.

Lemma odd_level : forall l k, Nat.Odd (2 ^ S l + 1 + 2 * k).
Proof. intros l k. exists (2 ^ l + k)%nat. cbn [Nat.pow]. lia. Qed.

Lemma constructed_parts : forall stored G (seeded : Z -> G) sampler C2 (low_make : C2 -> G -> res (low_view * G)) a config w gn w' cs
  Lx Ly Lz lx ly lz,
  ga_dims a = (Lx, Ly, Lz) -> ga_levels a = (lx, ly, lz) -> 0 < Lx -> 0 < Ly -> 0 < Lz ->
  scales_of stored a = Ok cs -> 0 < cs_L cs -> 0 < cs_Gamma cs ->
  construct stored G seeded sampler C2 low_make a config w = Ok (gn, w') ->
  let geo := gen_geo G gn in
  gen_correlate G gn = sampler (ga_model a) cs geo /\ g_dims geo = (Lx, Ly, Lz)
  /\ g_Nx geo = nodes lx /\ g_Ny geo = nodes ly /\ g_Nz geo = nodes lz
  /\ gen_std G gn = sqrt (Lx / INR (nodes lx) * (Ly / INR (nodes ly)) * (Lz / INR (nodes lz))).
Proof.
  intros stored G seeded sampler C2 low_make a config w gn w' cs Lx Ly Lz lx ly lz ED EL HLx HLy HLz Hcs HL HT H. cbv zeta.
  unfold construct in H. rewrite Hcs in H. cbn [bind] in H. rewrite ED, EL in H.
  destruct (geometry_sound Lx Ly Lz lx ly lz (cs_L cs) (cs_Gamma cs) (ga_blend a) HLx HLy HLz HL HT)
    as (g & Eg & _ & N1 & N2 & N3 & _ & ND & _).
  rewrite Eg in H. cbn [bind] in H. destruct config as [c|].
  - destruct (low_make c (w_global G w)) as [lg|e]; [|discriminate H]. cbn [bind] in H.
    apply (f_equal (fun r => match r with Ok x => fst x | Err _ => gn end)) in H. cbn [fst] in H. subst gn. cbn. repeat split; assumption.
  - apply (f_equal (fun r => match r with Ok x => fst x | Err _ => gn end)) in H. cbn [fst] in H. subst gn. cbn. repeat split; assumption.
Qed.

(** ** Covariance on grids of any size *)

Lemma paired_share : forall d K k i j, nonempty d -> on_grid d k ->
  paired d K k i j = Cplus (Cmult (RtoC (share (snd d) (snd k))) (K k i j))
                           (Cmult (RtoC (share (snd d) (snd (mirror d k)))) (Cconj (K (mirror d k) i j))).
Proof.
  intros d K k i j Hd Hk. pose proof (share_total d k Hk) as ST.
  unfold paired. cbv zeta. set (m := mirror d k) in *. set (s2 := share (snd d) (snd m)) in *.
  assert (E2 : s2 = 1 - share (snd d) (snd k)) by lra. rewrite E2. clear E2 ST s2.
  destruct d as [[nx ny] nz], k as [[a b] c]. cbn [snd]. destruct Hk as (_ & _ & Hc). unfold share, weight.
  destruct (Nat.eqb_spec c 0) as [E|E]; cbn [orb].
  - subst c. destruct (Nat.leb_spec (2 * 0) nz); [|lia].
    replace (1 / 2) with (/ 2) by lra. replace (1 - / 2) with (/ 2) by lra. ring.
  - destruct (Nat.eqb_spec (2 * c) nz) as [E'|E'].
    + destruct (Nat.leb_spec (2 * c) nz); [|lia]. replace (1 / 2) with (/ 2) by lra. replace (1 - / 2) with (/ 2) by lra. ring.
    + destruct (Nat.ltb_spec (2 * c) nz), (Nat.leb_spec (2 * c) nz); try lia.
      * replace (2 / 2) with 1 by lra. replace (1 - 1) with 0 by lra. ring.
      * replace (1 - 0) with 1 by lra. ring.
Qed.

Lemma impulse_response : forall G L d l y i x, nonempty d -> on_grid d y ->
  RtoC (sample_vf G L d (impulse l y) i x)
  = Cmult (RtoC (/ (count d * transform_norm L) * sqrt (count d)))
      (csum (grid d) (fun k => Cmult (Cmult (paired d (spectrum_at G L d) k i l) (cis (theta d k x))) (cis (- theta d k y)))).
Proof.
  intros G L d l y i x Hd Hy. unfold sample_vf, Rdiv. rewrite RtoC_mult, irfftn_extended by exact Hd. unfold ifftn.
  rewrite Rinv_mult, !RtoC_mult.
  transitivity (Cmult (RtoC (/ transform_norm L)) (Cmult (RtoC (/ count d)) (csum (grid d) (fun k => Cmult (RtoC (sqrt (count d)))
    (Cmult (Cmult (paired d (spectrum_at G L d) k i l) (cis (theta d k x))) (cis (- theta d k y))))))).
  2:{ rewrite csum_scal. ring. }
  rewrite (csum_ext _ _ _ (fun k => Cmult (RtoC (sqrt (count d)))
    (Cmult (Cmult (paired d (spectrum_at G L d) k i l) (cis (theta d k x))) (cis (- theta d k y))))); [ring|].
  intros k Hk. rewrite grid_In in Hk. rewrite paired_share by assumption. unfold extended.
  rewrite !impulse_correlated, !Cconj_mult, Cconj_R by exact Hy.
  rewrite <- cis_neg, Ropp_involutive, cis_mirror by assumption. ring.
Qed.

Lemma covariance_any : forall G L d i j x x', nonempty d -> positive_box L ->
  RtoC (white_covariance d (sample_vf G L d) i j x x')
  = Cmult (RtoC (/ (transform_norm L)^2))
      (csum (grid d) (fun k => Cmult (covariance (paired d (spectrum_at G L d) k) i j) (cis (theta d k x - theta d k x')))).
Proof.
  intros G L d i j x x' Hd HL. unfold white_covariance. rewrite Rsum_RtoC, csum_nodes_of.
  set (S := paired d (spectrum_at G L d)).
  pose proof (count_pos d Hd) as HN.
  assert (HT : 0 < transform_norm L).
  { destruct L as [[Lx Ly] Lz], HL as (H1 & H2 & H3). unfold transform_norm. apply sqrt_lt_R0.
    apply Rmult_lt_0_compat; [apply Rmult_lt_0_compat|]; assumption. }
  set (c := / (count d * transform_norm L) * sqrt (count d)).
  set (A := fun (i l : ix) (x : node) (y k : node) => Cmult (Cmult (S k i l) (cis (theta d k x))) (cis (- theta d k y))).
  assert (Hterm : forall y l, on_grid d y -> RtoC (sample_vf G L d (impulse l y) i x * sample_vf G L d (impulse l y) j x')
      = Cmult (RtoC (c * c)) (csum (grid d) (fun k => csum (grid d) (fun k' => Cmult (A i l x y k) (Cconj (A j l x' y k')))))).
  { intros y l Hy. rewrite RtoC_mult, RtoC_mult.
    rewrite <- (Cconj_R (sample_vf G L d (impulse l y) j x')).
    rewrite !impulse_response by assumption. fold c S. rewrite Cconj_mult, Cconj_R, csum_conj.
    transitivity (Cmult (Cmult (RtoC c) (RtoC c)) (Cmult (csum (grid d) (A i l x y)) (csum (grid d) (fun k' => Cconj (A j l x' y k'))))).
    - unfold A. ring.
    - f_equal. rewrite <- csum_scal_r. apply csum_ext. intros k _. rewrite <- csum_scal. reflexivity. }
  rewrite (csum_ext _ _ _ (fun y => Cmult (RtoC (c * c)) (csum (grid d) (fun k => csum (grid d) (fun k' =>
      Cmult (Cmult (csum3 (fun l => Cmult (S k i l) (Cconj (S k' j l)))) (cis (theta d k x - theta d k' x')))
        (Cmult (cis (theta d k' y)) (cis (- theta d k y)))))))).
  2:{ intros y Hy. rewrite grid_In in Hy. unfold sum3. rewrite !RtoC_plus, !Hterm by exact Hy.
      rewrite <- !Cmult_plus_distr_l. f_equal. rewrite <- !csum_plus. apply csum_ext. intros k _. rewrite <- !csum_plus.
      apply csum_ext. intros k' _. unfold A, csum3. rewrite !Cconj_mult.
      rewrite <- !(cis_neg (theta d k' x')), <- !(cis_neg (- theta d k' y)), Ropp_involutive.
      unfold Rminus. rewrite cis_plus. ring. }
  rewrite csum_scal.
  assert (Hcc : c * c = / (transform_norm L)^2 * / count d).
  { unfold c. rewrite <- (sqrt_sqrt (count d)) at 2 4 by lra.
    assert (Hs : 0 < sqrt (count d)) by (apply sqrt_lt_R0; exact HN).
    rewrite sqrt_sqrt by lra. transitivity (/ count d * / transform_norm L * (/ count d * / transform_norm L) * (sqrt (count d) * sqrt (count d))).
    - rewrite Rinv_mult. ring.
    - rewrite sqrt_sqrt by lra. field. lra. }
  rewrite Hcc, RtoC_mult, <- Cmult_assoc. f_equal.
  rewrite csum_swap. rewrite <- csum_scal. apply csum_ext. intros k Hk. rewrite csum_swap.
  rewrite (csum_ext _ _ _ (fun k' => Cmult (Cmult (csum3 (fun l => Cmult (S k i l) (Cconj (S k' j l)))) (cis (theta d k x - theta d k' x')))
      (if eqn k' k then RtoC (count d) else RtoC 0))).
  2:{ intros k' Hk'. rewrite csum_scal. f_equal. rewrite grid_In in Hk, Hk'. apply orthogonality; assumption. }
  rewrite (csum_pick _ _ k).
  - destruct (eqn_spec k k) as [_|H]; [|congruence]. rewrite RtoC_inv by lra. unfold covariance. field.
    intros H. apply RtoC_inj in H. lra.
  - apply grid_NoDup.
  - exact Hk.
  - intros k' _ Hne. destruct (eqn_spec k' k) as [H|_]; [congruence|]. ring.
Qed.

Lemma paired_ext : forall d K K' k, nonempty d -> on_grid d k -> (forall m i j, on_grid d m -> K m i j = K' m i j) ->
  forall i j, paired d K k i j = paired d K' k i j.
Proof.
  intros d K K' k Hd Hk HE i j. unfold paired. rewrite (HE k), (HE (mirror d k)); [reflexivity|apply mirror_on_grid; exact Hd|exact Hk].
Qed.

Lemma paired_hermitian : forall d K k i j, K (mirror d k) i j = Cconj (K k i j) -> paired d K k i j = K k i j.
Proof.
  intros d K k i j H. unfold paired. rewrite H, Cconj_conj. cbv zeta.
  destruct (_ || _)%bool; [|destruct (_ <? _)%nat; reflexivity].
  replace (Cplus (K k i j) (K k i j)) with (Cmult (RtoC 2) (K k i j)) by (replace (RtoC 2) with (Cplus (RtoC 1) (RtoC 1)) by (rewrite <- RtoC_plus; f_equal; lra); ring).
  rewrite Cmult_assoc, <- RtoC_mult. replace (/ 2 * 2) with 1 by lra. ring.
Qed.

Lemma covariance_ext : forall A B i j, (forall i j, A i j = B i j) -> covariance A i j = covariance B i j.
Proof. intros A B i j H. unfold covariance, csum3. rewrite !H. reflexivity. Qed.

Lemma site_covariance : forall hyp net h_ref stored G (seeded : Z -> G) C2 (low_make : C2 -> G -> res (low_view * G)) a config w gn w' cs
  Lx Ly Lz lx ly lz,
  ga_dims a = (Lx, Ly, Lz) -> ga_levels a = (lx, ly, lz) -> 0 < Lx -> 0 < Ly -> 0 < Lz ->
  scales_of stored a = Ok cs -> 0 < cs_L cs -> 0 < cs_Gamma cs ->
  construct stored G seeded (vf_sampler hyp net h_ref) C2 low_make a config w = Ok (gn, w') ->
  let d := (rows (gen_geo G gn), cols (gen_geo G gn), layers (gen_geo G gn)) in
  let h := (Lx / INR (2 ^ lx + 1), Ly / INR (2 ^ ly + 1), Lz / INR (2 ^ lz + 1)) in
  forall i j x x', on_grid d x -> on_grid d x' ->
  RtoC (noise_covariance (gen_std G gn) d (fun n => component_at (gen_correlate G gn (laid_out d n))) i j x x')
  = phase_mean h d (fun m => covariance (paired d (kernel_at (model_kernel hyp net h_ref (ga_model a) cs) (periodic_box h d) d) m) i j) x x'.
Proof.
  intros hyp net h_ref stored G seeded C2 low_make a config w gn w' cs Lx Ly Lz lx ly lz ED EL HLx HLy HLz Hcs HL HT HC d h i j x x' Hx Hx'.
  destruct (constructed_parts _ _ _ _ _ _ _ _ _ _ _ _ _ _ _ _ _ _ ED EL HLx HLy HLz Hcs HL HT HC) as (EC & EDim & N1 & N2 & N3 & ES).
  destruct (constructed_sizes _ _ _ _ _ _ _ _ _ _ _ _ _ _ _ _ _ _ ED EL HLx HLy HLz Hcs HL HT HC) as (nb & my & mz & R1 & R2 & R3 & _).
  set (geo := gen_geo G gn) in *. set (K := model_kernel hyp net h_ref (ga_model a) cs).
  pose proof (nodes_INR lx) as P1. pose proof (nodes_INR ly) as P2. pose proof (nodes_INR lz) as P3.
  set (hx := Lx / INR (nodes lx)) in *. set (hy := Ly / INR (nodes ly)) in *. set (hz := Lz / INR (nodes lz)) in *.
  assert (Hhx : 0 < hx) by (apply Rdiv_lt_0_compat; lra). assert (Hhy : 0 < hy) by (apply Rdiv_lt_0_compat; lra).
  assert (Hhz : 0 < hz) by (apply Rdiv_lt_0_compat; lra).
  change h with (hx, hy, hz). clear h.
  assert (Nx : (0 < rows geo)%nat) by lia. assert (Ny : (0 < cols geo)%nat) by lia. assert (Nz : (0 < layers geo)%nat) by lia.
  assert (Hne : nonempty d) by (unfold d, nonempty; auto).
  change (periodic_box (hx, hy, hz) d) with (hx * INR (rows geo), hy * INR (cols geo), hz * INR (layers geo)).
  set (L := (hx * INR (rows geo), hy * INR (cols geo), hz * INR (layers geo))).
  assert (EX : forall n k y, on_grid d y -> component_at (gen_correlate G gn (laid_out d n)) k y = sample_vf K L d n k y).
  { intros n k y Hy. rewrite component_node, EC. unfold vf_sampler.
    change (laid_out d n) with (tabulate d n). cbv zeta.
    assert (EE : extents_of (tabulate d n) = d) by (apply extents_shaped; try assumption; apply tabulate_shaped).
    rewrite EE, at_tabulate by exact Hy.
    transitivity (sample_vf K L d (at_node (tabulate d n)) k y).
    - unfold box. rewrite EDim, N1, N2, N3. reflexivity.
    - apply sample_ext. intros j' y' Hy'. apply at_tabulate. exact Hy'. }
  rewrite (noise_covariance_ext _ _ _ (sample_vf K L d)) by (intros; apply EX; assumption).
  rewrite noise_covariance_white, RtoC_mult.
  assert (HLL : forall hh n, 0 < hh -> (0 < n)%nat -> 0 < hh * INR n) by (intros hh n H1 H2; apply Rmult_lt_0_compat; [exact H1|apply lt_0_INR; exact H2]).
  rewrite covariance_any; [|exact Hne|unfold L, positive_box; repeat split; apply HLL; assumption].
  unfold L at 1. rewrite norm_squared by (apply HLL; assumption).
  rewrite Cmult_assoc, <- RtoC_mult. 
  assert (PM : forall Phi, phase_mean (hx, hy, hz) d Phi x x' = Cmult (RtoC (/ INR (rows geo * cols geo * layers geo)))
    (csum (nodes_of d) (fun m => Cmult (Phi m) (cos (wave_phase (hx, hy, hz) d m x x'), sin (wave_phase (hx, hy, hz) d m x x'))))) by reflexivity.
  rewrite PM. clear PM. f_equal.
  - f_equal. rewrite ES. fold hx hy hz. rewrite <- Rsqr_pow2, Rsqr_sqrt.
    + rewrite !mult_INR. field. repeat split; try lra; apply not_0_INR; lia.
    + left. apply Rmult_lt_0_compat; [apply Rmult_lt_0_compat|]; assumption.
  - rewrite <- csum_nodes_of. apply csum_ext. intros k Hk. apply nodes_of_In in Hk. f_equal.
    + apply covariance_ext. apply paired_ext; [exact Hne|exact Hk|]. intros m i' j' Hm. rewrite kernel_at_spectrum by exact Hne. reflexivity.
    + destruct (phase_angle hx hy hz (rows geo) (cols geo) (layers geo) k x x' Hhx Hhy Hhz (conj Nx (conj Ny Nz))) as [EA EB]. fold d in EA, EB. rewrite EA, EB, !angle_theta. reflexivity.
Qed.

Lemma site_covariance_odd : forall hyp net h_ref stored G (seeded : Z -> G) C2 (low_make : C2 -> G -> res (low_view * G)) a config w gn w' cs
  Lx Ly Lz lx ly lz m,
  (forall k1 k2 k3, net (- k1) (- k2) (- k3) = net k1 k2 k3) ->
  ga_dims a = (Lx, Ly, Lz) -> ga_levels a = (S lx, S ly, S lz) -> 0 < Lx -> 0 < Ly -> 0 < Lz ->
  ga_blend a = (2 * Z.of_nat m + 1)%Z ->
  scales_of stored a = Ok cs -> 0 < cs_L cs -> 0 < cs_Gamma cs ->
  construct stored G seeded (vf_sampler hyp net h_ref) C2 low_make a config w = Ok (gn, w') ->
  let d := (rows (gen_geo G gn), cols (gen_geo G gn), layers (gen_geo G gn)) in
  let h := (Lx / INR (2 ^ S lx + 1), Ly / INR (2 ^ S ly + 1), Lz / INR (2 ^ S lz + 1)) in
  forall i j x x', on_grid d x -> on_grid d x' ->
  RtoC (noise_covariance (gen_std G gn) d (fun n => component_at (gen_correlate G gn (laid_out d n))) i j x x')
  = phase_mean h d (fun m => covariance (kernel_at (model_kernel hyp net h_ref (ga_model a) cs) (periodic_box h d) d m) i j) x x'.
Proof.
  intros hyp net h_ref stored G seeded C2 low_make a config w gn w' cs Lx Ly Lz lx ly lz m Hnet ED EL HLx HLy HLz EB Hcs HL HT HC d h i j x x' Hx Hx'.
  pose proof (site_covariance _ _ _ _ _ _ _ _ _ _ _ _ _ _ _ _ _ _ _ _ ED EL HLx HLy HLz Hcs HL HT HC i j x x' Hx Hx') as E. fold d h in E. rewrite E. clear E.
  destruct (constructed_sizes _ _ _ _ _ _ _ _ _ _ _ _ _ _ _ _ _ _ ED EL HLx HLy HLz Hcs HL HT HC) as (nb & my & mz & R1 & R2 & R3 & _).
  assert (HO : all_odd d).
  { unfold d, all_odd. rewrite R1, R2, R3. split; [|split; apply odd_level].
    rewrite EB. replace (Z.to_nat (2 * Z.of_nat m + 1 - 1)) with (2 * m)%nat by lia. rewrite <- Nat.add_assoc, <- Nat.mul_add_distr_l. apply odd_level. }
  unfold phase_mean. destruct d as [[nx ny] nz]. f_equal. apply fold_ext. intros k acc Hk. apply nodes_of_In in Hk. f_equal. f_equal.
  apply covariance_ext. intros i' j'. apply paired_hermitian. apply model_hermitian_grid; assumption.
Qed.
