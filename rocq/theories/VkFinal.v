(** The generated von Karman data and the shear-free model. *)

From Coq Require Import Reals List Lra Lia.
From Coquelicot Require Import Coquelicot.
From Verif Require Import Prelude RdtModel SpectraModel OpsModel DataModel RdtSpec RdtProofs SpectraProofs OpsSpec OpsProofs
  QuadSpec QuadProofs QuadTensor QuadMore BoxProofs VkProofs DataSpec DataProofs AsyProofs VkSpec.
Open Scope R_scope.

Lemma data_values : forall L C k1 m f, L <> 0 -> von_karman_at L C k1 = Ok m -> finite_matrix m f ->
  forall i j, f i j = k1 * match i, j with
     | X1, X1 => 9/55 * C / Rpower (/ L^2 + k1^2) (5/6)
     | X2, X2 | X3, X3 => 3/110 * C * (3 / L^2 + 8 * k1^2) / Rpower (/ L^2 + k1^2) (11/6)
     | _, _ => 0 end.
Proof.
  intros L C k1 m f HL Hm Hf i j.
  destruct (vk_published L C k1 HL) as (m' & Hm' & Hf'). rewrite Hm in Hm'. injection Hm' as <-.
  specialize (Hf i j). specialize (Hf' i j). rewrite Hf in Hf'. injection Hf' as ->. reflexivity.
Qed.

Lemma shear_free_box : forall e L C k1 B i j, shear_free_model e L C k1 -> 0 < L -> k1 <> 0 ->
  box_integral (undelivered (fun t => entry t i j) e k1) B
  = box_integral (fun k2 k3 => C / (4 * PI) * Rpower ((/ L^2 + k1^2) + (k2^2 + k3^2)) (- (17/6))
          * (normsq (vec k1 k2 k3) * delta i j - vec k1 k2 k3 i * vec k1 k2 k3 j)) B.
Proof.
  intros e L C k1 B i j (HLe & HMe & Hspec & Hbeta) HL Hk1. apply box_ext. intros k2 k3.
  unfold undelivered. cbv zeta. rewrite Hbeta, HLe, HMe.
  rewrite <- vk_density by assumption. f_equal. f_equal.
  unfold forward_energy. f_equal. apply Hspec.
  apply Rmult_lt_0_compat; [exact HL|]. apply sqrt_lt_R0.
  unfold kk0_of, k30_of. nra.
Qed.

Lemma exact_near_data : forall e L C k1 B m f i j, shear_free_model e L C k1 -> 0 < L -> k1 <> 0 -> 0 < B ->
  von_karman_at L C k1 = Ok m -> finite_matrix m f ->
  Rabs (k1 * box_integral (undelivered (fun t => entry t i j) e k1) B - f i j)
  <= 3/10 * Rabs (k1 * C) * Rpower (/ L^2 + k1^2 + B^2) (- (5/6)).
Proof.
  intros e L C k1 B m f i j He HL Hk1 HB Hm Hf.
  rewrite (shear_free_box e L C k1 B i j He HL Hk1).
  rewrite (data_values L C k1 m f ltac:(lra) Hm Hf i j). rewrite <- Rmult_minus_distr_l.
  rewrite Rabs_mult. rewrite (Rabs_mult k1 C).
  replace (3/10 * (Rabs k1 * Rabs C) * Rpower (/ L^2 + k1^2 + B^2) (- (5/6)))
    with (Rabs k1 * (3/10 * Rabs C * Rpower (/ L^2 + k1^2 + B^2) (- (5/6)))) by ring.
  apply Rmult_le_compat_l; [apply Rabs_pos|].
  exact (vk_box L C k1 HL B HB i j).
Qed.

Lemma shear_free_smooth : forall e L C k1, shear_free_model e L C k1 -> 0 < L -> smooth_model e k1.
Proof.
  intros e L C k1 (HLe & HMe & Hspec & Hbeta) HL. split; [lra|]. split.
  - intros x Hx. apply continuity_pt_ext_loc with vklike_energy.
    + exists (mkposreal x Hx). intros y Hy. symmetry. apply Hspec.
      unfold ball in Hy; simpl in Hy; unfold AbsRing_ball, abs, minus, plus, opp in Hy; simpl in Hy.
      apply Rabs_def2 in Hy. lra.
    + exact (proj1 (energy_continuous 0 0 x Hx)).
  - intros x y. apply continuity_2d_pt_ext with (fun _ _ => 0); [intros; symmetry; apply Hbeta | apply continuity_2d_pt_const].
Qed.

Lemma entry_selector : forall i j, selector (fun t => entry t i j).
Proof.
  intros i j. unfold selector.
  destruct i, j; [left|do 5 right|do 3 right; left|do 5 right|right; left|do 4 right; left|do 3 right; left|do 4 right; left|do 2 right; left]; reflexivity.
Qed.

Lemma outside_small : forall K A eps, 0 <= K -> 0 < A -> 0 < eps ->
  exists P, forall p, P <= p -> K * Rpower (A + Rpower 10 p ^ 2) (- (5/6)) <= eps.
Proof.
  intros K A eps HK HA Heps.
  destruct (power_large (5/6) (eps / (K + 1))) as (M & HM & Hs); [lra | apply Rdiv_lt_0_compat; lra |].
  exists (ln (M + 1) / ln 10). intros p Hp.
  assert (H10 : 0 < ln 10) by apply ln10_pos.
  assert (Hg : M + 1 <= Rpower 10 p).
  { rewrite <- (exp_ln (M + 1)) by lra. unfold Rpower.
    assert (Hle : ln (M + 1) <= p * ln 10).
    { replace (ln (M + 1)) with (ln (M + 1) / ln 10 * ln 10) by (field; lra).
      apply Rmult_le_compat_r; lra. }
    destruct Hle as [Hlt | ->]; [left; apply exp_increasing; exact Hlt | right; reflexivity]. }
  assert (Hx : M < A + Rpower 10 p ^ 2) by nra.
  specialize (Hs _ Hx). assert (0 < Rpower (A + Rpower 10 p ^ 2) (- (5/6))) by apply exp_pos.
  set (q := Rpower (A + Rpower 10 p ^ 2) (- (5/6))) in *.
  apply Rle_trans with ((K + 1) * q); [nra|].
  apply Rle_trans with ((K + 1) * (eps / (K + 1))); [apply Rmult_le_compat_l; lra | right; field; lra].
Qed.

Lemma raw_reaches_data : forall e L C k1 m f i j, shear_free_model e L C k1 -> 0 < L -> k1 <> 0 ->
  von_karman_at L C k1 = Ok m -> finite_matrix m f ->
  forall eps, 0 < eps -> exists P2, forall p2, P2 <= p2 ->
  exists P1, forall p1, p1 <= P1 -> exists N0, forall N, (N0 <= N)%nat ->
  Rabs (ops_forward_raw (fun t => entry t i j) e p1 p2 N k1 - f i j) <= eps.
Proof.
  intros e L C k1 m f i j He HL Hk1 Hm Hf eps Heps.
  assert (HA : 0 < / L^2 + k1^2) by (assert (0 < / L^2) by (apply Rinv_0_lt_compat; nra); nra).
  destruct (outside_small (3/10 * Rabs (k1 * C)) (/ L^2 + k1^2) (eps/2)) as [P2 HP2];
    [pose proof (Rabs_pos (k1 * C)); lra | exact HA | lra |].
  exists P2. intros p2 Hp2.
  assert (Hs := shear_free_smooth e L C k1 He HL).
  destruct (raw_converges (fun t => entry t i j) e p2 k1 (entry_selector i j) Hk1 Hs) as [_ Hr].
  destruct (Hr (eps/2)) as [P1 HP1]; [lra|]. exists P1. intros p1 Hp1.
  destruct (HP1 p1 Hp1) as [N0 HN0]. exists N0. intros N HN. specialize (HN0 N HN).
  assert (Hd := exact_near_data e L C k1 (Rpower 10 p2) m f i j He HL Hk1 (Rpower10_pos p2) Hm Hf).
  specialize (HP2 p2 Hp2).
  change (fun k2 k3 => undelivered (fun t => entry t i j) e k1 k2 k3) with (undelivered (fun t => entry t i j) e k1) in HN0.
  set (I := box_integral (undelivered (fun t => entry t i j) e k1) (Rpower 10 p2)) in *.
  replace (ops_forward_raw (fun t => entry t i j) e p1 p2 N k1 - f i j)
    with ((ops_forward_raw (fun t => entry t i j) e p1 p2 N k1 - k1 * I) + (k1 * I - f i j)) by ring.
  eapply Rle_trans; [apply Rabs_triang|]. lra.
Qed.

Lemma output_near_data : forall e L C k1 p2 m f i j, shear_free_model e L C k1 -> 0 < L -> 0 <= C -> 0 < k1 ->
  i = j \/ (i = X1 /\ j = X3) ->
  von_karman_at L C k1 = Ok m -> finite_matrix m f ->
  forall eps, 0 < eps -> exists P1, forall p1, p1 <= P1 -> exists N0, forall N, (N0 <= N)%nat ->
  Rabs (ops_forward (fun t => entry t i j) e p1 p2 N k1 - f i j)
  <= eps + k1 * (/ 10^12 * (2 * Rpower 10 p2)^2)
     + 3/10 * (k1 * C) * Rpower (/ L^2 + k1^2 + Rpower 10 p2 ^ 2) (- (5/6)).
Proof.
  intros e L C k1 p2 m f i j He HL HC Hk1 Hij Hm Hf eps Heps.
  assert (Hs := shear_free_smooth e L C k1 He HL).
  assert (Hsens : sensible e).
  { destruct He as (HLe & HMe & Hspec & _). split; [|split; lra].
    intros x Hx. rewrite Hspec by exact Hx. left. unfold vklike_energy. apply Rmult_lt_0_compat; apply exp_pos. }
  assert (Hsel : auto (fun t => entry t i j) \/ (fun t => entry t i j) = phi13).
  { destruct Hij as [<- | [-> ->]]; [left | right; reflexivity].
    unfold auto. destruct i; [left | right; left | right; right]; reflexivity. }
  destruct (output_near' (fun t => entry t i j) e p2 k1 Hsel Hk1 Hs Hsens eps Heps) as [P1 HP1].
  exists P1. intros p1 Hp1. destruct (HP1 p1 Hp1) as [N0 HN0]. exists N0. intros N HN. specialize (HN0 N HN).
  assert (Hd := exact_near_data e L C k1 (Rpower 10 p2) m f i j He HL ltac:(lra) (Rpower10_pos p2) Hm Hf).
  rewrite (Rabs_pos_eq (k1 * C)) in Hd by (apply Rmult_le_pos; lra).
  set (I := box_integral (undelivered (fun t => entry t i j) e k1) (Rpower 10 p2)) in *.
  replace (ops_forward (fun t => entry t i j) e p1 p2 N k1 - f i j)
    with ((ops_forward (fun t => entry t i j) e p1 p2 N k1 - k1 * I) + (k1 * I - f i j)) by ring.
  eapply Rle_trans; [apply Rabs_triang|]. lra.
Qed.

(** Two sets of data which agree at two wave numbers have the same parameters. *)
Lemma power_inj : forall a b p, 0 < a -> 0 < b -> p <> 0 -> Rpower a p = Rpower b p -> a = b.
Proof.
  intros a b p Ha Hb Hp H. unfold Rpower in H. apply exp_inv in H.
  apply ln_inv; try assumption. apply Rmult_eq_reg_l with p; assumption.
Qed.

Lemma data_identify : forall L C L' C' k1 k1' m f m' f' n g n' g',
  0 < L -> 0 < L' -> C <> 0 -> 0 < k1 -> 0 < k1' -> k1 <> k1' ->
  von_karman_at L C k1 = Ok m -> finite_matrix m f -> von_karman_at L' C' k1 = Ok m' -> finite_matrix m' f' ->
  von_karman_at L C k1' = Ok n -> finite_matrix n g -> von_karman_at L' C' k1' = Ok n' -> finite_matrix n' g' ->
  f X1 X1 = f' X1 X1 -> g X1 X1 = g' X1 X1 -> L = L' /\ C = C'.
Proof.
  intros L C L' C' k1 k1' m f m' f' n g n' g' HL HL' HC Hk Hk' Hne Hm Hf Hm' Hf' Hn Hg Hn' Hg' E1 E2.
  rewrite (data_values L C k1 m f ltac:(lra) Hm Hf), (data_values L' C' k1 m' f' ltac:(lra) Hm' Hf') in E1.
  rewrite (data_values L C k1' n g ltac:(lra) Hn Hg), (data_values L' C' k1' n' g' ltac:(lra) Hn' Hg') in E2.
  cbv beta iota in E1, E2.
  set (l := / L^2) in *. set (l' := / L'^2) in *.
  assert (Hl : 0 < l) by (apply Rinv_0_lt_compat; nra). assert (Hl' : 0 < l') by (apply Rinv_0_lt_compat; nra).
  assert (Ha : 0 < l + k1^2) by nra. assert (Ha' : 0 < l' + k1^2) by nra.
  assert (Hb : 0 < l + k1'^2) by nra. assert (Hb' : 0 < l' + k1'^2) by nra.
  assert (pa : 0 < Rpower (l + k1^2) (5/6)) by apply exp_pos. assert (pa' : 0 < Rpower (l' + k1^2) (5/6)) by apply exp_pos.
  assert (pb : 0 < Rpower (l + k1'^2) (5/6)) by apply exp_pos. assert (pb' : 0 < Rpower (l' + k1'^2) (5/6)) by apply exp_pos.
  assert (F1 : C * Rpower (l' + k1^2) (5/6) = C' * Rpower (l + k1^2) (5/6)).
  { apply Rmult_eq_reg_l in E1; [|lra].
    apply (Rmult_eq_compat_l (55/9 * Rpower (l + k1^2) (5/6) * Rpower (l' + k1^2) (5/6))) in E1.
    field_simplify in E1; [|lra..]. lra. }
  assert (F2 : C * Rpower (l' + k1'^2) (5/6) = C' * Rpower (l + k1'^2) (5/6)).
  { apply Rmult_eq_reg_l in E2; [|lra].
    apply (Rmult_eq_compat_l (55/9 * Rpower (l + k1'^2) (5/6) * Rpower (l' + k1'^2) (5/6))) in E2.
    field_simplify in E2; [|lra..]. lra. }
  assert (Hprod : Rpower ((l' + k1^2) * (l + k1'^2)) (5/6) = Rpower ((l + k1^2) * (l' + k1'^2)) (5/6)).
  { rewrite <- !Rpower_mult_distr by assumption. apply Rmult_eq_reg_l with C; [|exact HC].
    rewrite <- Rmult_assoc, F1. rewrite (Rmult_comm (Rpower (l + k1^2) (5/6))), <- Rmult_assoc, F2. ring. }
  apply power_inj in Hprod; [| nra | nra | lra].
  assert (Hll : l = l').
  { assert (Hz : (l - l') * (k1 - k1') * (k1 + k1') = 0) by nra.
    apply Rmult_integral in Hz. destruct Hz as [Hz | Hz]; [|lra].
    apply Rmult_integral in Hz. destruct Hz as [Hz | Hz]; lra. }
  split.
  - assert (HLL : L^2 = L'^2) by (rewrite <- (Rinv_inv (L^2)), <- (Rinv_inv (L'^2)); f_equal; exact Hll).
    nra.
  - rewrite Hll in F1. apply Rmult_eq_reg_r with (Rpower (l' + k1^2) (5/6)); lra.
Qed.
