From Coq Require Import Reals Lra Lia Psatz List Arith ZArith.
From Verif Require Import Prelude RdtModel SpectraModel SpectraSpec RdtProofs.
Import ListNotations.
Open Scope R_scope.

(** ** Powers *)

Lemma Rpower_pos : forall x p, 0 < Rpower x p.
Proof. intros. apply exp_pos. Qed.

Lemma Rpower_1_base : forall p, Rpower 1 p = 1.
Proof. intro. unfold Rpower. rewrite ln_1, Rmult_0_r. apply exp_0. Qed.

Lemma Rpower_inv_base : forall x p, 0 < x -> Rpower (/ x) p = / Rpower x p.
Proof.
  intros. unfold Rpower. rewrite ln_Rinv by assumption.
  rewrite <- exp_Ropp. f_equal. ring.
Qed.

Lemma Rpower_div_base : forall x y p, 0 < x -> 0 < y -> Rpower (x / y) p = Rpower x p / Rpower y p.
Proof.
  intros. unfold Rdiv. rewrite <- Rpower_mult_distr; [|assumption|apply Rinv_0_lt_compat; assumption].
  rewrite Rpower_inv_base by assumption. reflexivity.
Qed.

Lemma Rpower_lt_base : forall x y p, 0 < x -> x < y -> 0 < p -> Rpower x p < Rpower y p.
Proof.
  intros. unfold Rpower. apply exp_increasing. apply Rmult_lt_compat_l; [assumption|].
  apply ln_increasing; assumption.
Qed.

Lemma Rpower_le_base : forall x y p, 0 < x -> x <= y -> 0 <= p -> Rpower x p <= Rpower y p.
Proof.
  intros x y p Hx Hxy Hp. destruct (Rle_lt_or_eq_dec _ _ Hxy) as [H|H].
  - destruct (Rle_lt_or_eq_dec _ _ Hp) as [H'|H'].
    + left. apply Rpower_lt_base; assumption.
    + subst. rewrite !Rpower_O by lra. lra.
  - subst. lra.
Qed.

Lemma ln_1p_le : forall u, 0 < u -> ln (1 + u) <= u.
Proof.
  intros u Hu. destruct (Rle_or_lt (ln (1+u)) u) as [H|H]; [assumption|].
  exfalso. apply exp_increasing in H. rewrite exp_ln in H by lra.
  pose proof (exp_ineq1 u (Rgt_not_eq _ _ Hu)). lra.
Qed.

(** ** Energy spectra *)

Lemma learnable_is_vk : forall x, 0 < x -> learnable_energy 4 (17/6) x = vk_energy x.
Proof.
  intros. unfold learnable_energy, vk_energy. f_equal.
  replace 4 with (INR 4) by (simpl; lra). apply Rpower_pow. assumption.
Qed.

Lemma vk_energy_pos : forall x, 0 < x -> 0 < vk_energy x.
Proof.
  intros. unfold vk_energy. apply Rdiv_lt_0_compat; [apply pow_lt; assumption|apply Rpower_pos].
Qed.

Lemma learnable_pos : forall p q x, 0 < learnable_energy p q x.
Proof. intros. unfold learnable_energy. apply Rdiv_lt_0_compat; apply Rpower_pos. Qed.

Lemma inertial_ratio_form : forall x, 0 < x ->
  inertial_ratio x = Rpower (1 + / x^2) (-17/6).
Proof.
  intros x Hx. unfold inertial_ratio. rewrite <- vklike_form by assumption.
  unfold vklike_energy.
  assert (H1 : 0 < 1 + x^2) by nra.
  assert (Hs : 0 < sqrt (1 + x^2)) by (apply sqrt_lt_R0; assumption).
  replace (Rpower x (-5/3) * Rpower (x / sqrt (1+x^2)) (17/3) / Rpower x (-5/3))
    with (Rpower (x / sqrt (1+x^2)) (17/3)) by (field; apply Rgt_not_eq; apply Rpower_pos).
  replace (x / sqrt (1+x^2)) with (Rpower (1 + / x^2) (-1/2)).
  - rewrite Rpower_mult. f_equal. lra.
  - assert (Hp : 0 < 1 + / x^2).
    { assert (0 < / x^2) by (apply Rinv_0_lt_compat; nra). lra. }
    replace (-1/2) with (- /2) by lra. rewrite Rpower_Ropp, Rpower_sqrt by assumption.
    replace (1 + / x^2) with ((1 + x^2) / x^2) by (field; lra).
    rewrite sqrt_div_alt by nra. rewrite sqrt_pow2 by lra. field. split; lra.
Qed.

Lemma inv_sq_pos : forall x, 0 < x -> 0 < / x^2.
Proof. intros. apply Rinv_0_lt_compat. nra. Qed.

Lemma inertial_ratio_lt_1 : forall x, 0 < x -> inertial_ratio x < 1.
Proof.
  intros x Hx. rewrite inertial_ratio_form by assumption.
  replace (-17/6) with (- (17/6)) by lra. rewrite Rpower_Ropp.
  pose proof (inv_sq_pos x Hx).
  apply (Rlt_le_trans _ (/ 1)); [|rewrite Rinv_1; lra]. apply Rinv_lt_contravar.
  - rewrite Rmult_1_l. apply Rpower_pos.
  - apply (Rle_lt_trans _ (Rpower 1 (17/6))); [rewrite Rpower_1_base; lra|]. apply Rpower_lt_base; lra.
Qed.

Lemma inertial_ratio_increasing : forall x y, 0 < x -> x < y -> inertial_ratio x < inertial_ratio y.
Proof.
  intros x y Hx Hxy. rewrite !inertial_ratio_form by lra.
  replace (-17/6) with (- (17/6)) by lra. rewrite !Rpower_Ropp.
  pose proof (inv_sq_pos x Hx). assert (0 < y) by lra. pose proof (inv_sq_pos y H0).
  apply Rinv_lt_contravar.
  - apply Rmult_lt_0_compat; apply Rpower_pos.
  - apply Rpower_lt_base; [lra| |lra].
    apply Rplus_lt_compat_l. apply Rinv_lt_contravar.
    + apply Rmult_lt_0_compat; apply pow_lt; assumption.
    + nra.
Qed.

Lemma inertial_ratio_lower : forall x, 0 < x -> 1 - 17/6 / x^2 <= inertial_ratio x.
Proof.
  intros x Hx. rewrite inertial_ratio_form by assumption. unfold Rpower.
  pose proof (inv_sq_pos x Hx) as Hi.
  assert (Hl : ln (1 + / x^2) <= / x^2) by (apply ln_1p_le; assumption).
  assert (He : forall u, 1 + u <= exp u).
  { intro u. destruct (Req_dec u 0) as [->|Hu]; [rewrite exp_0; lra|].
    left. apply exp_ineq1. assumption. }
  eapply Rle_trans; [|apply He]. unfold Rdiv at 1. nra.
Qed.

Lemma vk_below_inertial : forall x, 0 < x -> vk_energy x < Rpower x (-5/3).
Proof.
  intros x Hx. pose proof (inertial_ratio_lt_1 x Hx) as H. unfold inertial_ratio in H.
  pose proof (Rpower_pos x (-5/3)) as Hp.
  apply (Rmult_lt_compat_r _ _ _ Hp) in H. field_simplify in H; lra.
Qed.

(** ** Rational head *)

Lemma rational_form : forall nu x, rational nu x = Rpower (Rabs x) (nu - 2/3) / Rpower (1 + x^2) (nu/2).
Proof. intros. unfold rational. rewrite <- Rsqr_pow2, <- Rsqr_abs, Rsqr_pow2. reflexivity. Qed.

Lemma rational_pos : forall nu x, 0 < rational nu x.
Proof. intros. unfold rational. apply Rdiv_lt_0_compat; apply Rpower_pos. Qed.

Lemma rational_even : forall nu x, rational nu (- x) = rational nu x.
Proof. intros. unfold rational. rewrite Rabs_Ropp. reflexivity. Qed.

Lemma rational_ratio : forall nu x, x <> 0 ->
  rational nu x = Rpower (Rabs x) (-2/3) * Rpower (1 + / x^2) (- nu / 2).
Proof.
  intros nu x Hx. rewrite rational_form.
  assert (Ha : 0 < Rabs x) by (apply Rabs_pos_lt; assumption).
  pose proof (sq_pos x Hx) as Hx2.
  assert (Hi : 0 < / x^2) by (apply Rinv_0_lt_compat; assumption).
  replace (nu - 2/3) with (-2/3 + nu) by lra. rewrite Rpower_plus.
  replace (- nu / 2) with (- (nu/2)) by lra.
  rewrite Rpower_Ropp.
  replace (1 + / x^2) with ((1 + x^2) / x^2) by (field; assumption).
  rewrite Rpower_div_base by lra.
  replace (Rpower (x^2) (nu/2)) with (Rpower (Rabs x) nu).
  - field. split; apply Rgt_not_eq; apply Rpower_pos.
  - rewrite <- Rsqr_pow2, Rsqr_abs, Rsqr_pow2.
    rewrite <- (Rpower_pow 2) by assumption. rewrite Rpower_mult. f_equal. simpl. lra.
Qed.

Lemma rational_le : forall nu x, x <> 0 -> 0 <= nu -> rational nu x <= Rpower (Rabs x) (-2/3).
Proof.
  intros nu x Hx Hnu. rewrite rational_ratio by assumption.
  pose proof (Rpower_pos (Rabs x) (-2/3)) as Hp.
  assert (Hi : 0 < / x^2) by (apply Rinv_0_lt_compat; apply sq_pos; assumption).
  assert (Hle : Rpower (1 + / x^2) (- nu/2) <= 1).
  { replace (- nu / 2) with (- (nu/2)) by lra. rewrite Rpower_Ropp.
    apply (Rle_trans _ (/ 1)); [|rewrite Rinv_1; lra]. apply Rinv_le_contravar; [lra|].
    apply (Rle_trans _ (Rpower 1 (nu/2))); [rewrite Rpower_1_base; lra|]. apply Rpower_le_base; lra. }
  nra.
Qed.

Lemma rational_ge : forall nu x, x <> 0 -> nu <= 0 -> Rpower (Rabs x) (-2/3) <= rational nu x.
Proof.
  intros nu x Hx Hnu. rewrite rational_ratio by assumption.
  pose proof (Rpower_pos (Rabs x) (-2/3)) as Hp.
  assert (Hi : 0 < / x^2) by (apply Rinv_0_lt_compat; apply sq_pos; assumption).
  assert (Hle : 1 <= Rpower (1 + / x^2) (- nu/2)).
  { apply (Rle_trans _ (Rpower 1 (- nu/2))); [rewrite Rpower_1_base; lra|]. apply Rpower_le_base; lra. }
  nra.
Qed.

Lemma rational_nu0 : forall x, rational 0 x = Rpower (Rabs x) (-2/3).
Proof.
  intro. rewrite rational_form. replace (0 - 2/3) with (-2/3) by lra.
  replace (0/2) with 0 by lra. rewrite Rpower_O.
  - field.
  - pose proof (pow2_ge_0 x). lra.
Qed.

(** ** Lifetimes *)

Lemma sqrt_kk_scale : forall c k1 k2 k3, 0 <= c ->
  sqrt (kk_of (c*k1) (c*k2) (c*k3)) = c * sqrt (kk_of k1 k2 k3).
Proof.
  intros c k1 k2 k3 Hc.
  replace (kk_of (c*k1) (c*k2) (c*k3)) with (c*c * kk_of k1 k2 k3) by (unfold kk_of; ring).
  rewrite sqrt_mult_alt by nra. rewrite sqrt_square by assumption. reflexivity.
Qed.

Lemma twothird_scale : forall env c k1 k2 k3, le_type env = TWOTHIRD -> 0 < le_L env -> 0 < c ->
  kk_of k1 k2 k3 <> 0 ->
  exists t, eddy_lifetime env k1 k2 k3 = Ok t /\
            eddy_lifetime env (c*k1) (c*k2) (c*k3) = Ok (Rpower c (-2/3) * t).
Proof.
  intros env c k1 k2 k3 Ht HL Hc Hk.
  assert (Hs : 0 < sqrt (kk_of k1 k2 k3)).
  { apply sqrt_lt_R0. pose proof (kk_nonneg k1 k2 k3). lra. }
  unfold eddy_lifetime. rewrite Ht. simpl.
  eexists. split; [reflexivity|]. f_equal.
  rewrite sqrt_kk_scale by lra.
  replace (le_L env * (c * sqrt (kk_of k1 k2 k3))) with (c * (le_L env * sqrt (kk_of k1 k2 k3))) by ring.
  rewrite <- Rpower_mult_distr; [ring|assumption|]. apply Rmult_lt_0_compat; assumption.
Qed.

Lemma twothird_length_scale : forall env c L T k1 k2 k3, le_type env = TWOTHIRD -> 0 < L -> 0 < c ->
  kk_of k1 k2 k3 <> 0 ->
  exists t, eddy_lifetime (with_scales env L T) k1 k2 k3 = Ok t /\
            eddy_lifetime (with_scales env (c*L) T) k1 k2 k3 = Ok (Rpower c (-2/3) * t).
Proof.
  intros env c L T k1 k2 k3 Ht HL Hc Hk.
  assert (Hs : 0 < sqrt (kk_of k1 k2 k3)).
  { apply sqrt_lt_R0. pose proof (kk_nonneg k1 k2 k3). lra. }
  unfold eddy_lifetime, with_scales. cbn [le_type le_L le_T le_hyp le_coef le_icpt le_net]. rewrite Ht. simpl.
  eexists. split; [reflexivity|]. f_equal.
  rewrite Rmult_assoc.
  rewrite <- (Rpower_mult_distr c); [ring|assumption|]. apply Rmult_lt_0_compat; assumption.
Qed.

Lemma lifetime_linear_T : forall env L T c k1 k2 k3 t,
  eddy_lifetime (with_scales env L T) k1 k2 k3 = Ok t ->
  eddy_lifetime (with_scales env L (c*T)) k1 k2 k3 = Ok (c * t).
Proof.
  intros env L T c k1 k2 k3 t. unfold eddy_lifetime, with_scales.
  cbn [le_type le_L le_T le_hyp le_coef le_icpt le_net].
  destruct (le_type env); simpl; intro H; try (injection H as <-; f_equal; ring).
  destruct (le_net env _); simpl in *; [injection H as <-; f_equal; ring|discriminate].
Qed.

Lemma const_lifetime : forall env k1 k2 k3, le_type env = CONST ->
  eddy_lifetime env k1 k2 k3 = Ok (le_T env).
Proof. intros env k1 k2 k3 H. unfold eddy_lifetime. rewrite H. simpl. f_equal. ring. Qed.

Lemma abs_sign : forall s x, s = 1 \/ s = -1 -> Rabs (s * x) = Rabs x.
Proof.
  intros s x [->| ->].
  - rewrite Rmult_1_l. reflexivity.
  - replace (-1 * x) with (- x) by ring. apply Rabs_Ropp.
Qed.

Lemma lifetime_sign_blind : forall env Ws acts nu s1 s2 s3 k1 k2 k3,
  le_net env = taunet_forward Ws acts nu ->
  (s1 = 1 \/ s1 = -1) -> (s2 = 1 \/ s2 = -1) -> (s3 = 1 \/ s3 = -1) ->
  eddy_lifetime env (s1*k1) (s2*k2) (s3*k3) = eddy_lifetime env k1 k2 k3.
Proof.
  intros env Ws acts nu s1 s2 s3 k1 k2 k3 Hn H1 H2 H3.
  assert (Hk : kk_of (s1*k1) (s2*k2) (s3*k3) = kk_of k1 k2 k3).
  { unfold kk_of. destruct H1 as [->| ->], H2 as [->| ->], H3 as [->| ->]; ring. }
  unfold eddy_lifetime. rewrite Hk, Hn. destruct (le_type env); try reflexivity.
  unfold taunet_forward. cbn [map].
  replace (s1 * k1 * le_L env) with (s1 * (k1 * le_L env)) by ring.
  replace (s2 * k2 * le_L env) with (s2 * (k2 * le_L env)) by ring.
  replace (s3 * k3 * le_L env) with (s3 * (k3 * le_L env)) by ring.
  rewrite (abs_sign s1), (abs_sign s2), (abs_sign s3) by assumption. reflexivity.
Qed.

(** ** Sums and least squares *)

Lemma Rsum_map_ext : forall A (f g : A -> R) l, (forall x, In x l -> f x = g x) ->
  Rsum (map f l) = Rsum (map g l).
Proof.
  intros A f g l H. f_equal. apply map_ext_in. assumption.
Qed.

Lemma Rsum_app : forall l1 l2, Rsum (l1 ++ l2) = Rsum l1 + Rsum l2.
Proof. induction l1; intros; simpl; [ring|]. rewrite IHl1. ring. Qed.

Lemma Rsum_map_scal : forall A (f : A -> R) c l, Rsum (map (fun x => c * f x) l) = c * Rsum (map f l).
Proof. induction l; simpl; [ring|]. rewrite IHl. ring. Qed.

Lemma Rsum_map_plus : forall A (f g : A -> R) l,
  Rsum (map (fun x => f x + g x) l) = Rsum (map f l) + Rsum (map g l).
Proof. induction l; simpl; [ring|]. rewrite IHl. ring. Qed.

Lemma Rsum_const : forall A (c : R) (l : list A), Rsum (map (fun _ => c) l) = INR (length l) * c.
Proof.
  induction l as [|a l IH]; [simpl; ring|].
  change (length (a :: l)) with (S (length l)). rewrite S_INR. simpl. rewrite IH. ring.
Qed.

Lemma Rsum_nonneg : forall A (f : A -> R) l, (forall x, In x l -> 0 <= f x) -> 0 <= Rsum (map f l).
Proof.
  induction l; simpl; intros; [lra|].
  apply Rplus_le_le_0_compat; auto.
Qed.

Lemma Rsum_nonneg_zero : forall A (f : A -> R) l, (forall x, In x l -> 0 <= f x) ->
  Rsum (map f l) = 0 -> forall x, In x l -> f x = 0.
Proof.
  induction l as [|a l IH]; simpl; intros H Hs x Hx; [contradiction|].
  assert (0 <= f a) by auto. assert (0 <= Rsum (map f l)) by (apply Rsum_nonneg; auto).
  destruct Hx as [<-|Hx]; [lra|]. apply IH; auto. lra.
Qed.

Lemma ols_exact : forall xs a b,
  Rsum (map (fun x => (x - Rmean xs)^2) xs) <> 0 -> xs <> [] ->
  ols_slope xs (map (fun x => a + b * x) xs) = b
  /\ ols_intercept xs (map (fun x => a + b * x) xs) = a.
Proof.
  intros xs a b Hne Hnil.
  assert (Hlen : 0 < INR (length xs)).
  { apply lt_0_INR. destruct xs; [contradiction|simpl; lia]. }
  assert (Hm : Rmean (map (fun x => a + b * x) xs) = a + b * Rmean xs).
  { unfold Rmean. rewrite map_length, Rsum_map_plus, Rsum_const, Rsum_map_scal, map_id. field. lra. }
  assert (Hs : ols_slope xs (map (fun x => a + b * x) xs) = b).
  { unfold ols_slope. rewrite Hm.
    replace (Rsum (map (fun p => (fst p - Rmean xs) * (snd p - (a + b * Rmean xs)))
                (combine xs (map (fun x => a + b * x) xs))))
      with (b * Rsum (map (fun x => (x - Rmean xs)^2) xs)).
    - field. assumption.
    - rewrite <- Rsum_map_scal. generalize (Rmean xs) as m. intro m.
      clear. unfold Rsum. induction xs as [|x xs IHxs]; [reflexivity|].
      cbn [map combine fold_right fst snd]. rewrite IHxs. ring. }
  split; [assumption|]. unfold ols_intercept. rewrite Hs, Hm. ring.
Qed.

Lemma spread_nonzero : forall xs x y, In x xs -> In y xs -> x <> y ->
  Rsum (map (fun t => (t - Rmean xs)^2) xs) <> 0.
Proof.
  intros xs x y Hx Hy Hne H0.
  assert (forall t, In t xs -> (t - Rmean xs)^2 = 0).
  { apply Rsum_nonneg_zero; [|assumption]. intros. apply pow2_ge_0. }
  assert (E : forall t, In t xs -> t = Rmean xs).
  { intros t Ht. specialize (H t Ht). rewrite <- Rsqr_pow2 in H. apply Rsqr_0_uniq in H. lra. }
  apply Hne. rewrite (E x Hx), (E y Hy). reflexivity.
Qed.

Lemma logspace_pos : forall a b n k, In k (logspace a b n) -> 0 < k.
Proof.
  intros a b n k H. unfold logspace in H. apply in_map_iff in H. destruct H as [t [<- _]]. apply Rpower_pos.
Qed.

Lemma ln10_pos : 0 < ln 10.
Proof. rewrite <- ln_1. apply ln_increasing; lra. Qed.

Lemma logspace_first : forall a b n, In (Rpower 10 a) (logspace a b (S n)).
Proof.
  intros. unfold logspace, linspace. rewrite map_map. apply in_map_iff. exists 0%nat. split.
  - f_equal. simpl. ring.
  - apply in_seq. lia.
Qed.

Lemma logspace_last : forall a b n, In (Rpower 10 b) (logspace a b (S (S n))).
Proof.
  intros. unfold logspace, linspace. rewrite map_map. apply in_map_iff. exists (S n). split.
  - f_equal. replace (S (S n) - 1)%nat with (S n) by lia. field.
    apply not_0_INR. lia.
  - apply in_seq. lia.
Qed.

Lemma mann_fit_power_law : forall A alpha L T, 0 < A -> 0 < L -> 0 < T ->
  mann_approx_fit (fun x => A * Rpower x alpha) L T = (alpha, ln (T * A * Rpower L alpha)).
Proof.
  intros A alpha L T HA HL HT. unfold mann_approx_fit. cbv zeta.
  set (ks := logspace (-3) 3 50).
  assert (Hys : map (fun k => ln (T * (A * Rpower (L * k) alpha))) ks
                = map (fun x => ln (T * A * Rpower L alpha) + alpha * x) (map ln ks)).
  { rewrite map_map. apply map_ext_in. intros k Hk.
    assert (0 < k) by (eapply logspace_pos; exact Hk).
    rewrite <- Rpower_mult_distr by assumption.
    replace (T * (A * (Rpower L alpha * Rpower k alpha))) with (T * A * Rpower L alpha * Rpower k alpha) by ring.
    pose proof (Rpower_pos L alpha). pose proof (Rpower_pos k alpha).
    rewrite ln_mult; [|repeat apply Rmult_lt_0_compat; assumption|assumption].
    f_equal. unfold Rpower. rewrite ln_exp. reflexivity. }
  rewrite Hys.
  destruct (ols_exact (map ln ks) (ln (T * A * Rpower L alpha)) alpha) as [H1 H2].
  - apply (spread_nonzero _ (ln (Rpower 10 (-3))) (ln (Rpower 10 3))).
    + apply in_map. apply logspace_first.
    + apply in_map. apply logspace_last.
    + unfold Rpower. rewrite !ln_exp. pose proof ln10_pos. lra.
  - unfold ks, logspace, linspace. simpl. discriminate.
  - rewrite H1, H2. reflexivity.
Qed.

Lemma mann_approx_double_scaling : forall A alpha L T k, 0 < A -> 0 < L -> 0 < T -> 0 < k ->
  mann_approx_lifetime (fun x => A * Rpower x alpha) L T L T k
  = (T * Rpower L alpha) * (T * (A * Rpower (L * k) alpha)).
Proof.
  intros A alpha L T k HA HL HT Hk. unfold mann_approx_lifetime. cbv zeta.
  rewrite mann_fit_power_law by assumption. cbn [fst snd].
  unfold mann_linear_approx. rewrite exp_plus, exp_ln.
  - change (exp (alpha * ln (L * k))) with (Rpower (L * k) alpha).
    rewrite <- Rpower_mult_distr by assumption. ring.
  - pose proof (Rpower_pos L alpha). repeat apply Rmult_lt_0_compat; assumption.
Qed.

(** ** Scales *)

Lemma Rltb_true : forall x y, Rltb x y = true <-> x < y.
Proof. intros. unfold Rltb. destruct (Rlt_dec x y); split; intro; try assumption; try reflexivity; [discriminate|contradiction]. Qed.

Lemma Rltb_false : forall x y, Rltb x y = false <-> ~ x < y.
Proof. intros. unfold Rltb. destruct (Rlt_dec x y); split; intro; try assumption; try reflexivity; [discriminate|contradiction]. Qed.

Lemma calib_scales : forall L G S, 0 < L -> 0 < G -> 0 < S ->
  exists p, calib_initial_params L G S = Ok p /\ exp_scales p = (L, G, S).
Proof.
  intros L G S HL HG HS. exists (ln L, ln G, ln S). split.
  - unfold calib_initial_params, ops_initial_params, log_dimensional_scales.
    apply Rltb_true in HL. apply Rltb_true in HG. apply Rltb_true in HS.
    rewrite HL, HG, HS. reflexivity.
  - unfold exp_scales. rewrite !exp_ln by assumption. reflexivity.
Qed.

Lemma calib_scales_reject : forall L G S, ~ (0 < L /\ 0 < G /\ 0 < S) ->
  calib_initial_params L G S = Err AssertionError.
Proof.
  intros L G S H. unfold calib_initial_params, ops_initial_params.
  destruct (Rltb 0 L) eqn:E1; [|reflexivity]. destruct (Rltb 0 G) eqn:E2; [|reflexivity].
  destruct (Rltb 0 S) eqn:E3; [|reflexivity]. exfalso. apply H.
  apply Rltb_true in E1. apply Rltb_true in E2. apply Rltb_true in E3. auto.
Qed.

Lemma exp_log10 : forall x, 0 < x -> exp (log10 x) = x <-> x = 1.
Proof.
  intros x Hx. unfold log10. pose proof ln10_pos.
  assert (Hln10 : 1 < ln 10).
  { rewrite <- (ln_exp 1). apply ln_increasing; [apply exp_pos|]. pose proof exp_le_3. lra. }
  split; intro H1.
  - assert (H2 : ln x / ln 10 = ln x) by (rewrite <- (ln_exp (ln x / ln 10)), H1; reflexivity).
    assert (H3 : ln x = 0).
    { assert (H4 : ln x * (1 - / ln 10) = 0) by (unfold Rdiv in H2; lra).
      apply Rmult_integral in H4. destruct H4 as [H4|H4]; [assumption|].
      assert (H5 : / ln 10 < / 1) by (apply Rinv_lt_contravar; lra). rewrite Rinv_1 in H5. lra. }
    rewrite <- (exp_ln x Hx), H3. apply exp_0.
  - subst. rewrite ln_1. unfold Rdiv. rewrite Rmult_0_l. apply exp_0.
Qed.

Lemma ops_scales_only_unit : forall L G S, 0 < L -> 0 < G -> 0 < S ->
  exists p, ops_initial_params L G S = Ok p /\
  (exp_scales p = (L, G, S) <-> L = 1 /\ G = 1 /\ S = 1).
Proof.
  intros L G S HL HG HS. exists (log10 L, log10 G, log10 S). split.
  - unfold ops_initial_params. rewrite (proj2 (Rltb_true 0 L) HL), (proj2 (Rltb_true 0 G) HG), (proj2 (Rltb_true 0 S) HS).
    reflexivity.
  - unfold exp_scales. split.
    + intro H. injection H as H1 H2 H3.
      apply exp_log10 in H1; [|assumption]. apply exp_log10 in H2; [|assumption]. apply exp_log10 in H3; [|assumption]. auto.
    + intros (-> & -> & ->). rewrite !(proj2 (exp_log10 1 Rlt_0_1)) by reflexivity. reflexivity.
Qed.

(** ** Network construction *)

Lemma check_act_elts_ok : forall A (l : list (act_elt A)) r,
  check_act_elts l = Ok r -> l = map ActModule r.
Proof.
  induction l as [|[a|] l IH]; simpl; intros r H.
  - injection H as <-. reflexivity.
  - destruct (check_act_elts l); simpl in H; [|discriminate]. injection H as <-. simpl. f_equal. apply IH. reflexivity.
  - discriminate.
Qed.

Lemma check_act_elts_modules : forall A (r : list A), check_act_elts (map ActModule r) = Ok r.
Proof. induction r; simpl; [reflexivity|]. rewrite IHr. reflexivity. Qed.

Lemma check_act_elts_err : forall A (l : list (act_elt A)) e,
  check_act_elts l = Err e -> e = ValueError.
Proof.
  induction l as [|[a|] l IH]; simpl; intros e H; try discriminate.
  - destruct (check_act_elts l); simpl in H; [discriminate|]. injection H as <-. apply IH. reflexivity.
  - congruence.
Qed.

Lemma existsb_nonpos : forall l, existsb (fun h => (h <=? 0)%Z) l = false <-> (forall h, In h l -> (0 < h)%Z).
Proof.
  induction l as [|a l IH]; simpl; split; intros.
  - contradiction.
  - reflexivity.
  - apply Bool.orb_false_iff in H. destruct H as [H1 H2]. destruct H0 as [<-|H0].
    + apply Z.leb_gt in H1. assumption.
    + apply IH; assumption.
  - apply Bool.orb_false_iff. split.
    + apply Z.leb_gt. apply H. left. reflexivity.
    + apply IH. intros. apply H. right. assumption.
Qed.

Lemma taunet_init_spec : forall A (relu : A) n sz act learn nu,
  (forall z hs acts, n = IsInt z -> (0 < z)%Z -> sizes_accepted z sz hs -> acts_accepted relu z act acts ->
     taunet_init relu n sz act learn nu = Ok (TauCfg hs (layer_shapes hs) acts learn nu))
  /\ (forall c, taunet_init relu n sz act learn nu = Ok c ->
       exists z, n = IsInt z /\ (0 < z)%Z /\ sizes_accepted z sz (tc_sizes c)
                 /\ acts_accepted relu z act (tc_acts c))
  /\ (forall e, taunet_init relu n sz act learn nu = Err e -> e = ValueError).
Proof.
  intros A relu n sz act learn nu. split; [|split].
  - intros z hs acts -> Hz Hs Ha. unfold taunet_init, check_n_layers.
    destruct (z <=? 0)%Z eqn:E; [apply Z.leb_le in E; lia|]. cbn [bind].
    assert (Hcs : check_sizes (Z.to_nat z) sz = Ok hs).
    { destruct sz as [h|l]; simpl in *.
      - destruct Hs as [Hh ->]. destruct (h <=? 0)%Z eqn:E2; [apply Z.leb_le in E2; lia|reflexivity].
      - destruct Hs as (Hl & Hp & ->).
        replace (length l =? Z.to_nat z)%nat with true by (symmetry; apply Nat.eqb_eq; lia).
        simpl. rewrite (proj2 (existsb_nonpos l) Hp). reflexivity. }
    rewrite Hcs. cbn [bind].
    assert (Hca : check_activations relu (Z.to_nat z) act = Ok acts).
    { destruct act; simpl in *.
      - subst; reflexivity.
      - subst; reflexivity.
      - destruct Ha as [Hl ->].
        replace (length (map ActModule acts) =? Z.to_nat z)%nat with true by (symmetry; apply Nat.eqb_eq; lia).
        simpl. apply check_act_elts_modules.
      - contradiction. }
    rewrite Hca. reflexivity.
  - intros c H. unfold taunet_init, check_n_layers in H.
    destruct n as [z|]; [|discriminate].
    destruct (z <=? 0)%Z eqn:E; [discriminate|]. apply Z.leb_gt in E. cbn [bind] in H.
    destruct (check_sizes (Z.to_nat z) sz) as [hs|] eqn:Hcs; [|discriminate]. cbn [bind] in H.
    destruct (check_activations relu (Z.to_nat z) act) as [acts|] eqn:Hca; [|discriminate].
    cbn [bind] in H. injection H as <-. cbn [tc_sizes tc_acts].
    exists z. repeat split; try assumption.
    + destruct sz as [h|l]; simpl in *.
      * destruct (h <=? 0)%Z eqn:E2; [discriminate|]. apply Z.leb_gt in E2. split; [assumption|congruence].
      * destruct (length l =? Z.to_nat z)%nat eqn:E2; [|discriminate]. apply Nat.eqb_eq in E2. simpl in Hcs.
        destruct (existsb (fun h => (h <=? 0)%Z) l) eqn:E3; [discriminate|].
        split; [lia|]. split; [apply existsb_nonpos; assumption|congruence].
    + destruct act; simpl in *; try congruence.
      destruct (length l =? Z.to_nat z)%nat eqn:E2; [|discriminate]. apply Nat.eqb_eq in E2. simpl in Hca.
      split; [lia|]. apply check_act_elts_ok. assumption.
  - intros e H. unfold taunet_init, check_n_layers in H.
    destruct n as [z|]; [|injection H as <-; reflexivity].
    destruct (z <=? 0)%Z eqn:E; [injection H as <-; reflexivity|]. cbn [bind] in H.
    destruct (check_sizes (Z.to_nat z) sz) as [hs|] eqn:Hcs; cbn [bind] in H.
    + destruct (check_activations relu (Z.to_nat z) act) as [acts|] eqn:Hca; [discriminate|].
      cbn [bind] in H. injection H as <-.
      destruct act; simpl in Hca; try discriminate; try congruence.
      destruct (length l =? Z.to_nat z)%nat; simpl in Hca; [|congruence].
      eapply check_act_elts_err; eassumption.
    + injection H as <-. destruct sz as [h|l]; simpl in Hcs.
      * destruct (h <=? 0)%Z; congruence.
      * destruct (length l =? Z.to_nat z)%nat; simpl in Hcs; [|congruence].
        destruct (existsb (fun h => (h <=? 0)%Z) l); congruence.
Qed.

Lemma sizes_accepted_props : forall z sz hs, (0 < z)%Z -> sizes_accepted z sz hs ->
  Z.of_nat (length hs) = z /\ (forall h, In h hs -> (0 < h)%nat).
Proof.
  intros z sz hs Hz H. destruct sz as [h|l]; simpl in H.
  - destruct H as [Hh ->]. rewrite repeat_length. split; [lia|].
    intros h' Hin. apply repeat_spec in Hin. lia.
  - destruct H as (Hl & Hp & ->). rewrite map_length. split; [assumption|].
    intros h' Hin. apply in_map_iff in Hin. destruct Hin as [x [<- Hx]]. specialize (Hp x Hx). lia.
Qed.

Lemma hidden_chain : forall hs h, chain h (hidden_pairs (h :: hs)) (last (h :: hs) 0%nat).
Proof.
  induction hs as [|a hs IH]; intro h.
  - reflexivity.
  - cbn [hidden_pairs chain]. split; [reflexivity|]. apply IH.
Qed.

Lemma chain_app : forall l1 a b l2 c, chain a l1 b -> chain b l2 c -> chain a (l1 ++ l2) c.
Proof.
  induction l1 as [|[i o] l1 IH]; simpl; intros a b l2 c H1 H2; [subst; assumption|].
  destruct H1 as [-> H1]. split; [reflexivity|]. eapply IH; eassumption.
Qed.

Lemma layer_chain : forall hs, hs <> [] -> chain 3 (layer_shapes hs) 3.
Proof.
  intros [|h hs] H; [contradiction|]. unfold layer_shapes. cbn [hd chain]. split; [reflexivity|].
  eapply chain_app; [apply hidden_chain|]. simpl. auto.
Qed.

Lemma hidden_pairs_length : forall hs h, length (hidden_pairs (h :: hs)) = length hs.
Proof.
  induction hs as [|a hs IH]; intro h; [reflexivity|].
  cbn [hidden_pairs length]. f_equal. apply IH.
Qed.

Lemma layer_count : forall hs, hs <> [] -> length (layer_shapes hs) = S (length hs).
Proof.
  intros [|h hs] H; [contradiction|]. unfold layer_shapes. cbn [length]. rewrite app_length, hidden_pairs_length.
  simpl. lia.
Qed.

Lemma hidden_pairs_sum : forall hs r,
  fold_right (fun p acc => fst p * snd p + acc)%nat r (hidden_pairs hs) = (sum_adjacent hs + r)%nat.
Proof.
  induction hs as [|a hs IH]; intro r; [reflexivity|].
  destruct hs as [|b hs]; [reflexivity|].
  change (hidden_pairs (a :: b :: hs)) with ((a, b) :: hidden_pairs (b :: hs)).
  cbn [fold_right fst snd]. rewrite IH.
  change (sum_adjacent (a :: b :: hs)) with (a * b + sum_adjacent (b :: hs))%nat. lia.
Qed.

Lemma num_params_formula : forall A (c : taunet_cfg A) h hs, tc_sizes c = h :: hs ->
  tc_layers c = layer_shapes (tc_sizes c) ->
  num_params c = (3 * h + sum_adjacent (h :: hs) + 3 * last (h :: hs) 0
                  + (if tc_learn_nu c then 1 else 0))%nat.
Proof.
  intros A c h hs Hs Hl. unfold num_params. rewrite Hl, Hs. unfold layer_shapes.
  cbn [fold_right fst snd]. rewrite fold_right_app. rewrite hidden_pairs_sum. cbn [fold_right fst snd hd].
  lia.
Qed.

(** ** Forward pass *)

Lemma linear_ok : forall W r c x, has_shape r c W -> length x = c ->
  exists y, linear W x = Ok y /\ length y = r.
Proof.
  intros W r c x [Hr Hc] Hx. unfold linear.
  replace (forallb (fun row => (length row =? length x)%nat) W) with true.
  - eexists. split; [reflexivity|]. rewrite map_length. assumption.
  - symmetry. apply forallb_forall. intros row Hin. rewrite Forall_forall in Hc.
    apply Nat.eqb_eq. rewrite Hc by assumption. symmetry; assumption.
Qed.

Lemma mlp_ok : forall ls Ws acts a b x,
  chain a ls b -> ls <> [] -> length acts = (length ls - 1)%nat ->
  Forall2 (fun (l : nat * nat) W => has_shape (snd l) (fst l) W) ls Ws -> length x = a ->
  exists y, mlp_layers Ws acts x = Ok y /\ length y = b.
Proof.
  induction ls as [|[i o] ls IH]; intros Ws acts a b x Hch Hne Hacts HF Hx; [contradiction|].
  inversion HF as [|? W ? Ws' HW HF']; subst. cbn [fst snd] in HW.
  destruct Hch as [-> Hch].
  destruct ls as [|l2 ls].
  - inversion HF'; subst. simpl in Hch. subst. simpl.
    eapply linear_ok; [eassumption|reflexivity].
  - inversion HF' as [|? W2 ? Ws2 HW2 HF2]; subst.
    destruct acts as [|f acts]; [simpl in Hacts; discriminate|].
    destruct (linear_ok W o (length x) x HW eq_refl) as [y [Hy Hly]].
    change (mlp_layers (W :: W2 :: Ws2) (f :: acts) x)
      with (bind (linear W x) (fun y => mlp_layers (W2 :: Ws2) acts (map f y))).
    rewrite Hy. cbn [bind].
    apply (IH (W2 :: Ws2) acts o b (map f y)).
    + assumption.
    + discriminate.
    + simpl in *. lia.
    + assumption.
    + rewrite map_length. assumption.
Qed.

Lemma vadd_ok : forall x y, length x = length y -> exists z, vadd x y = Ok z /\ length z = length x.
Proof.
  induction x as [|a x IH]; intros [|b y] H; simpl in *; try discriminate.
  - exists []. auto.
  - injection H as H. destruct (IH y H) as [z [Hz Hl]]. rewrite Hz. simpl. eexists. split; [reflexivity|]. simpl. lia.
Qed.

Lemma taunet_forward_ok : forall hs Ws acts nu k, hs <> [] ->
  length acts = length hs ->
  Forall2 (fun (l : nat * nat) W => has_shape (snd l) (fst l) W) (layer_shapes hs) Ws ->
  length k = 3%nat -> exists t, taunet_forward Ws acts nu k = Ok t /\ 0 < t.
Proof.
  intros hs Ws acts nu k Hne Ha HF Hk.
  destruct (mlp_ok (layer_shapes hs) Ws acts 3 3 (map Rabs k)) as [y [Hy Hly]].
  - apply layer_chain; assumption.
  - discriminate.
  - rewrite layer_count by assumption. lia.
  - assumption.
  - rewrite map_length; assumption.
  - unfold taunet_forward, mlp_forward. rewrite Hy. cbn [bind].
    destruct (vadd_ok (map Rabs k) y) as [z [Hz _]]; [rewrite map_length; lia|].
    rewrite Hz. cbn [bind]. eexists. split; [reflexivity|]. apply rational_pos.
Qed.

Lemma dot_zero : forall r x, Forall (fun w => w = 0) r -> dot r x = 0.
Proof.
  induction r as [|a r IH]; intros x H; [destruct x; reflexivity|].
  destruct x as [|b x]; [reflexivity|]. inversion H; subst. simpl. rewrite IH by assumption. ring.
Qed.

Lemma linear_zero : forall W x y, zero_weights W -> linear W x = Ok y -> Forall (fun v => v = 0) y.
Proof.
  intros W x y HW H. unfold linear in H.
  destruct (forallb (fun r => (length r =? length x)%nat) W); [|discriminate]. injection H as <-.
  induction HW; simpl; constructor; [apply dot_zero; assumption|assumption].
Qed.

Lemma mlp_zero : forall Ws acts x y, Forall zero_weights Ws -> mlp_layers Ws acts x = Ok y ->
  Forall (fun v => v = 0) y.
Proof.
  induction Ws as [|W Ws IH]; intros acts x y HF H; [discriminate|].
  inversion HF; subst. destruct Ws as [|W2 Ws].
  - simpl in H. eapply linear_zero; eassumption.
  - destruct acts as [|f acts]; [discriminate|].
    change (mlp_layers (W :: W2 :: Ws) (f :: acts) x)
      with (bind (linear W x) (fun y => mlp_layers (W2 :: Ws) acts (map f y))) in H.
    destruct (linear W x) as [u|]; [|discriminate]. cbn [bind] in H.
    eapply IH; eassumption.
Qed.

Lemma vadd_zero : forall x y z, Forall (fun v => v = 0) y -> vadd x y = Ok z -> z = x.
Proof.
  induction x as [|a x IH]; intros [|b y] z Hy H; simpl in H; try discriminate.
  - congruence.
  - inversion Hy; subst. destruct (vadd x y) as [w|] eqn:E; [|discriminate]. simpl in H.
    injection H as <-. f_equal; [ring|]. eapply IH; eassumption.
Qed.

Lemma Rsum_sq_abs : forall k, Rsum (map (fun a => a^2) (map Rabs k)) = Rsum (map (fun a => a^2) k).
Proof.
  induction k as [|a k IH]; [reflexivity|]. cbn [map Rsum fold_right]. unfold Rsum in IH.
  rewrite IH. rewrite <- (Rsqr_pow2 (Rabs a)), <- Rsqr_abs, Rsqr_pow2. reflexivity.
Qed.

Lemma taunet_zero_weights : forall Ws acts nu k t, Forall zero_weights Ws ->
  taunet_forward Ws acts nu k = Ok t -> t = rational nu (sqrt (Rsum (map (fun a => a^2) k))).
Proof.
  intros Ws acts nu k t HW H. unfold taunet_forward, mlp_forward in H.
  destruct (mlp_layers Ws acts (map Rabs k)) as [y|] eqn:Hy; [|discriminate]. cbn [bind] in H.
  destruct (vadd (map Rabs k) y) as [z|] eqn:Hz; [|discriminate]. cbn [bind] in H.
  injection H as <-. apply mlp_zero in Hy; [|assumption]. apply vadd_zero in Hz; [|assumption]. subst z.
  unfold vnorm. rewrite Rsum_sq_abs. reflexivity.
Qed.

Lemma rational_x_nonzero : forall nu x, x <> 0 -> rational_x nu x = Fin (rational nu x).
Proof.
  intros nu x Hx. unfold rational_x, rational.
  assert (Ha : 0 < Rabs x) by (apply Rabs_pos_lt; assumption).
  assert (Hb : 0 < 1 + Rabs x ^ 2) by (pose proof (pow2_ge_0 (Rabs x)); lra).
  unfold xpow. destruct (Rlt_dec 0 (Rabs x)); [|contradiction].
  destruct (Rlt_dec 0 (1 + Rabs x ^2)); [|contradiction].
  rewrite xdiv_fin; [reflexivity|]. apply Rgt_not_eq. apply Rpower_pos.
Qed.

Lemma rational_x_zero : forall nu, nu < 2/3 -> rational_x nu 0 = PInf.
Proof.
  intros nu Hnu. unfold rational_x. rewrite Rabs_R0.
  replace (1 + 0^2) with 1 by ring. unfold xpow.
  destruct (Rlt_dec 0 0); [lra|]. destruct (Rlt_dec 0 (nu - 2/3)); [lra|].
  destruct (Rlt_dec (nu - 2/3) 0); [|lra]. destruct (Rlt_dec 0 1); [|lra].
  rewrite Rpower_1_base. unfold xdiv. unfold Reqb. destruct (Req_EM_T 1 0); [lra|].
  unfold xinf, xsign, Rltb. destruct (Rlt_dec 0 1); [|lra]. reflexivity.
Qed.

Lemma rational_x_positive : forall nu x, x <> 0 -> exists r, rational_x nu x = Fin r /\ 0 < r
  /\ r = Rpower (Rabs x) (nu - 2/3) / Rpower (1 + x^2) (nu/2).
Proof.
  intros nu x Hx. exists (rational nu x). split; [apply rational_x_nonzero; assumption|].
  split; [apply rational_pos|apply rational_form].
Qed.

Lemma drd_lifetime_mismatch : exists (Ws : list weights) (acts : list (R -> R)) (nu L h_ref T k1 k2 k3 : R)
    (env : lifetime_env) (net : R -> R -> R -> R),
  0 < L /\ 0 < h_ref /\ 0 < T /\
  le_type env = TAUNET /\ le_L env = L /\ le_T env = T /\ le_net env = taunet_forward Ws acts nu /\
  (forall x y z, taunet_forward Ws acts nu [x; y; z] = Ok (net x y z)) /\
  eddy_lifetime env (k1 * h_ref) (k2 * h_ref) (k3 * h_ref) <> Ok (drd_sim_tau net T h_ref k1 k2 k3).
Proof.
  set (Ws := [repeat [0;0;0] 1; repeat [0] 3]).
  set (acts := [fun x : R => x]).
  set (net := fun x y z => rational 0 (sqrt (Rsum (map (fun a => a^2) [x; y; z])))).
  assert (Hnet : forall x y z, taunet_forward Ws acts 0 [x; y; z] = Ok (net x y z)).
  { intros x y z.
    destruct (taunet_forward_ok [1%nat] Ws acts 0 [x;y;z]) as [t [Ht _]].
    - discriminate.
    - reflexivity.
    - unfold layer_shapes, Ws. simpl. repeat constructor.
    - reflexivity.
    - rewrite Ht. f_equal. apply (taunet_zero_weights Ws acts); [|assumption].
      unfold Ws, zero_weights. simpl. repeat constructor. }
  exists Ws, acts, 0, 2, 1, 1, 1, 0, 0, (LEnv TAUNET 2 1 (fun x => x) 0 0 (taunet_forward Ws acts 0)), net.
  repeat (split; [first [lra | reflexivity | exact Hnet]|]).
  unfold eddy_lifetime. cbn [le_type le_L le_T le_net]. rewrite Hnet. cbn [bind].
  intro H. injection H as H. revert H. unfold drd_sim_tau, net. rewrite !rational_nu0.
  replace (sqrt (Rsum (map (fun a => a^2) [1 * 1 * 2; 0 * 1 * 2; 0 * 1 * 2]))) with 2.
  - replace (sqrt (Rsum (map (fun a => a^2) [1 * 1; 0 * 1; 0 * 1]))) with 1.
    + rewrite (Rabs_pos_eq 2), (Rabs_pos_eq 1) by lra. rewrite Rpower_1_base.
      intro H. assert (H1 : Rpower 2 (-2/3) < Rpower 2 0) by (apply Rpower_lt; lra).
      rewrite Rpower_O in H1 by lra. lra.
    + unfold Rsum. cbn [map fold_right]. replace ((1*1)^2 + ((0*1)^2 + ((0*1)^2 + 0))) with 1 by ring.
      symmetry. apply sqrt_1.
  - unfold Rsum. cbn [map fold_right]. replace ((1*1*2)^2 + ((0*1*2)^2 + ((0*1*2)^2 + 0))) with (2*2) by ring.
    symmetry. apply sqrt_square. lra.
Qed.

Lemma drd_lifetime_unit_length : forall (netf : list R -> res R) net T h_ref k1 k2 k3 env,
  le_type env = TAUNET -> le_L env = 1 -> le_T env = T -> le_net env = netf ->
  (forall x y z, netf [x; y; z] = Ok (net x y z)) ->
  eddy_lifetime env (k1 * h_ref) (k2 * h_ref) (k3 * h_ref) = Ok (drd_sim_tau net T h_ref k1 k2 k3).
Proof.
  intros netf net T h_ref k1 k2 k3 env Ht HL HT Hn Hnet.
  unfold eddy_lifetime. rewrite Ht, HL, HT, Hn, Hnet. cbn [bind].
  unfold drd_sim_tau. rewrite !Rmult_1_r, Rplus_0_l. reflexivity.
Qed.

Lemma mann_approx_refuted : exists A alpha L T k, 0 < A /\ 0 < L /\ 0 < T /\ 0 < k /\
  mann_approx_lifetime (fun x => A * Rpower x alpha) L T L T k
  <> T * (A * Rpower (L * k) alpha).
Proof.
  exists 1, (-2/3), 1, 2, 1. repeat (split; [lra|]).
  rewrite mann_approx_double_scaling by lra. rewrite Rmult_1_r, !Rpower_1_base. lra.
Qed.

Lemma ops_scales_refuted : exists L G S p, 0 < L /\ 0 < G /\ 0 < S /\
  ops_initial_params L G S = Ok p /\ exp_scales p <> (L, G, S).
Proof.
  destruct (ops_scales_only_unit 2 2 2) as [p [Hp Hiff]]; try lra.
  exists 2, 2, 2, p. repeat (split; [lra|]). split; [assumption|].
  intro H. apply Hiff in H. lra.
Qed.

Lemma taunet_init_documented : forall A (relu : A) n sz act learn nu,
  (forall z hs acts, n = IsInt z -> (0 < z)%Z -> sizes_accepted z sz hs -> acts_accepted relu z act acts ->
     exists c, taunet_init relu n sz act learn nu = Ok c /\ tc_sizes c = hs /\ tc_acts c = acts
               /\ tc_learn_nu c = learn /\ tc_nu c = nu)
  /\ (forall c, taunet_init relu n sz act learn nu = Ok c ->
       exists z, n = IsInt z /\ (0 < z)%Z /\ sizes_accepted z sz (tc_sizes c)
                 /\ acts_accepted relu z act (tc_acts c))
  /\ (forall e, taunet_init relu n sz act learn nu = Err e -> e = ValueError).
Proof.
  intros A relu n sz act learn nu.
  destruct (taunet_init_spec A relu n sz act learn nu) as (H1 & H2 & H3).
  split; [|split; assumption].
  intros z hs acts Hn Hz Hs Ha. eexists. split; [eapply H1; eassumption|]. repeat split.
Qed.

Lemma taunet_init_layers : forall A (relu : A) n sz act learn nu c,
  taunet_init relu n sz act learn nu = Ok c -> tc_layers c = layer_shapes (tc_sizes c)
  /\ tc_learn_nu c = learn.
Proof.
  intros A relu n sz act learn nu c H. unfold taunet_init in H.
  destruct (check_n_layers n); [|discriminate]. cbn [bind] in H.
  destruct (check_sizes n0 sz); [|discriminate]. cbn [bind] in H.
  destruct (check_activations relu n0 act); [|discriminate]. cbn [bind] in H.
  injection H as <-. split; reflexivity.
Qed.

Lemma taunet_init_sizes : forall A (relu : A) n sz act learn nu c,
  taunet_init relu n sz act learn nu = Ok c ->
  tc_sizes c <> [] /\ (forall h, In h (tc_sizes c) -> (0 < h)%nat)
  /\ length (tc_acts c) = length (tc_sizes c).
Proof.
  intros A relu n sz act learn nu c H.
  destruct (taunet_init_spec A relu n sz act learn nu) as (_ & H2 & _).
  destruct (H2 c H) as (z & -> & Hz & Hs & Ha).
  destruct (sizes_accepted_props z sz (tc_sizes c) Hz Hs) as [Hl Hp].
  split; [intro E; rewrite E in Hl; simpl in Hl; lia|]. split; [assumption|].
  assert (Z.of_nat (length (tc_acts c)) = z).
  { destruct act; simpl in Ha.
    - rewrite Ha, repeat_length. lia.
    - rewrite Ha, repeat_length. lia.
    - destruct Ha as [Ha1 Ha2]. rewrite Ha2, map_length in Ha1. assumption.
    - contradiction. }
  lia.
Qed.

Lemma hidden_pairs_in : forall hs p, In p (hidden_pairs hs) -> In (fst p) hs /\ In (snd p) hs.
Proof.
  induction hs as [|a hs IH]; intros p H; [contradiction|].
  destruct hs as [|b hs]; [contradiction|].
  change (hidden_pairs (a :: b :: hs)) with ((a, b) :: hidden_pairs (b :: hs)) in H.
  destruct H as [<-|H].
  - split; [left; reflexivity|right; left; reflexivity].
  - destruct (IH p H). split; right; assumption.
Qed.

Lemma last_in : forall (hs : list nat) h, In (last (h :: hs) 0%nat) (h :: hs).
Proof.
  induction hs as [|a hs IH]; intro h; [left; reflexivity|].
  right. apply IH.
Qed.

Lemma taunet_layers : forall A (relu : A) n sz act learn nu c,
  taunet_init relu n sz act learn nu = Ok c ->
  chain 3 (tc_layers c) 3 /\ length (tc_layers c) = S (length (tc_sizes c))
  /\ length (tc_acts c) = length (tc_sizes c)
  /\ (forall p, In p (tc_layers c) -> (0 < fst p)%nat /\ (0 < snd p)%nat).
Proof.
  intros A relu n sz act learn nu c H.
  destruct (taunet_init_layers _ _ _ _ _ _ _ _ H) as [-> _].
  destruct (taunet_init_sizes _ _ _ _ _ _ _ _ H) as (Hne & Hp & Ha).
  split; [apply layer_chain; assumption|]. split; [apply layer_count; assumption|]. split; [assumption|].
  destruct (tc_sizes c) as [|h hs]; [contradiction|].
  intros p Hin. unfold layer_shapes in Hin. destruct Hin as [<-|Hin].
  - cbn [fst snd hd]. split; [lia|]. apply Hp. left; reflexivity.
  - apply in_app_or in Hin. destruct Hin as [Hin|[<-|[]]].
    + apply hidden_pairs_in in Hin. destruct Hin. split; apply Hp; assumption.
    + cbn [fst snd]. split; [|lia]. apply Hp. apply last_in.
Qed.

Lemma taunet_count : forall A (relu : A) n sz act learn nu c,
  taunet_init relu n sz act learn nu = Ok c ->
  exists h hs, tc_sizes c = h :: hs /\
  num_params c = (3 * h + sum_adjacent (h :: hs) + 3 * last (h :: hs) 0
                  + (if learn then 1 else 0))%nat.
Proof.
  intros A relu n sz act learn nu c H.
  destruct (taunet_init_layers _ _ _ _ _ _ _ _ H) as [Hl Hn].
  destruct (taunet_init_sizes _ _ _ _ _ _ _ _ H) as (Hne & _ & _).
  destruct (tc_sizes c) as [|h hs] eqn:E; [contradiction|].
  exists h, hs. split; [reflexivity|]. rewrite <- Hn. apply num_params_formula; [assumption|].
  rewrite E. assumption.
Qed.

Lemma taunet_shape_correct : forall A (relu : A) n sz act learn nu c Ws acts k,
  taunet_init relu n sz act learn nu = Ok c ->
  Forall2 (fun (l : nat * nat) W => has_shape (snd l) (fst l) W) (tc_layers c) Ws ->
  length acts = length (tc_acts c) -> length k = 3%nat ->
  is_ok (taunet_forward Ws acts nu k).
Proof.
  intros A relu n sz act learn nu c Ws acts k H HF Ha Hk.
  destruct (taunet_init_layers _ _ _ _ _ _ _ _ H) as [Hl _].
  destruct (taunet_init_sizes _ _ _ _ _ _ _ _ H) as (Hne & _ & Hac).
  rewrite Hl in HF.
  destruct (taunet_forward_ok (tc_sizes c) Ws acts nu k) as [t [Ht _]]; try assumption; [lia|].
  exists t. assumption.
Qed.
