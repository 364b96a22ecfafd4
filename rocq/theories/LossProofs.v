From Coq Require Import Reals Lra Lia Psatz List Arith ZArith Sorted Bool.
From Verif Require Import Prelude SpectraProofs LossModel LossSpec.
Import ListNotations.
Open Scope R_scope.

(** ** Sums and means of extended reals *)

Lemma xsum_fin : forall l, xsum (map Fin l) = Fin (Rsum l).
Proof. induction l as [|a l IH]; [reflexivity|]. simpl. unfold xsum in *. rewrite IH. reflexivity. Qed.

Lemma xmean_fin : forall l, l <> [] -> xmean (map Fin l) = Fin (Rmean l).
Proof.
  intros l H. unfold xmean. rewrite xsum_fin, map_length. unfold xdiv, Reqb.
  destruct (Req_EM_T (INR (length l)) 0) as [E|E].
  - apply (INR_eq _ 0%nat) in E. destruct l; [contradiction|discriminate].
  - reflexivity.
Qed.

Lemma xmean_nil : xmean [] = NaN.
Proof.
  unfold xmean, xsum. simpl. unfold Reqb. destruct (Req_EM_T 0 0); [reflexivity|lra].
Qed.

Lemma zip_with_length : forall A B C (f : A -> B -> C) l m, length l = length m -> length (zip_with f l m) = length l.
Proof. induction l as [|a l IH]; intros [|b m] H; simpl in *; try discriminate; auto. Qed.

(** Value classes of squares: NaN, a non-negative number or +inf. *)
Definition xnn (x : xr) : Prop := match x with Fin r => 0 <= r | PInf => True | _ => False end.

Lemma xsum_nn : forall l, Forall xnn l -> xnn (xsum l).
Proof.
  induction 1 as [|x l Hx Hl IH]; [simpl; lra|]. unfold xsum in *. simpl.
  destruct x; destruct (fold_right xadd (Fin 0) l); simpl in *; tauto || lra.
Qed.

Lemma xadd_nan_r : forall x, xadd x NaN = NaN.
Proof. destruct x; reflexivity. Qed.

Lemma xsum_nan : forall l, In NaN l -> xsum l = NaN.
Proof.
  induction l as [|x l IH]; intros [].
  - subst. reflexivity.
  - unfold xsum in *. simpl. rewrite IH by assumption. apply xadd_nan_r.
Qed.

Lemma xdiv_pos_nn : forall x n, xnn x -> 0 < n -> xnn (xdiv x (Fin n)).
Proof.
  intros x n Hx Hn. destruct x as [r| | |]; simpl in *; try contradiction.
  - unfold Reqb. destruct (Req_EM_T n 0); [lra|]. simpl. apply Rmult_le_pos; [assumption|].
    left. apply Rinv_0_lt_compat. assumption.
  - unfold Reqb. destruct (Req_EM_T n 0); [lra|]. unfold Rltb. destruct (Rlt_dec 0 n); [simpl; exact I|lra].
Qed.

Lemma xmean_nn : forall l, l <> [] -> Forall xnn l -> xnn (xmean l).
Proof.
  intros l H Hl. unfold xmean. apply xdiv_pos_nn; [apply xsum_nn; assumption|].
  apply lt_0_INR. destruct l; [contradiction|simpl; lia].
Qed.

Lemma xmean_nan : forall l, In NaN l -> xmean l = NaN.
Proof. intros l H. unfold xmean. rewrite xsum_nan by assumption. reflexivity. Qed.

Lemma xnn_not_nan : forall x, xnn x -> xisnan x = false.
Proof. destruct x; simpl; tauto. Qed.

(** ** Misfit *)

Lemma log_ratio_regular : forall m t, m <> 0 -> t <> 0 -> log_ratio m t = Fin (ln (Rabs m / Rabs t)).
Proof.
  intros m t Hm Ht. unfold log_ratio, xdiv, Reqb. destruct (Req_EM_T t 0); [contradiction|].
  simpl. assert (m / t <> 0).
  { unfold Rdiv. apply Rmult_integral_contrapositive. split; [assumption|]. apply Rinv_neq_0_compat. assumption. }
  pose proof (Rabs_pos_lt (m / t) H). destruct (Rlt_dec 0 (Rabs (m / t))); [|lra].
  unfold Rdiv at 1. rewrite Rabs_mult, Rabs_inv. reflexivity.
Qed.

Lemma sq_log_ratio_cases : forall m t,
  (m = 0 /\ t = 0 /\ xsquare (log_ratio m t) = NaN)
  \/ (m <> 0 /\ t <> 0 /\ xsquare (log_ratio m t) = Fin (ln (Rabs m / Rabs t) * ln (Rabs m / Rabs t)))
  \/ ((m = 0 /\ t <> 0 \/ m <> 0 /\ t = 0) /\ xsquare (log_ratio m t) = PInf).
Proof.
  intros m t. destruct (Req_dec m 0) as [Hm|Hm]; destruct (Req_dec t 0) as [Ht|Ht].
  - left. repeat split; try assumption. subst. unfold log_ratio, xdiv, Reqb.
    destruct (Req_EM_T 0 0); [reflexivity|lra].
  - right. right. split; [left; tauto|]. subst. unfold log_ratio, xdiv, Reqb.
    destruct (Req_EM_T t 0); [contradiction|]. simpl. replace (0 / t) with 0 by (field; assumption).
    rewrite Rabs_R0. destruct (Rlt_dec 0 0); [lra|]. reflexivity.
  - right. right. split; [right; tauto|]. subst. unfold log_ratio, xdiv, Reqb.
    destruct (Req_EM_T 0 0); [|lra]. destruct (Req_EM_T m 0); [contradiction|].
    unfold xsign, Rltb. destruct (Rlt_dec 0 m); [reflexivity|]. destruct (Rlt_dec m 0); [reflexivity|lra].
  - right. left. repeat split; try assumption. rewrite log_ratio_regular by assumption. reflexivity.
Qed.

Lemma sq_log_ratio_nn : forall m t, ~ (m = 0 /\ t = 0) -> xnn (xsquare (log_ratio m t)).
Proof.
  intros m t H. destruct (sq_log_ratio_cases m t) as [[? [? _]]|[[_ [_ ->]]|[_ ->]]]; [tauto| |exact I].
  simpl. nra.
Qed.

Lemma map_zip : forall A B C D (g : C -> D) (f : A -> B -> C) l m,
  map g (zip_with f l m) = zip_with (fun a b => g (f a b)) l m.
Proof. induction l as [|a l IH]; intros [|b m]; simpl; try reflexivity. rewrite IH. reflexivity. Qed.

Lemma mse_nan_in : forall m t, common_zero m t -> In NaN (map xsquare (zip_with log_ratio m t)).
Proof.
  induction 1 as [l m|a b l m H IH].
  - left. destruct (sq_log_ratio_cases 0 0) as [[_ [_ H]]|[[H _]|[[[_ H]|[H _]] _]]]; try contradiction; try lra.
    exact H.
  - right. exact IH.
Qed.

Lemma mse_nn : forall m t, length m = length t -> ~ common_zero m t ->
  Forall xnn (map xsquare (zip_with log_ratio m t)).
Proof.
  induction m as [|a m IH]; intros [|b t] Hl Hc; simpl in *; try discriminate; constructor.
  - apply sq_log_ratio_nn. intros [-> ->]. apply Hc. constructor.
  - apply IH; [lia|]. intro H. apply Hc. constructor. assumption.
Qed.

Lemma mse_raises_iff : forall m t, length m = length t ->
  (mse_term m t = Err ValueError <-> m = [] \/ common_zero m t).
Proof.
  intros m t Hl. unfold mse_term, nan_guard. split.
  - intro H. destruct m as [|a m]; [left; reflexivity|]. right.
    destruct (Classical_Prop.classic (common_zero (a :: m) t)) as [Hc|Hc]; [exact Hc|]. exfalso.
    pose proof (mse_nn (a :: m) t Hl Hc) as Hn.
    assert (Hx : xnn (xmean (map xsquare (zip_with log_ratio (a :: m) t)))).
    { apply xmean_nn; [|assumption]. destruct t; [discriminate|]. simpl. discriminate. }
    rewrite (xnn_not_nan _ Hx) in H. discriminate.
  - intros [->|Hc].
    + destruct t; [|discriminate]. simpl. rewrite xmean_nil. reflexivity.
    + rewrite xmean_nan by (apply mse_nan_in; assumption). reflexivity.
Qed.

Lemma mse_otherwise : forall m t, length m = length t -> m <> [] -> ~ common_zero m t ->
  exists x, mse_term m t = Ok x /\ (x = PInf \/ exists v, x = Fin v /\ 0 <= v).
Proof.
  intros m t Hl Hne Hc. unfold mse_term, nan_guard.
  pose proof (mse_nn m t Hl Hc) as Hn.
  assert (Hx : xnn (xmean (map xsquare (zip_with log_ratio m t)))).
  { apply xmean_nn; [|assumption]. destruct m; [contradiction|]. destruct t; [discriminate|]. simpl. discriminate. }
  rewrite (xnn_not_nan _ Hx). eexists. split; [reflexivity|].
  destruct (xmean (map xsquare (zip_with log_ratio m t))); simpl in Hx; try contradiction; [right|left]; eauto.
Qed.

Lemma sq_ratio_list : forall m t, length m = length t ->
  Forall (fun v => v <> 0) m -> Forall (fun v => v <> 0) t ->
  map xsquare (zip_with log_ratio m t)
  = map Fin (zip_with (fun a b => ln (Rabs a / Rabs b) * ln (Rabs a / Rabs b)) m t).
Proof.
  induction m as [|a m IH]; intros [|b t] Hl Hm Ht; simpl in *; try discriminate; [reflexivity|].
  inversion Hm; inversion Ht; subst. rewrite log_ratio_regular by assumption. rewrite IH by (assumption || lia).
  reflexivity.
Qed.

Lemma zip_nonneg : forall m t, Forall (fun v => 0 <= v)
  (zip_with (fun a b => ln (Rabs a / Rabs b) * ln (Rabs a / Rabs b)) m t).
Proof.
  induction m as [|a m IH]; intros [|b t]; simpl; constructor; auto. apply Rle_0_sqr.
Qed.

Lemma sum_nonneg_F : forall l, Forall (fun v => 0 <= v) l -> 0 <= Rsum l.
Proof. induction 1; unfold Rsum in *; simpl; lra. Qed.

Lemma sum_zero_F : forall l, Forall (fun v => 0 <= v) l -> Rsum l = 0 -> Forall (fun v => v = 0) l.
Proof.
  induction 1 as [|x l Hx Hl IH]; intro H; constructor.
  - pose proof (sum_nonneg_F l Hl). unfold Rsum in *. simpl in H. lra.
  - apply IH. pose proof (sum_nonneg_F l Hl). unfold Rsum in *. simpl in H. lra.
Qed.

Lemma sum_all_zero : forall l, Forall (fun v => v = 0) l -> Rsum l = 0.
Proof. induction 1; unfold Rsum in *; simpl; lra. Qed.

Lemma mean_nonneg : forall l, Forall (fun v => 0 <= v) l -> 0 <= Rmean l.
Proof.
  intros l H. unfold Rmean. destruct l as [|a l]; [unfold Rsum; simpl; unfold Rdiv; rewrite Rmult_0_l; lra|].
  apply Rmult_le_pos; [apply sum_nonneg_F; assumption|]. left. apply Rinv_0_lt_compat, lt_0_INR. simpl. lia.
Qed.

Lemma mean_zero_iff : forall l, Forall (fun v => 0 <= v) l -> l <> [] ->
  (Rmean l = 0 <-> Forall (fun v => v = 0) l).
Proof.
  intros l Hl Hne. assert (Hn : 0 < INR (length l)) by (apply lt_0_INR; destruct l; [contradiction|simpl; lia]).
  unfold Rmean. split; intro H.
  - apply sum_zero_F; [assumption|]. apply Rmult_integral in H. destruct H as [H|H]; [assumption|].
    apply Rinv_neq_0_compat in H; [contradiction|lra].
  - rewrite sum_all_zero by assumption. unfold Rdiv. ring.
Qed.

Lemma ln_ratio_zero : forall a b, a <> 0 -> b <> 0 -> (ln (Rabs a / Rabs b) = 0 <-> Rabs a = Rabs b).
Proof.
  intros a b Ha Hb. pose proof (Rabs_pos_lt a Ha). pose proof (Rabs_pos_lt b Hb).
  assert (0 < Rabs a / Rabs b) by (apply Rdiv_lt_0_compat; assumption). split; intro H2.
  - assert (Rabs a / Rabs b = 1) by (apply ln_inv; [assumption|lra|rewrite ln_1; assumption]).
    apply (f_equal (fun x => x * Rabs b)) in H3. unfold Rdiv in H3. rewrite Rmult_assoc, Rinv_l in H3 by lra. lra.
  - rewrite H2. unfold Rdiv. rewrite Rinv_r by lra. apply ln_1.
Qed.

Lemma zip_zero_iff : forall m t, length m = length t ->
  Forall (fun v => v <> 0) m -> Forall (fun v => v <> 0) t ->
  (Forall (fun v => v = 0) (zip_with (fun a b => ln (Rabs a / Rabs b) * ln (Rabs a / Rabs b)) m t)
   <-> Forall2 (fun a b => Rabs a = Rabs b) m t).
Proof.
  induction m as [|a m IH]; intros [|b t] Hl Hm Ht; simpl in *; try discriminate.
  - split; constructor.
  - inversion Hm; inversion Ht; subst. specialize (IH t ltac:(lia) H2 H6). split; intro H.
    + inversion H; subst. constructor; [|apply IH; assumption].
      apply ln_ratio_zero; try assumption.
      match goal with E : _ * _ = 0 |- _ => apply Rmult_integral in E; tauto end.
    + inversion H; subst. constructor; [|apply IH; assumption].
      match goal with E : Rabs a = Rabs b |- _ => rewrite (proj2 (ln_ratio_zero a b H1 H5) E) end. ring.
Qed.

Lemma mse_proper : forall m t, length m = length t -> m <> [] ->
  Forall (fun v => v <> 0) m -> Forall (fun v => v <> 0) t ->
  exists v, mse_term m t = Ok (Fin v) /\ 0 <= v /\ (v = 0 <-> Forall2 (fun a b => Rabs a = Rabs b) m t).
Proof.
  intros m t Hl Hne Hm Ht. unfold mse_term. rewrite sq_ratio_list by assumption.
  set (z := zip_with _ m t).
  assert (Hz : z <> []) by (unfold z; destruct m; [contradiction|]; destruct t; [discriminate|]; simpl; discriminate).
  rewrite xmean_fin by assumption. exists (Rmean z). split; [reflexivity|].
  assert (Hnn : Forall (fun v => 0 <= v) z) by apply zip_nonneg.
  split; [apply mean_nonneg; assumption|]. rewrite mean_zero_iff by assumption. apply zip_zero_iff; assumption.
Qed.

Lemma zip_ext : forall A B C D E (f : A -> B -> C) (g : D -> E -> C) l m l' m',
  length l = length l' -> length m = length m' ->
  (forall i a b c d, nth_error l i = Some a -> nth_error m i = Some b ->
     nth_error l' i = Some c -> nth_error m' i = Some d -> f a b = g c d) ->
  zip_with f l m = zip_with g l' m'.
Proof.
  induction l as [|a l IH]; intros [|b m] [|c l'] [|d m'] H1 H2 H; simpl in *; try discriminate; try reflexivity.
  f_equal.
  - apply (H 0%nat); reflexivity.
  - apply IH; try lia. intros i x y z w Hx Hy Hz Hw. apply (H (S i)); assumption.
Qed.

Lemma sq_ratio_scale : forall c m t, c <> 0 -> xsquare (log_ratio (c * m) (c * t)) = xsquare (log_ratio m t).
Proof.
  intros c m t Hc.
  assert (Hz : forall x, c * x = 0 <-> x = 0).
  { intro x. split; intro H; [apply Rmult_integral in H; tauto|rewrite H; ring]. }
  destruct (sq_log_ratio_cases m t) as [[Hm [Ht E]]|[[Hm [Ht E]]|[H E]]]; rewrite E;
  destruct (sq_log_ratio_cases (c * m) (c * t)) as [[Hm' [Ht' E']]|[[Hm' [Ht' E']]|[H' E']]];
    rewrite E'; rewrite ?Hz in *; try tauto.
  do 2 f_equal; rewrite !Rabs_mult; f_equal; field; repeat split; apply Rabs_no_R0; assumption.
Qed.

Lemma sq_ratio_swap : forall m t, xsquare (log_ratio m t) = xsquare (log_ratio t m).
Proof.
  intros m t.
  destruct (sq_log_ratio_cases m t) as [[Hm [Ht E]]|[[Hm [Ht E]]|[H E]]]; rewrite E;
  destruct (sq_log_ratio_cases t m) as [[Hm' [Ht' E']]|[[Hm' [Ht' E']]|[H' E']]]; rewrite E'; try tauto.
  pose proof (Rabs_pos_lt m Hm). pose proof (Rabs_pos_lt t Ht).
  f_equal. unfold Rdiv. rewrite !ln_mult by (try apply Rinv_0_lt_compat; assumption).
  rewrite !ln_Rinv by assumption. ring.
Qed.

Lemma map_sq_zip : forall m t, map xsquare (zip_with log_ratio m t) = zip_with (fun a b => xsquare (log_ratio a b)) m t.
Proof. intros. apply map_zip. Qed.

Lemma mse_scale : forall c m t, c <> 0 -> mse_term (map (Rmult c) m) (map (Rmult c) t) = mse_term m t.
Proof.
  intros c m t Hc. unfold mse_term. f_equal. f_equal. rewrite !map_sq_zip.
  revert t. induction m as [|a m IH]; intros [|b t]; simpl; try reflexivity.
  rewrite sq_ratio_scale by assumption. rewrite IH. reflexivity.
Qed.

Lemma mse_symmetric : forall m t, mse_term m t = mse_term t m.
Proof.
  intros m t. unfold mse_term. f_equal. f_equal. rewrite !map_sq_zip.
  revert t. induction m as [|a m IH]; intros [|b t]; simpl; try reflexivity.
  rewrite sq_ratio_swap, IH. reflexivity.
Qed.

(** ** Penalties *)

Lemma xdiff_cons2 : forall a b l, xdiff (a :: b :: l) = xsub b a :: xdiff (b :: l).
Proof. reflexivity. Qed.

Lemma rdiff_cons2 : forall a b l, rdiff (a :: b :: l) = (b - a) :: rdiff (b :: l).
Proof. reflexivity. Qed.

Lemma wave_grid_tail : forall a k, wave_grid (a :: k) -> wave_grid k.
Proof. intros a k [H1 H2]. inversion H1; inversion H2; subst. split; assumption. Qed.

Lemma wave_grid_head : forall a b k, wave_grid (a :: b :: k) -> 0 < a /\ a < b.
Proof.
  intros a b k [H1 H2]. inversion H1; inversion H2; subst. inversion H4; subst. split; assumption.
Qed.

Lemma log_row_cons : forall a y, a <> 0 -> log_row (a :: y) = Fin (ln (Rabs a)) :: log_row y.
Proof.
  intros a y H. unfold log_row. simpl. pose proof (Rabs_pos_lt a H).
  destruct (Rlt_dec 0 (Rabs a)); [reflexivity|lra].
Qed.

Lemma d1_row_slopes : forall k y, wave_grid k -> length y = length k -> Forall (fun v => v <> 0) y ->
  d1_row (grid_h1 k) y = map Fin (slopes k y).
Proof.
  induction k as [|k0 k IH]; intros y Hk Hl Hy; [destruct y; [reflexivity|discriminate]|].
  destruct y as [|y0 y]; [discriminate|].
  destruct k as [|k1 k]; destruct y as [|y1 y]; try discriminate; [reflexivity|].
  inversion Hy as [|? ? H0 Hy']; subst. inversion Hy' as [|? ? H1 _]; subst.
  destruct (wave_grid_head _ _ _ Hk) as [Hp Hlt].
  assert (Hln : ln k0 < ln k1) by (apply ln_increasing; assumption).
  change (slopes (k0 :: k1 :: k) (y0 :: y1 :: y))
    with ((ln (Rabs y1) - ln (Rabs y0)) / (ln k1 - ln k0) :: slopes (k1 :: k) (y1 :: y)).
  cbn [map]. rewrite <- IH by (try assumption; try (eapply wave_grid_tail; eassumption); simpl in *; lia).
  unfold d1_row, grid_h1, log_grid. cbn [map]. rewrite rdiff_cons2.
  rewrite (log_row_cons y0), (log_row_cons y1) by assumption. rewrite xdiff_cons2. cbn [zip_with].
  f_equal. unfold xsub, xadd, xopp, xdiv, Reqb. destruct (Req_EM_T (ln k1 - ln k0) 0); [lra|].
  f_equal.
Qed.

Lemma slopes_length : forall k y, length y = length k -> length (slopes k y) = (length k - 1)%nat.
Proof.
  induction k as [|k0 k IH]; intros y Hl; [destruct y; [reflexivity|discriminate]|].
  destruct y as [|y0 y]; [discriminate|]. destruct k as [|k1 k]; destruct y as [|y1 y]; try discriminate; [reflexivity|].
  change (slopes (k0 :: k1 :: k) (y0 :: y1 :: y))
    with ((ln (Rabs y1) - ln (Rabs y0)) / (ln k1 - ln k0) :: slopes (k1 :: k) (y1 :: y)).
  cbn [length]. rewrite IH by (simpl in *; lia). cbn [length]. lia.
Qed.

Lemma slopes_nonpos_iff : forall k y, wave_grid k -> length y = length k -> Forall (fun v => v <> 0) y ->
  (Forall (fun v => v <= 0) (slopes k y) <-> nonincreasing_abs y).
Proof.
  unfold nonincreasing_abs.
  induction k as [|k0 k IH]; intros y Hk Hl Hy; [destruct y; [split; constructor|discriminate]|].
  destruct y as [|y0 y]; [discriminate|].
  destruct k as [|k1 k]; destruct y as [|y1 y]; try discriminate.
  { split; intro; [repeat constructor|constructor]. }
  inversion Hy as [|? ? H0 Hy']; subst. inversion Hy' as [|? ? H1 _]; subst.
  destruct (wave_grid_head _ _ _ Hk) as [Hp Hlt].
  assert (Hln : ln k0 < ln k1) by (apply ln_increasing; assumption).
  specialize (IH (y1 :: y) (wave_grid_tail _ _ Hk) ltac:(simpl in *; lia) Hy').
  change (slopes (k0 :: k1 :: k) (y0 :: y1 :: y))
    with ((ln (Rabs y1) - ln (Rabs y0)) / (ln k1 - ln k0) :: slopes (k1 :: k) (y1 :: y)).
  pose proof (Rabs_pos_lt y0 H0) as Hy0. pose proof (Rabs_pos_lt y1 H1) as Hy1.
  assert (Hstep : (ln (Rabs y1) - ln (Rabs y0)) / (ln k1 - ln k0) <= 0 <-> Rabs y1 <= Rabs y0).
  { assert (Hi : 0 < / (ln k1 - ln k0)) by (apply Rinv_0_lt_compat; lra). unfold Rdiv. split; intro H.
    - destruct (Rle_or_lt (Rabs y1) (Rabs y0)) as [G|G]; [assumption|].
      apply (ln_increasing _ _ Hy0) in G. nra.
    - assert (ln (Rabs y1) <= ln (Rabs y0)).
      { destruct H as [H|H]; [left; apply ln_increasing; assumption|rewrite H; right; reflexivity]. }
      nra. }
  split; intro H.
  - inversion H; subst. constructor; [apply IH; assumption|]. constructor. apply Hstep. assumption.
  - inversion H as [|? ? Hs Hh]; subst. inversion Hh; subst. constructor; [apply Hstep; assumption|apply IH; assumption].
Qed.

(** Mean of squared positive parts. *)
Lemma relu_mean : forall l, l <> [] ->
  exists v, xmean (map (fun v => xsquare (xrelu v)) (map Fin l)) = Fin v /\ 0 <= v
  /\ (v = 0 <-> Forall (fun x => x <= 0) l).
Proof.
  intros l Hne. rewrite map_map.
  rewrite (map_ext _ (fun x => Fin (Rmax x 0 * Rmax x 0))) by reflexivity.
  rewrite <- (map_map (fun x => Rmax x 0 * Rmax x 0) Fin).
  set (z := map (fun x => Rmax x 0 * Rmax x 0) l).
  assert (Hz : z <> []) by (unfold z; destruct l; [contradiction|discriminate]).
  rewrite xmean_fin by assumption.
  assert (Hn : Forall (fun v => 0 <= v) z).
  { unfold z. apply Forall_forall. intros x Hx. apply in_map_iff in Hx. destruct Hx as [y [<- _]]. apply Rle_0_sqr. }
  exists (Rmean z). split; [reflexivity|]. split; [apply mean_nonneg; assumption|].
  rewrite mean_zero_iff by assumption. unfold z. rewrite !Forall_forall. split; intros H x Hx.
  - assert (E : Rmax x 0 * Rmax x 0 = 0) by (apply H; apply in_map_iff; eauto).
    apply Rmult_integral in E. pose proof (Rmax_l x 0). destruct E as [E|E]; rewrite E in *; assumption.
  - apply in_map_iff in Hx. destruct Hx as [y [<- Hy]]. specialize (H y Hy). rewrite Rmax_right by assumption. ring.
Qed.

Lemma concat_map_fin : forall A (f : A -> list xr) (g : A -> list R) l,
  (forall x, In x l -> f x = map Fin (g x)) -> concat (map f l) = map Fin (concat (map g l)).
Proof.
  induction l as [|a l IH]; intro H; [reflexivity|]. simpl. rewrite map_app, H by (left; reflexivity).
  rewrite IH; [reflexivity|]. intros. apply H. right. assumption.
Qed.

Lemma concat_map_nonempty : forall A (g : A -> list R) l, l <> [] -> (forall x, In x l -> g x <> []) ->
  concat (map g l) <> [].
Proof.
  intros A g [|a l] Hne H; [contradiction|]. simpl. intro E. apply app_eq_nil in E.
  apply (H a); [left; reflexivity|tauto].
Qed.

Lemma Forall_concat_map : forall A (g : A -> list R) (P : R -> Prop) l,
  Forall P (concat (map g l)) <-> Forall (fun x => Forall P (g x)) l.
Proof.
  induction l as [|a l IH]; simpl; [split; constructor|]. rewrite Forall_app, IH. split.
  - intros [H1 H2]. constructor; assumption.
  - intro H. inversion H; subst. split; assumption.
Qed.

Lemma nan_guard_fin : forall v, nan_guard (Fin v) = Ok (Fin v).
Proof. reflexivity. Qed.

Lemma weighted : forall a v z, 0 < a -> 0 < z -> 0 <= v ->
  exists w, xdiv (xmul (Fin a) (Fin v)) (Fin z) = Fin w /\ 0 <= w /\ (w = 0 <-> v = 0).
Proof.
  intros a v z Ha Hz Hv. unfold xmul, xdiv, Reqb. destruct (Req_EM_T z 0); [lra|].
  exists (a * v / z). assert (Hi : 0 < / z) by (apply Rinv_0_lt_compat; assumption).
  split; [reflexivity|]. split.
  - unfold Rdiv. apply Rmult_le_pos; [apply Rmult_le_pos|]; lra.
  - split; intro H.
    + unfold Rdiv in H. apply Rmult_integral in H. destruct H as [H|H]; [|lra].
      apply Rmult_integral in H. destruct H; [lra|assumption].
    + rewrite H. unfold Rdiv. ring.
Qed.

Lemma Forall_iff_ext : forall A (P Q : A -> Prop) l, (forall x, In x l -> (P x <-> Q x)) ->
  (Forall P l <-> Forall Q l).
Proof. intros A P Q l H. rewrite !Forall_forall. split; intros G x Hx; apply H; auto. Qed.

Lemma pen1_proper : forall p k zref y, wave_grid k -> (2 <= length k)%nat -> regular_curves k y ->
  0 < alpha_pen1 p -> 0 < zref ->
  exists v, pen1 p k zref y = Ok (Fin v) /\ 0 <= v /\ (v = 0 <-> Forall nonincreasing_abs y).
Proof.
  intros p k zref y Hk Hl [Hne Hy] Ha Hz. unfold pen1. cbv zeta.
  rewrite Forall_forall in Hy.
  rewrite (concat_map_fin _ _ (slopes k)) by (intros row Hr; destruct (Hy row Hr); apply d1_row_slopes; assumption).
  destruct (relu_mean (concat (map (slopes k) y))) as [v [-> [Hv Hv0]]].
  { apply concat_map_nonempty; [assumption|]. intros row Hr E. destruct (Hy row Hr) as [Hlen _].
    apply slopes_length in Hlen. rewrite E in Hlen. simpl in Hlen. lia. }
  destruct (weighted (alpha_pen1 p) v zref Ha Hz Hv) as [w [-> [Hw Hw0]]].
  exists w. split; [reflexivity|]. split; [assumption|]. rewrite Hw0, Hv0, Forall_concat_map.
  apply Forall_iff_ext. intros row Hr. destruct (Hy row Hr). apply slopes_nonpos_iff; assumption.
Qed.

(** Second order. *)
Lemma h2_cons3 : forall a b c k, grid_h2 (a :: b :: c :: k)
  = (/ 2 * (ln b + ln c) - / 2 * (ln a + ln b)) :: grid_h2 (b :: c :: k).
Proof. reflexivity. Qed.

Lemma xdiff_fin : forall l, xdiff (map Fin l) = map Fin (rdiff l).
Proof.
  induction l as [|a l IH]; [reflexivity|]. destruct l as [|b l]; [reflexivity|].
  cbn [map] in *. rewrite xdiff_cons2, IH, rdiff_cons2. cbn [map]. f_equal.
Qed.

Lemma rdiff_nonpos_iff : forall l, Forall (fun v => v <= 0) (rdiff l) <-> nonincreasing l.
Proof.
  unfold nonincreasing. induction l as [|a l IH]; [split; constructor|].
  destruct l as [|b l]; [split; repeat constructor|]. rewrite rdiff_cons2. split; intro H.
  - inversion H; subst. constructor; [apply IH; assumption|]. constructor. lra.
  - inversion H as [|? ? Hs Hh]; subst. inversion Hh; subst. constructor; [lra|apply IH; assumption].
Qed.

Lemma rdiff_length : forall l, length (rdiff l) = (length l - 1)%nat.
Proof.
  induction l as [|a l IH]; [reflexivity|]. destruct l as [|b l]; [reflexivity|].
  rewrite rdiff_cons2. cbn [length] in *. rewrite IH. lia.
Qed.

Lemma h2_pos : forall k, wave_grid k -> Forall (fun h => 0 < h) (grid_h2 k) /\ length (grid_h2 k) = (length k - 2)%nat.
Proof.
  induction k as [|a k IH]; intro Hk; [split; [constructor|reflexivity]|].
  destruct k as [|b k]; [split; [constructor|reflexivity]|].
  destruct k as [|c k]; [split; [constructor|reflexivity]|].
  rewrite h2_cons3. destruct (IH (wave_grid_tail _ _ Hk)) as [H1 H2].
  destruct (wave_grid_head _ _ _ Hk) as [Ha Hab].
  destruct (wave_grid_head _ _ _ (wave_grid_tail _ _ Hk)) as [Hb Hbc].
  assert (ln a < ln b) by (apply ln_increasing; assumption).
  assert (ln b < ln c) by (apply ln_increasing; assumption).
  split; [constructor; [lra|assumption]|]. cbn [length] in *. rewrite H2. lia.
Qed.

Lemma zip_div_fin : forall l h, Forall (fun x => 0 < x) h ->
  zip_with (fun d h => xdiv d (Fin h)) (map Fin l) h = map Fin (zip_with Rdiv l h).
Proof.
  induction l as [|a l IH]; intros [|b h] H; simpl; try reflexivity.
  inversion H; subst. rewrite IH by assumption. unfold Reqb. destruct (Req_EM_T b 0); [lra|]. reflexivity.
Qed.

Lemma zip_div_sign : forall l h, Forall (fun x => 0 < x) h -> length l = length h ->
  (Forall (fun v => v <= 0) (zip_with Rdiv l h) <-> Forall (fun v => v <= 0) l).
Proof.
  induction l as [|a l IH]; intros [|b h] H Hl; simpl in *; try discriminate; [split; constructor|].
  inversion H; subst. specialize (IH h H3 ltac:(lia)).
  assert (Hi : 0 < / b) by (apply Rinv_0_lt_compat; assumption).
  assert (E : a / b <= 0 <-> a <= 0).
  { unfold Rdiv. split; intro; [|nra]. destruct (Rle_or_lt a 0); [assumption|nra]. }
  split; intro G; inversion G; subst; constructor; tauto.
Qed.

Lemma pen2_proper : forall p k zref y, wave_grid k -> (3 <= length k)%nat -> regular_curves k y ->
  0 < alpha_pen2 p -> 0 < zref ->
  exists v, pen2 p k zref y = Ok (Fin v) /\ 0 <= v
  /\ (v = 0 <-> Forall (fun row => nonincreasing (slopes k row)) y).
Proof.
  intros p k zref y Hk Hl [Hne Hy] Ha Hz. unfold pen2. cbv zeta.
  rewrite Forall_forall in Hy. destruct (h2_pos k Hk) as [Hh Hhl].
  set (g := fun row => zip_with Rdiv (rdiff (slopes k row)) (grid_h2 k)).
  assert (Hlen : forall row, In row y -> length (rdiff (slopes k row)) = length (grid_h2 k)).
  { intros row Hr. destruct (Hy row Hr) as [H _]. rewrite rdiff_length, slopes_length, Hhl by assumption. lia. }
  rewrite (concat_map_fin _ _ g).
  2: { intros row Hr. destruct (Hy row Hr). unfold d2_row. rewrite d1_row_slopes by assumption.
       rewrite xdiff_fin, zip_div_fin by assumption. reflexivity. }
  destruct (relu_mean (concat (map g y))) as [v [-> [Hv Hv0]]].
  { apply concat_map_nonempty; [assumption|]. intros row Hr E. unfold g in E.
    apply (f_equal (@length R)) in E. rewrite zip_with_length in E by (apply Hlen; assumption).
    rewrite Hlen, Hhl in E by assumption. simpl in E. lia. }
  destruct (weighted (alpha_pen2 p) v (zref^2) Ha ltac:(apply pow_lt; assumption) Hv) as [w [-> [Hw Hw0]]].
  exists w. split; [reflexivity|]. split; [assumption|]. rewrite Hw0, Hv0, Forall_concat_map.
  apply Forall_iff_ext. intros row Hr. unfold g. rewrite zip_div_sign by (try assumption; apply Hlen; assumption).
  apply rdiff_nonpos_iff.
Qed.

Lemma regularization_proper : forall p t, t <> [] -> 0 < beta_reg p ->
  exists v, regularization p (ThVec t) = Ok (Fin v) /\ 0 <= v /\ (v = 0 <-> Forall (fun x => x = 0) t).
Proof.
  intros p t Hne Hb. unfold regularization.
  rewrite (map_ext _ (fun v => Fin (v * v))) by reflexivity. rewrite <- (map_map (fun v => v * v) Fin).
  set (z := map (fun v => v * v) t).
  assert (Hz : z <> []) by (unfold z; destruct t; [contradiction|discriminate]).
  rewrite xmean_fin by assumption. unfold xmul. exists (beta_reg p * Rmean z). split; [reflexivity|].
  assert (Hn : Forall (fun v => 0 <= v) z).
  { unfold z. apply Forall_forall. intros x Hx. apply in_map_iff in Hx. destruct Hx as [y [<- _]]. apply Rle_0_sqr. }
  pose proof (mean_nonneg z Hn) as Hm. split; [nra|].
  assert (Hiff : beta_reg p * Rmean z = 0 <-> Rmean z = 0).
  { split; intro H; [apply Rmult_integral in H; destruct H; [lra|assumption]|rewrite H; ring]. }
  rewrite Hiff, mean_zero_iff by assumption. unfold z. rewrite !Forall_forall. split; intros H x Hx.
  - assert (x * x = 0) by (apply H; apply in_map_iff; eauto). apply Rmult_integral in H0. tauto.
  - apply in_map_iff in Hx. destruct Hx as [y [<- Hy]]. rewrite (H y Hy). ring.
Qed.

(** ** Coherence misfit *)

Lemma coh_mse_fin : forall m d, length m = length d -> m <> [] ->
  exists v, coh_mse (m, map Fin d) = Fin v /\ 0 <= v /\ (v = 0 <-> m = d)
  /\ (Forall (fun x => 0 <= x <= 1) m -> Forall (fun x => 0 <= x <= 1) d -> v <= 1).
Proof.
  intros m d Hl Hne. unfold coh_mse. cbn [fst snd].
  set (z := zip_with (fun a b => (a - b) * (a - b)) m d).
  assert (E : map xsquare (zip_with (fun m d => xsub (Fin m) d) m (map Fin d)) = map Fin z).
  { unfold z. clear z Hne. revert d Hl. induction m as [|a m IH]; intros [|b d] Hl; simpl in *; try discriminate; [reflexivity|].
    rewrite IH by lia. reflexivity. }
  rewrite E. assert (Hz : z <> []) by (unfold z; destruct m; [contradiction|]; destruct d; [discriminate|]; simpl; discriminate).
  rewrite xmean_fin by assumption. exists (Rmean z). split; [reflexivity|].
  assert (Hn : Forall (fun v => 0 <= v) z).
  { unfold z. clear. revert d. induction m as [|a m IH]; intros [|b d]; simpl; constructor; auto. apply Rle_0_sqr. }
  split; [apply mean_nonneg; assumption|]. split.
  - rewrite mean_zero_iff by assumption. unfold z. clear - Hl. revert d Hl.
    induction m as [|a m IH]; intros [|b d] Hl; simpl in *; try discriminate; [split; auto|].
    specialize (IH d ltac:(lia)). split; intro H.
    + inversion H; subst. apply Rmult_integral in H2. f_equal; [lra|tauto].
    + inversion H; subst. constructor; [ring|tauto].
  - intros Hm Hd. assert (Hb : Forall (fun v => v <= 1) z).
    { unfold z. clear -Hm Hd. revert d Hd. induction m as [|a m IH]; intros [|b d] Hd; simpl; constructor.
      - inversion Hm; inversion Hd; subst. nra.
      - inversion Hm; inversion Hd; subst. auto. }
    unfold Rmean. assert (Hs : Rsum z <= INR (length z)).
    { clear -Hb. induction Hb as [|x l Hx Hl IH]; [unfold Rsum; simpl; lra|].
      unfold Rsum in *. cbn [fold_right length]. rewrite S_INR. lra. }
    assert (0 < INR (length z)) by (apply lt_0_INR; destruct z; [contradiction|simpl; lia]).
    apply (Rmult_le_reg_r (INR (length z))); [assumption|]. unfold Rdiv. rewrite Rmult_assoc, Rinv_l by lra. lra.
Qed.

Lemma coherence_loss_proper : forall p mu du mv dv mw dw, 0 < gamma_coherence p ->
  length mu = length du -> length mv = length dv -> length mw = length dw ->
  mu <> [] -> mv <> [] -> mw <> [] ->
  exists v, coherence_loss p (mu, map Fin du) (mv, map Fin dv) (mw, map Fin dw) = Ok (Fin v)
  /\ 0 <= v /\ (v = 0 <-> mu = du /\ mv = dv /\ mw = dw)
  /\ (Forall (fun x => 0 <= x <= 1) (mu ++ mv ++ mw ++ du ++ dv ++ dw) -> v <= gamma_coherence p).
Proof.
  intros p mu du mv dv mw dw Hg H1 H2 H3 N1 N2 N3. unfold coherence_loss.
  destruct (coh_mse_fin mu du H1 N1) as [a [-> [Ha [Ha0 Ha1]]]].
  destruct (coh_mse_fin mv dv H2 N2) as [b [-> [Hb [Hb0 Hb1]]]].
  destruct (coh_mse_fin mw dw H3 N3) as [c [-> [Hc [Hc0 Hc1]]]].
  unfold xadd, xdiv, Reqb, xmul. destruct (Req_EM_T 3 0); [lra|]. rewrite nan_guard_fin.
  eexists. split; [reflexivity|]. split; [nra|]. split.
  - rewrite <- Ha0, <- Hb0, <- Hc0. split; [|intros [-> [-> ->]]; field].
    intro H. apply Rmult_integral in H. destruct H; [lra|]. lra.
  - rewrite !Forall_app. intros (F1 & F2 & F3 & F4 & F5 & F6).
    specialize (Ha1 F1 F4). specialize (Hb1 F2 F5). specialize (Hc1 F3 F6). nra.
Qed.

Lemma coh_mse_nan : forall m d, In NaN d -> length m = length d -> coh_mse (m, d) = NaN.
Proof.
  intros m d Hin Hl. unfold coh_mse. cbn [fst snd]. apply xmean_nan.
  revert m Hl. induction d as [|x d IH]; intros [|a m] Hl; simpl in *; try discriminate; try contradiction.
  destruct Hin as [->|Hin]; [left; reflexivity|right; apply IH; [assumption|lia]].
Qed.

Lemma coherence_nan_raises : forall p mu du mv dv mw dw,
  length mu = length du -> length mv = length dv -> length mw = length dw ->
  In NaN du \/ In NaN dv \/ In NaN dw ->
  coherence_loss p (mu, du) (mv, dv) (mw, dw) = Err ValueError.
Proof.
  intros p mu du mv dv mw dw H1 H2 H3 H. unfold coherence_loss.
  destruct H as [H|[H|H]]; rewrite (coh_mse_nan _ _ H) by assumption; rewrite ?xadd_nan_r; reflexivity.
Qed.
