(** Proofs about the power law fitted to Mann's lifetime, for any lifetime function. *)

From Coq Require Import Reals Lra Lia List.
From Verif Require Import Prelude RdtModel SpectraModel SpectraProofs.
Import ListNotations.
Open Scope R_scope.

Lemma len_pos : forall ks : list R, ks <> [] -> 0 < INR (length ks).
Proof. intros ks N. apply lt_0_INR. destruct ks; [contradiction|cbn; lia]. Qed.

Lemma combine_maps : forall (f g : R -> R) l, combine (map f l) (map g l) = map (fun k => (f k, g k)) l.
Proof. intros f g l. induction l as [|a l IH]; [reflexivity|]. cbn [map combine]. rewrite IH. reflexivity. Qed.

Section Line.
Variable ks : list R.
Variables x y : R -> R.
Hypothesis Hn : ks <> [].
Hypothesis Hs : Rsum (map (fun t => (t - Rmean (map x ks))^2) (map x ks)) <> 0.

Let mx := Rmean (map x ks).
Let my := Rmean (map y ks).
Let s := ols_slope (map x ks) (map y ks).
Let i := ols_intercept (map x ks) (map y ks).

Lemma sum_mean : forall f : R -> R, Rsum (map f ks) = INR (length ks) * Rmean (map f ks).
Proof. intros f. unfold Rmean. rewrite map_length. field. apply Rgt_not_eq, len_pos, Hn. Qed.

Lemma slope_form : s * Rsum (map (fun k => (x k - mx)^2) ks) = Rsum (map (fun k => (x k - mx) * (y k - my)) ks).
Proof.
  unfold s, ols_slope. cbv zeta. rewrite combine_maps, map_map. cbn [fst snd]. fold mx my.
  rewrite map_map in Hs. rewrite (map_map x). field. exact Hs.
Qed.

Lemma sum_dev : forall f : R -> R, Rsum (map (fun k => f k - Rmean (map f ks)) ks) = 0.
Proof.
  intros f. rewrite (Rsum_map_ext _ _ (fun k => f k + (- Rmean (map f ks)))) by (intros; ring).
  rewrite Rsum_map_plus, Rsum_const, sum_mean. ring.
Qed.

Lemma resid : forall k, y k - (i + s * x k) = (y k - my) - s * (x k - mx).
Proof. intros k. unfold i, ols_intercept. fold s mx my. ring. Qed.

Lemma resid_sum : Rsum (map (fun k => y k - (i + s * x k)) ks) = 0.
Proof.
  rewrite (Rsum_map_ext _ _ (fun k => (y k - my) + (- s) * (x k - mx))) by (intros k _; rewrite resid; ring).
  rewrite Rsum_map_plus, Rsum_map_scal. unfold my, mx. rewrite !sum_dev. ring.
Qed.

Lemma resid_orth : Rsum (map (fun k => (x k - mx) * (y k - (i + s * x k))) ks) = 0.
Proof.
  rewrite (Rsum_map_ext _ _ (fun k => (x k - mx) * (y k - my) + (- s) * (x k - mx)^2)) by (intros k _; rewrite resid; ring).
  rewrite Rsum_map_plus, Rsum_map_scal, <- slope_form. ring.
Qed.

Lemma line_best : forall i' s', Rsum (map (fun k => (y k - (i + s * x k))^2) ks) <= Rsum (map (fun k => (y k - (i' + s' * x k))^2) ks).
Proof.
  intros i' s'. set (al := (i - i') + (s - s') * mx). set (be := s - s').
  rewrite (Rsum_map_ext _ (fun k => (y k - (i' + s' * x k))^2)
    (fun k => (y k - (i + s * x k))^2 + (2 * al * (y k - (i + s * x k)) + (2 * be * ((x k - mx) * (y k - (i + s * x k))) + (al + be * (x k - mx))^2))))
    by (intros k _; unfold al, be; ring).
  rewrite !Rsum_map_plus. rewrite (Rsum_map_scal _ _ (2 * al)), (Rsum_map_scal _ _ (2 * be)), resid_sum, resid_orth.
  assert (0 <= Rsum (map (fun k => (al + be * (x k - mx))^2) ks)) by (apply Rsum_nonneg; intros; apply pow2_ge_0).
  lra.
Qed.

Lemma line_mean : Rmean (map (fun k => i + s * x k) ks) = my.
Proof.
  unfold i, ols_intercept. fold s mx my. unfold Rmean at 1. rewrite map_length, Rsum_map_plus, Rsum_const, Rsum_map_scal, sum_mean. fold mx.
  pose proof (len_pos ks Hn). field. lra.
Qed.

(** If y decreases where x increases, the slope is negative. *)
Lemma slope_neg : forall ys : R, (forall k, In k ks -> (x k - mx) * (y k - ys) <= 0) -> (exists k, In k ks /\ (x k - mx) * (y k - ys) <> 0) -> s < 0.
Proof.
  intros ys H (k0 & I0 & N0).
  assert (P : 0 < Rsum (map (fun k => (x k - mx)^2) ks)).
  { assert (Q : 0 <= Rsum (map (fun k => (x k - mx)^2) ks)) by (apply Rsum_nonneg; intros; apply pow2_ge_0).
    rewrite map_map in Hs. fold mx in Hs. lra. }
  assert (E : Rsum (map (fun k => (x k - mx) * (y k - my)) ks) = - Rsum (map (fun k => - ((x k - mx) * (y k - ys))) ks)).
  { rewrite (Rsum_map_ext _ _ (fun k => (x k - mx) * (y k - ys) + (ys - my) * (x k - mx))) by (intros; ring).
    rewrite Rsum_map_plus, Rsum_map_scal. unfold mx at 2. rewrite sum_dev.
    rewrite (Rsum_map_ext _ (fun k => - ((x k - mx) * (y k - ys))) (fun k => (-1) * ((x k - mx) * (y k - ys)))) by (intros; ring).
    rewrite Rsum_map_scal. ring. }
  assert (G : 0 < Rsum (map (fun k => - ((x k - mx) * (y k - ys))) ks)).
  { destruct (Rle_lt_or_eq_dec 0 (Rsum (map (fun k => - ((x k - mx) * (y k - ys))) ks))) as [G|G]; [|exact G|].
    - apply Rsum_nonneg. intros k I. specialize (H k I). lra.
    - exfalso. apply N0. assert (Z : - ((x k0 - mx) * (y k0 - ys)) = 0); [|lra].
      apply (Rsum_nonneg_zero _ (fun k => - ((x k - mx) * (y k - ys))) ks); [|symmetry; exact G|exact I0].
      intros k I. specialize (H k I). lra. }
  pose proof slope_form as F. rewrite E in F.
  destruct (Rlt_dec s 0) as [|N]; [assumption|]. exfalso.
  assert (0 <= s * Rsum (map (fun k => (x k - mx)^2) ks)) by (apply Rmult_le_pos; lra). lra.
Qed.
End Line.

Lemma line_shift : forall ks (x y : R -> R) c, ks <> [] ->
  ols_slope (map x ks) (map (fun k => c + y k) ks) = ols_slope (map x ks) (map y ks)
  /\ ols_intercept (map x ks) (map (fun k => c + y k) ks) = c + ols_intercept (map x ks) (map y ks).
Proof.
  intros ks x y c N.
  assert (M : Rmean (map (fun k => c + y k) ks) = c + Rmean (map y ks)).
  { unfold Rmean. rewrite !map_length, Rsum_map_plus, Rsum_const. pose proof (len_pos ks N). field. lra. }
  assert (S : ols_slope (map x ks) (map (fun k => c + y k) ks) = ols_slope (map x ks) (map y ks)).
  { unfold ols_slope. cbv zeta. rewrite M, !combine_maps, !map_map. cbn [fst snd]. f_equal. apply Rsum_map_ext. intros k _. ring. }
  split; [exact S|]. unfold ols_intercept. rewrite S, M. ring.
Qed.

Notation ks50 := (logspace (-3) 3 50).

Lemma ks_nonempty : ks50 <> [].
Proof. intros H. pose proof (logspace_first (-3) 3 49) as I. rewrite H in I. destruct I. Qed.

Lemma ks_spread : Rsum (map (fun t => (t - Rmean (map ln ks50))^2) (map ln ks50)) <> 0.
Proof.
  apply (spread_nonzero _ (ln (Rpower 10 (-3))) (ln (Rpower 10 3))).
  - apply in_map. apply logspace_first.
  - apply in_map. apply logspace_last.
  - unfold Rpower. rewrite !ln_exp. pose proof ln10_pos. lra.
Qed.

Lemma fit_time : forall tau L c T, (forall x, 0 < x -> 0 < tau x) -> 0 < L -> 0 < c -> 0 < T ->
  fst (mann_approx_fit tau L (c * T)) = fst (mann_approx_fit tau L T)
  /\ snd (mann_approx_fit tau L (c * T)) = ln c + snd (mann_approx_fit tau L T).
Proof.
  intros tau L c T Ht HL Hc HT. unfold mann_approx_fit. cbv zeta. cbn [fst snd].
  rewrite (map_ext_in (fun k => ln (c * T * tau (L * k))) (fun k => ln c + ln (T * tau (L * k)))).
  - apply line_shift. exact ks_nonempty.
  - intros k Ik. apply logspace_pos in Ik. rewrite Rmult_assoc. apply ln_mult; [exact Hc|].
    apply Rmult_lt_0_compat; [exact HT|]. apply Ht. apply Rmult_lt_0_compat; assumption.
Qed.

Lemma time_squared : forall tau Ls Ts L T c k, (forall x, 0 < x -> 0 < tau x) -> 0 < Ls -> 0 < Ts -> 0 < c ->
  mann_approx_lifetime tau Ls (c * Ts) L (c * T) k = c^2 * mann_approx_lifetime tau Ls Ts L T k.
Proof.
  intros tau Ls Ts L T c k Ht HL HT Hc. unfold mann_approx_lifetime. cbv zeta.
  destruct (fit_time tau Ls c Ts Ht HL Hc HT) as [E1 E2]. rewrite E1, E2. unfold mann_linear_approx.
  replace (fst (mann_approx_fit tau Ls Ts) * ln (L * k) + (ln c + snd (mann_approx_fit tau Ls Ts)))
    with (ln c + (fst (mann_approx_fit tau Ls Ts) * ln (L * k) + snd (mann_approx_fit tau Ls Ts))) by ring.
  rewrite exp_plus, exp_ln by exact Hc. ring.
Qed.

Lemma time_not_linear : forall tau Ls Ts L T c k, (forall x, 0 < x -> 0 < tau x) -> 0 < Ls -> 0 < Ts -> 0 < T -> 0 < c -> c <> 1 ->
  mann_approx_lifetime tau Ls (c * Ts) L (c * T) k <> c * mann_approx_lifetime tau Ls Ts L T k.
Proof.
  intros tau Ls Ts L T c k Ht HL HTs HT Hc Nc E. rewrite time_squared in E by assumption.
  assert (P : 0 < mann_approx_lifetime tau Ls Ts L T k).
  { unfold mann_approx_lifetime. apply Rmult_lt_0_compat; [exact HT|apply exp_pos]. }
  apply Nc. apply (Rmult_eq_reg_r (c * mann_approx_lifetime tau Ls Ts L T k)); [|apply Rgt_not_eq, Rmult_lt_0_compat; assumption].
  transitivity (c^2 * mann_approx_lifetime tau Ls Ts L T k); [ring|rewrite E; ring].
Qed.

Lemma delivered_law : forall tau L T k, 0 < L -> 0 < T -> 0 < k ->
  ln (mann_approx_lifetime tau L T L T k)
  = ln T + fst (mann_approx_fit tau L T) * ln L + (snd (mann_approx_fit tau L T) + fst (mann_approx_fit tau L T) * ln k).
Proof.
  intros tau L T k HL HT Hk. unfold mann_approx_lifetime. cbv zeta. unfold mann_linear_approx.
  rewrite ln_mult, ln_exp by (try exact HT; apply exp_pos). rewrite ln_mult by assumption. ring.
Qed.

Lemma Rmean_plus : forall (f : R -> R) c l, l <> [] -> Rmean (map (fun k => c + f k) l) = c + Rmean (map f l).
Proof. intros f c l N. unfold Rmean. rewrite !map_length, Rsum_map_plus, Rsum_const. pose proof (len_pos l N). field. lra. Qed.

Lemma Rmean_minus : forall (f g : R -> R) l, l <> [] -> Rmean (map (fun k => f k - g k) l) = Rmean (map f l) - Rmean (map g l).
Proof.
  intros f g l N. unfold Rmean. rewrite !map_length.
  rewrite (Rsum_map_ext _ (fun k => f k - g k) (fun k => f k + (-1) * g k)) by (intros; ring).
  rewrite Rsum_map_plus, Rsum_map_scal. pose proof (len_pos l N). field. lra.
Qed.

(** The exponent belongs to the function and the length scale. *)
Lemma approximation : forall tau L, (forall x, 0 < x -> 0 < tau x) -> 0 < L ->
  exists a, forall T, 0 < T ->
  (forall c k, 0 < c -> 0 < k -> mann_approx_lifetime tau L T L T (c * k) = Rpower c a * mann_approx_lifetime tau L T L T k)
  /\ Rmean (map (fun k => ln (mann_approx_lifetime tau L T L T k) - ln (T * tau (L * k))) ks50) = ln T + a * ln L
  /\ (forall B b, 0 < B ->
      Rsum (map (fun k => (ln (T * tau (L * k)) - ln (mann_approx_lifetime tau L T L T k / (T * Rpower L a)))^2) ks50)
      <= Rsum (map (fun k => (ln (T * tau (L * k)) - ln (B * Rpower k b))^2) ks50))
  /\ ((forall u v, 0 < u -> u < v -> tau v < tau u) -> a < 0).
Proof.
  intros tau L Ht HL. exists (fst (mann_approx_fit tau L 1)). intros T HT.
  assert (Ea : fst (mann_approx_fit tau L 1) = fst (mann_approx_fit tau L T)).
  { rewrite <- (Rmult_1_r T). symmetry. apply fit_time; try assumption; lra. }
  rewrite Ea. set (y := fun k => ln (T * tau (L * k))).
  assert (Ef : mann_approx_fit tau L T = (ols_slope (map ln ks50) (map y ks50), ols_intercept (map ln ks50) (map y ks50))) by reflexivity.
  split; [|split; [|split]].
  - intros c k Hc Hk. apply ln_inv.
    + unfold mann_approx_lifetime. apply Rmult_lt_0_compat; [exact HT|apply exp_pos].
    + apply Rmult_lt_0_compat; [apply exp_pos|]. unfold mann_approx_lifetime. apply Rmult_lt_0_compat; [exact HT|apply exp_pos].
    + rewrite ln_mult; [|apply exp_pos|unfold mann_approx_lifetime; apply Rmult_lt_0_compat; [exact HT|apply exp_pos]].
      rewrite !delivered_law by (try assumption; apply Rmult_lt_0_compat; assumption).
      rewrite ln_mult by assumption. unfold Rpower. rewrite ln_exp. ring.
  - rewrite (Rmean_minus (fun k => ln (mann_approx_lifetime tau L T L T k)) y) by exact ks_nonempty.
    rewrite (map_ext_in (fun k => ln (mann_approx_lifetime tau L T L T k))
      (fun k => (ln T + fst (mann_approx_fit tau L T) * ln L) + (snd (mann_approx_fit tau L T) + fst (mann_approx_fit tau L T) * ln k)))
      by (intros k Ik; apply delivered_law; [exact HL|exact HT|apply logspace_pos in Ik; exact Ik]).
    rewrite Rmean_plus by exact ks_nonempty. rewrite Ef. cbn [fst snd].
    rewrite (line_mean ks50 ln y ks_nonempty). ring.
  - intros B b HB. fold y.
    rewrite (Rsum_map_ext _ (fun k => (y k - ln (mann_approx_lifetime tau L T L T k / (T * Rpower L (fst (mann_approx_fit tau L T)))))^2)
      (fun k => (y k - (snd (mann_approx_fit tau L T) + fst (mann_approx_fit tau L T) * ln k))^2)).
    + rewrite (Rsum_map_ext _ (fun k => (y k - ln (B * Rpower k b))^2) (fun k => (y k - (ln B + b * ln k))^2)).
      * rewrite Ef. cbn [fst snd]. apply line_best; [exact ks_nonempty|exact ks_spread].
      * intros k Ik. rewrite ln_mult by (try exact HB; apply exp_pos). unfold Rpower. rewrite ln_exp. reflexivity.
    + intros k Ik. apply logspace_pos in Ik. unfold Rdiv. rewrite ln_mult.
      * rewrite ln_Rinv by (apply Rmult_lt_0_compat; [exact HT|apply exp_pos]). rewrite ln_mult by (try exact HT; apply exp_pos).
        rewrite delivered_law by assumption. unfold Rpower. rewrite ln_exp. f_equal. ring.
      * unfold mann_approx_lifetime. apply Rmult_lt_0_compat; [exact HT|apply exp_pos].
      * apply Rinv_0_lt_compat, Rmult_lt_0_compat; [exact HT|apply exp_pos].
  - intros Hd. rewrite Ef. cbn [fst]. set (m := Rmean (map ln ks50)).
    assert (D : forall k, In k ks50 -> ln k <> m -> (ln k - m) * (y k - y (exp m)) < 0).
    { intros k Ik Nk. apply logspace_pos in Ik. unfold y.
      assert (Q : forall u v, 0 < u -> u < v -> ln (T * tau (L * v)) < ln (T * tau (L * u))).
      { intros u v Hu Hv. apply ln_increasing; [apply Rmult_lt_0_compat; [exact HT|]; apply Ht; apply Rmult_lt_0_compat; lra|].
        apply Rmult_lt_compat_l; [exact HT|]. apply Hd; [apply Rmult_lt_0_compat; assumption|]. apply Rmult_lt_compat_l; assumption. }
      destruct (Rtotal_order (ln k) m) as [H|[H|H]]; [|contradiction|].
      - assert (k < exp m) by (rewrite <- (exp_ln k) by exact Ik; apply exp_increasing; exact H).
        specialize (Q k (exp m) Ik H0).
        replace ((ln k - m) * (ln (T * tau (L * k)) - ln (T * tau (L * exp m)))) with (- ((m - ln k) * (ln (T * tau (L * k)) - ln (T * tau (L * exp m))))) by ring.
        assert (0 < (m - ln k) * (ln (T * tau (L * k)) - ln (T * tau (L * exp m)))) by (apply Rmult_lt_0_compat; lra). lra.
      - assert (exp m < k) by (rewrite <- (exp_ln k) by exact Ik; apply exp_increasing; exact H).
        specialize (Q (exp m) k (exp_pos m) H0).
        replace ((ln k - m) * (ln (T * tau (L * k)) - ln (T * tau (L * exp m)))) with (- ((ln k - m) * (ln (T * tau (L * exp m)) - ln (T * tau (L * k))))) by ring.
        assert (0 < (ln k - m) * (ln (T * tau (L * exp m)) - ln (T * tau (L * k)))) by (apply Rmult_lt_0_compat; lra). lra. }
    apply (slope_neg ks50 ln y ks_nonempty ks_spread (y (exp m))); fold m.
    + intros k Ik. destruct (Req_dec (ln k) m) as [E|N]; [rewrite E; lra|]. left. apply D; assumption.
    + destruct (Req_dec (ln (Rpower 10 (-3))) m) as [E|N].
      * exists (Rpower 10 3). split; [apply logspace_last|]. apply Rlt_not_eq. apply D; [apply logspace_last|].
        rewrite <- E. unfold Rpower. rewrite !ln_exp. pose proof ln10_pos. lra.
      * exists (Rpower 10 (-3)). split; [apply logspace_first|]. apply Rlt_not_eq. apply D; [apply logspace_first|exact N].
Qed.

Lemma delivered : forall env tau Ls Ts k1 k2 k3, le_type env = MANN_APPROX ->
  (le_coef env, le_icpt env) = mann_approx_fit tau Ls Ts ->
  eddy_lifetime env k1 k2 k3 = Ok (mann_approx_lifetime tau Ls Ts (le_L env) (le_T env) (sqrt (k1^2 + k2^2 + k3^2))).
Proof.
  intros env tau Ls Ts k1 k2 k3 H F. unfold eddy_lifetime, mann_approx_lifetime, kk_of. rewrite H. cbv zeta. rewrite <- F. cbn [bind fst snd]. reflexivity.
Qed.
