(** Mann's lifetime, the network lifetime and the energy spectrum of a problem. *)

From Coq Require Import Reals List Lra Lia Psatz ZArith.
From Coquelicot Require Import Coquelicot.
From Verif Require Import Prelude RdtModel SpectraModel SpectraProofs HypSpec HypProofs AsyModel AsySpec AsyProofs.
From Verif Require Import QuadSpec QuadTensor.
Import ListNotations.
Open Scope R_scope.

(** ** Mann's lifetime *)

Lemma arg_neg : forall x, - Rpower x (-2) < 0.
Proof. intros x. assert (H := power_gt0 x (-2)). lra. Qed.

Lemma mann_form : forall hyp x, hypergeometric hyp ->
  mann_lifetime hyp x = Rpower x (-2/3) / sqrt (euler_integral (- Rpower x (-2))).
Proof. intros hyp x H. unfold mann_lifetime. rewrite H by apply arg_neg. reflexivity. Qed.

Lemma sqrt_power : forall y, sqrt (Rpower y (-17/6)) = Rpower y (-17/12).
Proof.
  intros y. replace (Rpower y (-17/6)) with (Rpower y (-17/12) * Rpower y (-17/12)).
  - apply sqrt_square. left. apply power_gt0.
  - rewrite <- Rpower_plus. f_equal. field.
Qed.

Lemma mann_bounds : forall hyp x, hypergeometric hyp -> 0 < x ->
  Rpower x (-2/3) <= mann_lifetime hyp x <= Rpower x (-2/3) * Rpower (1 + / x^2) (17/12).
Proof.
  intros hyp x H Hx. rewrite mann_form by assumption.
  assert (Hz := arg_neg x). set (z := - Rpower x (-2)) in *.
  assert (H1 := euler_le_1 z ltac:(lra)). assert (H2 := euler_ge z ltac:(lra)). assert (H3 := euler_pos z ltac:(lra)).
  assert (Hp := power_gt0 x (-2/3)).
  assert (Hs : 0 < sqrt (euler_integral z)) by (apply sqrt_lt_R0; assumption).
  split.
  - assert (sqrt (euler_integral z) <= 1) by (rewrite <- sqrt_1; apply sqrt_le_1_alt; assumption).
    apply Rmult_le_reg_r with (sqrt (euler_integral z)); [assumption|].
    unfold Rdiv. rewrite Rmult_assoc, Rinv_l by lra. nra.
  - assert (Hq : Rpower (1 - z) (-17/12) <= sqrt (euler_integral z)).
    { rewrite <- sqrt_power. apply sqrt_le_1_alt. assumption. }
    apply (Rmult_le_compat_l (Rpower x (-2/3))); [lra|].
    replace (Rpower (1 + / x^2) (17/12)) with (/ Rpower (1 - z) (-17/12)).
    + apply Rinv_le_contravar; [apply power_gt0|assumption].
    + replace (-17/12) with (- (17/12)) by field. rewrite Rpower_Ropp, Rinv_inv. f_equal.
      unfold z. replace (-2) with (- INR 2) by (simpl; ring). rewrite Rpower_Ropp, Rpower_pow by assumption. ring.
Qed.

Lemma mann_pos : forall hyp x, hypergeometric hyp -> 0 < x -> 0 < mann_lifetime hyp x.
Proof.
  intros hyp x H Hx. apply Rlt_le_trans with (Rpower x (-2/3)); [apply power_gt0|]. apply mann_bounds; assumption.
Qed.

Lemma power_neg_strict : forall x y a, a < 0 -> 0 < x -> x < y -> Rpower y a < Rpower x a.
Proof.
  intros x y a Ha Hx Hxy. unfold Rpower. apply exp_increasing.
  assert (ln x < ln y) by (apply ln_increasing; assumption). nra.
Qed.

Lemma mann_decreasing : forall hyp x y, hypergeometric hyp -> 0 < x -> x < y ->
  mann_lifetime hyp y < mann_lifetime hyp x.
Proof.
  intros hyp x y H Hx Hxy. rewrite !mann_form by assumption.
  assert (Hn : Rpower y (-2/3) < Rpower x (-2/3)) by (apply power_neg_strict; lra).
  assert (Hm : Rpower y (-2) < Rpower x (-2)) by (apply power_neg_strict; lra).
  assert (Hx2 := arg_neg x). assert (Hy2 := arg_neg y).
  assert (He : euler_integral (- Rpower x (-2)) < euler_integral (- Rpower y (-2))) by (apply euler_increasing; lra).
  assert (H3 := euler_pos (- Rpower x (-2)) ltac:(lra)).
  assert (Hs : sqrt (euler_integral (- Rpower x (-2))) < sqrt (euler_integral (- Rpower y (-2)))) by (apply sqrt_lt_1_alt; lra).
  assert (Hs0 : 0 < sqrt (euler_integral (- Rpower x (-2)))) by (apply sqrt_lt_R0; assumption).
  assert (Hp := power_gt0 y (-2/3)).
  apply Rlt_trans with (Rpower x (-2/3) / sqrt (euler_integral (- Rpower y (-2)))).
  - apply Rmult_lt_compat_r; [apply Rinv_0_lt_compat; lra|assumption].
  - apply Rmult_lt_compat_l; [lra|]. apply Rinv_lt_contravar; [|assumption]. apply Rmult_lt_0_compat; lra.
Qed.

Lemma mann_large : forall hyp, hypergeometric hyp -> law_at_infinity (mann_lifetime hyp) (-2/3) 1.
Proof.
  intros hyp H eps Heps.
  destruct (power_at_infinity (17/12) eps Heps) as [M [HM H']].
  exists M. split; [assumption|]. intros x Hx. specialize (H' x Hx). apply Rabs_def2 in H'.
  destruct (mann_bounds hyp x H ltac:(lra)) as [B1 B2]. assert (Hp := power_gt0 x (-2/3)).
  replace (/ x^2) with ((/ x)^2) in B2 by (field; lra).
  assert (1 <= mann_lifetime hyp x / Rpower x (-2/3)).
  { apply Rmult_le_reg_r with (Rpower x (-2/3)); [assumption|]. unfold Rdiv. rewrite Rmult_assoc, Rinv_l; lra. }
  assert (mann_lifetime hyp x / Rpower x (-2/3) <= Rpower (1 + (/ x)^2) (17/12)).
  { apply Rmult_le_reg_r with (Rpower x (-2/3)); [assumption|]. unfold Rdiv. rewrite Rmult_assoc, Rinv_l; lra. }
  apply Rabs_def1; lra.
Qed.

Lemma mann_small_form : forall hyp x, hypergeometric hyp -> 0 < x ->
  mann_lifetime hyp x / Rpower x (-1) = / sqrt (partial_int (Rpower x (-2/3))).
Proof.
  intros hyp x H Hx. rewrite mann_form by assumption.
  set (w := Rpower x (-2/3)). assert (Hw : 0 < w) by apply power_gt0.
  assert (E3 : w^3 = Rpower x (-2)).
  { unfold w. rewrite <- (Rpower_pow 3) by apply power_gt0. rewrite Rpower_mult. f_equal. simpl. field. }
  assert (Ex : Rpower x (-1) = w * sqrt w).
  { replace (sqrt w) with (Rpower x (-1/3)).
    - unfold w. rewrite <- Rpower_plus. f_equal. field.
    - symmetry. unfold w. rewrite <- Rpower_sqrt by apply power_gt0. rewrite Rpower_mult. f_equal. field. }
  rewrite partial_scale by lra. rewrite E3. assert (Hz := arg_neg x).
  assert (He := euler_pos (- Rpower x (-2)) ltac:(lra)).
  rewrite sqrt_mult by lra. rewrite Ex.
  assert (0 < sqrt w) by (apply sqrt_lt_R0; assumption).
  assert (0 < sqrt (euler_integral (- Rpower x (-2)))) by (apply sqrt_lt_R0; assumption).
  field. lra.
Qed.

Lemma inv_sqrt_cont : forall C, 0 < C -> continuity_pt (fun y => / sqrt y) C.
Proof.
  intros C HC. apply derivable_continuous_pt. apply ex_derive_Reals_0. auto_derive.
  split; [assumption|]. split; [|trivial]. assert (H := sqrt_lt_R0 C HC). lra.
Qed.

Lemma mann_small : exists c, 0 < c /\ forall hyp, hypergeometric hyp -> law_at_zero (mann_lifetime hyp) (-1) c.
Proof.
  destruct partial_limit as [C [HC HL]].
  exists (/ sqrt C). split; [apply Rinv_0_lt_compat, sqrt_lt_R0; assumption|].
  intros hyp H. unfold law_at_zero.
  apply zero_ext with (fun x => / sqrt (partial_int (Rpower x (-2/3)))); [intros; apply mann_small_form; assumption|].
  apply (zero_comp (fun x => partial_int (Rpower x (-2/3))) (fun y => / sqrt y) C); [|apply inv_sqrt_cont; assumption].
  intros eps Heps. destruct (HL eps Heps) as [M [HM H']].
  exists (Rpower M (-3/2)). split; [apply power_gt0|]. intros x Hx. apply H'. left.
  replace M with (Rpower (Rpower M (-3/2)) (-2/3)).
  - apply power_neg_strict; lra.
  - rewrite Rpower_mult. replace (-3/2 * (-2/3)) with 1 by field. apply Rpower_1. assumption.
Qed.

(** ** At the level of the delivered lifetime *)

Lemma wave_number_kk : forall k1 k2 k3, wave_number k1 k2 k3 = sqrt (kk_of k1 k2 k3).
Proof. reflexivity. Qed.

Lemma wave_scale : forall c k1 k2 k3, 0 <= c -> sqrt (kk_of (c*k1) (c*k2) (c*k3)) = c * wave_number k1 k2 k3.
Proof. intros. rewrite sqrt_kk_scale by assumption. reflexivity. Qed.

Lemma mann_value : forall env k1 k2 k3, le_type env = MANN ->
  eddy_lifetime env k1 k2 k3 = Ok (le_T env * mann_lifetime (le_hyp env) (le_L env * wave_number k1 k2 k3)).
Proof. intros env k1 k2 k3 H. unfold eddy_lifetime. rewrite H. reflexivity. Qed.

Lemma mann_delivered_bounds : forall env k1 k2 k3, le_type env = MANN -> hypergeometric (le_hyp env) ->
  0 < le_L env -> 0 < le_T env -> 0 < wave_number k1 k2 k3 ->
  let x := le_L env * wave_number k1 k2 k3 in
  exists t, eddy_lifetime env k1 k2 k3 = Ok t
  /\ le_T env * Rpower x (-2/3) <= t <= le_T env * Rpower x (-2/3) * Rpower (1 + / x^2) (17/12).
Proof.
  intros env k1 k2 k3 Ht Hh HL HT Hk x. eexists. split; [apply mann_value; assumption|].
  destruct (mann_bounds (le_hyp env) x Hh ltac:(unfold x; apply Rmult_lt_0_compat; assumption)) as [B1 B2].
  fold x. split; [apply Rmult_le_compat_l; lra|]. rewrite Rmult_assoc. apply Rmult_le_compat_l; lra.
Qed.

Lemma mann_delivered_decreasing : forall env k1 k2 k3 l1 l2 l3 t u, le_type env = MANN -> hypergeometric (le_hyp env) ->
  0 < le_L env -> 0 < le_T env -> 0 < wave_number k1 k2 k3 -> wave_number k1 k2 k3 < wave_number l1 l2 l3 ->
  eddy_lifetime env k1 k2 k3 = Ok t -> eddy_lifetime env l1 l2 l3 = Ok u -> 0 < u < t.
Proof.
  intros env k1 k2 k3 l1 l2 l3 t u Ht Hh HL HT Hk Hkl E1 E2.
  rewrite mann_value in E1, E2 by assumption. injection E1 as <-. injection E2 as <-.
  assert (0 < le_L env * wave_number k1 k2 k3) by (apply Rmult_lt_0_compat; assumption).
  assert (le_L env * wave_number k1 k2 k3 < le_L env * wave_number l1 l2 l3) by (apply Rmult_lt_compat_l; assumption).
  split.
  - apply Rmult_lt_0_compat; [assumption|]. apply mann_pos; [assumption|lra].
  - apply Rmult_lt_compat_l; [assumption|]. apply mann_decreasing; assumption.
Qed.

Lemma ray_value : forall F k1 k2 k3 t g, along_ray F k1 k2 k3 t ->
  (forall c, 0 < c -> F (c*k1) (c*k2) (c*k3) = Ok (g c)) -> forall c, 0 < c -> t c = g c.
Proof. intros F k1 k2 k3 t g H1 H2 c Hc. specialize (H1 c Hc). rewrite (H2 c Hc) in H1. congruence. Qed.

Lemma mann_ray : forall env k1 k2 k3 t, le_type env = MANN -> along_ray (eddy_lifetime env) k1 k2 k3 t ->
  forall c, 0 < c -> t c = le_T env * mann_lifetime (le_hyp env) (le_L env * wave_number k1 k2 k3 * c).
Proof.
  intros env k1 k2 k3 t Ht Hr. apply (ray_value _ _ _ _ _ _ Hr).
  intros c Hc. rewrite mann_value by assumption. do 3 f_equal.
  rewrite wave_number_kk, wave_scale by lra. ring.
Qed.

Lemma mann_large_delivered : forall env k1 k2 k3 t, le_type env = MANN -> hypergeometric (le_hyp env) ->
  0 < le_L env -> 0 < wave_number k1 k2 k3 -> along_ray (eddy_lifetime env) k1 k2 k3 t ->
  law_at_infinity t (-2/3) (le_T env * Rpower (le_L env * wave_number k1 k2 k3) (-2/3)).
Proof.
  intros env k1 k2 k3 t Ht Hh HL Hk Hr.
  eapply law_ext_inf; [apply (mann_ray env k1 k2 k3 t Ht Hr)|].
  apply law_times_inf. rewrite <- (Rmult_1_r (Rpower _ (-2/3))).
  apply law_scale_inf; [apply Rmult_lt_0_compat; assumption|]. apply mann_large. assumption.
Qed.

Lemma mann_small_delivered : exists c0, 0 < c0 /\ forall env k1 k2 k3 t, le_type env = MANN -> hypergeometric (le_hyp env) ->
  0 < le_L env -> 0 < wave_number k1 k2 k3 -> along_ray (eddy_lifetime env) k1 k2 k3 t ->
  law_at_zero t (-1) (c0 * le_T env / (le_L env * wave_number k1 k2 k3)).
Proof.
  destruct mann_small as [c [Hc H]]. exists c. split; [assumption|].
  intros env k1 k2 k3 t Ht Hh HL Hk Hr.
  assert (Hx : 0 < le_L env * wave_number k1 k2 k3) by (apply Rmult_lt_0_compat; assumption).
  eapply law_ext_zero; [apply (mann_ray env k1 k2 k3 t Ht Hr)|].
  replace (c * le_T env / (le_L env * wave_number k1 k2 k3))
    with (le_T env * (Rpower (le_L env * wave_number k1 k2 k3) (-1) * c)).
  - apply law_times_zero. apply law_scale_zero; [assumption|]. apply H. assumption.
  - replace (-1) with (- (1)) by ring. rewrite Rpower_Ropp, Rpower_1 by assumption. field. lra.
Qed.

(** ** Networks with the activation max(0, x) *)

Lemma dot_scale : forall r x c, dot r (map (Rmult c) x) = c * dot r x.
Proof.
  induction r as [|a r IH]; intros [|b x] c; simpl; try ring. rewrite IH. ring.
Qed.

Lemma linear_scale : forall W x c, linear W (map (Rmult c) x)
  = match linear W x with Ok y => Ok (map (Rmult c) y) | Err e => Err e end.
Proof.
  intros W x c. unfold linear. rewrite map_length.
  destruct (forallb _ W); [|reflexivity]. f_equal. rewrite map_map. apply map_ext. intros r. apply dot_scale.
Qed.

Lemma relu_scale : forall f c y, is_relu f -> 0 < c -> map f (map (Rmult c) y) = map (Rmult c) (map f y).
Proof.
  intros f c y Hf Hc. rewrite !map_map. apply map_ext. intros a. rewrite !Hf.
  destruct (Rle_dec 0 a) as [Ha|Ha].
  - rewrite !Rmax_right; [reflexivity|assumption|nra].
  - rewrite !Rmax_left; [ring|lra|nra].
Qed.

Lemma layers_scale : forall Ws acts x c, List.Forall is_relu acts -> 0 < c ->
  mlp_layers Ws acts (map (Rmult c) x)
  = match mlp_layers Ws acts x with Ok y => Ok (map (Rmult c) y) | Err e => Err e end.
Proof.
  induction Ws as [|W Ws IH]; intros acts x c Hf Hc; [reflexivity|].
  destruct Ws as [|W' Ws]; [apply linear_scale|].
  destruct acts as [|f acts]; [reflexivity|]. inversion Hf as [|? ? Hf1 Hf2]; subst.
  change (bind (linear W (map (Rmult c) x)) (fun y => mlp_layers (W' :: Ws) acts (map f y))
    = match bind (linear W x) (fun y => mlp_layers (W' :: Ws) acts (map f y)) with
      | Ok y => Ok (map (Rmult c) y) | Err e => Err e end).
  rewrite linear_scale. destruct (linear W x) as [y|e]; [|reflexivity].
  cbn [bind]. rewrite relu_scale by assumption. apply IH; assumption.
Qed.

Lemma vadd_scale : forall x y c, vadd (map (Rmult c) x) (map (Rmult c) y)
  = match vadd x y with Ok r => Ok (map (Rmult c) r) | Err e => Err e end.
Proof.
  induction x as [|a x IH]; intros [|b y] c; try reflexivity.
  cbn [map vadd]. rewrite IH. destruct (vadd x y) as [r|e]; [|reflexivity]. cbn. do 2 f_equal. ring.
Qed.

Lemma forward_scale : forall Ws acts x c, List.Forall is_relu acts -> 0 < c ->
  mlp_forward Ws acts (map (Rmult c) x)
  = match mlp_forward Ws acts x with Ok y => Ok (map (Rmult c) y) | Err e => Err e end.
Proof.
  intros Ws acts x c Hf Hc. unfold mlp_forward. rewrite layers_scale by assumption.
  destruct (mlp_layers Ws acts x) as [y|e]; [|reflexivity]. cbn [bind]. apply vadd_scale.
Qed.

Lemma vnorm_scale : forall a c, 0 <= c -> vnorm (map (Rmult c) a) = c * vnorm a.
Proof.
  intros a c Hc. unfold vnorm. rewrite map_map.
  replace (map (fun x => (c * x)^2) a) with (map (fun x => c^2 * x^2) a) by (apply map_ext; intros; ring).
  rewrite (Rsum_map_scal R (fun x => x^2)). rewrite sqrt_mult_alt by (apply pow2_ge_0).
  f_equal. replace (c^2) with (c * c) by ring. apply sqrt_square. assumption.
Qed.

Lemma vnorm_pos : forall a, nonzero_vector a -> 0 < vnorm a.
Proof.
  intros a [x [Hin Hx]]. unfold vnorm. apply sqrt_lt_R0.
  assert (H : 0 <= Rsum (map (fun y => y^2) a)) by (apply Rsum_nonneg; intros; apply pow2_ge_0).
  destruct H as [H|H]; [assumption|]. exfalso. apply Hx.
  assert (x^2 = 0).
  { apply (Rsum_nonneg_zero R (fun y => y^2) a); [intros; apply pow2_ge_0|auto|assumption]. }
  nra.
Qed.

Lemma net_ray : forall env Ws acts nu k1 k2 k3 a t, le_type env = TAUNET -> le_net env = taunet_forward Ws acts nu ->
  List.Forall is_relu acts ->
  mlp_forward Ws acts [Rabs (le_L env * k1); Rabs (le_L env * k2); Rabs (le_L env * k3)] = Ok a ->
  along_ray (eddy_lifetime env) k1 k2 k3 t ->
  forall c, 0 < c -> t c = le_T env * rational nu (vnorm a * c).
Proof.
  intros env Ws acts nu k1 k2 k3 a t Ht Hn Hf Ha Hr. apply (ray_value _ _ _ _ _ _ Hr).
  intros c Hc. unfold eddy_lifetime. rewrite Ht, Hn. unfold taunet_forward.
  replace (map Rabs [c * k1 * le_L env; c * k2 * le_L env; c * k3 * le_L env])
    with (map (Rmult c) [Rabs (le_L env * k1); Rabs (le_L env * k2); Rabs (le_L env * k3)]).
  - rewrite forward_scale by assumption. rewrite Ha. cbn [bind]. rewrite vnorm_scale by lra. do 2 f_equal.
    rewrite Rplus_0_l. f_equal. ring.
  - cbn [map]. repeat f_equal; rewrite <- (Rabs_right c) at 1 by lra; rewrite <- Rabs_mult; f_equal; ring.
Qed.

Lemma rational_product : forall nu x, 0 < x -> rational nu x = Rpower x (nu - 2/3) / Rpower (1 + x^2) (nu/2).
Proof. intros nu x Hx. rewrite rational_form, Rabs_right by lra. reflexivity. Qed.

Lemma net_laws : forall env Ws acts nu k1 k2 k3 a t, le_type env = TAUNET -> le_net env = taunet_forward Ws acts nu ->
  List.Forall is_relu acts ->
  mlp_forward Ws acts [Rabs (le_L env * k1); Rabs (le_L env * k2); Rabs (le_L env * k3)] = Ok a ->
  nonzero_vector a -> along_ray (eddy_lifetime env) k1 k2 k3 t ->
  law_at_infinity t (-2/3) (le_T env * Rpower (sqrt (Rsum (map (fun x => x^2) a))) (-2/3))
  /\ law_at_zero t (nu - 2/3) (le_T env * Rpower (sqrt (Rsum (map (fun x => x^2) a))) (nu - 2/3)).
Proof.
  intros env Ws acts nu k1 k2 k3 a t Ht Hn Hf Ha Hz Hr.
  assert (Hv := vnorm_pos a Hz). fold (vnorm a).
  assert (E := net_ray env Ws acts nu k1 k2 k3 a t Ht Hn Hf Ha Hr).
  split.
  - eapply law_ext_inf; [apply E|]. apply law_times_inf. rewrite <- (Rmult_1_r (Rpower (vnorm a) (-2/3))).
    apply (law_scale_inf (rational nu)); [assumption|].
    eapply law_ext_inf; [apply rational_product|].
    replace (-2/3) with (nu - 2/3 - 2 * (nu/2)) by field. apply product_at_infinity.
  - eapply law_ext_zero; [apply E|]. apply law_times_zero. rewrite <- (Rmult_1_r (Rpower (vnorm a) (nu - 2/3))).
    apply (law_scale_zero (rational nu)); [assumption|].
    eapply law_ext_zero; [apply rational_product|]. apply product_at_zero.
Qed.
