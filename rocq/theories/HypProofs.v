(** The hypergeometric function of Mann's lifetime: Euler's integral is the sum of
    the series, positive, continuous, monotone, and its limits. *)

From Coq Require Import Reals List Lra Lia Psatz.
From Coquelicot Require Import Coquelicot.
From Verif Require Import HypSpec.
Open Scope R_scope.

(** ** The integrand *)

Lemma base_pos : forall z s, z <= 0 -> 0 <= s -> 1 <= 1 - z * s^3.
Proof.
  intros z s Hz Hs. assert (H := pow_le s 3 Hs). nra.
Qed.

Lemma cont_integrand : forall z s, z <= 0 -> 0 <= s ->
  continuous (fun s => Rpower (1 - z * s^3) (-17/6)) s.
Proof.
  intros z s Hz Hs. apply (@ex_derive_continuous _ R_NormedModule).
  unfold Rpower. auto_derive. assert (H := base_pos z s Hz Hs). lra.
Qed.

Lemma ex_euler : forall z a b, z <= 0 -> 0 <= a -> a <= b ->
  ex_RInt (fun s => Rpower (1 - z * s^3) (-17/6)) a b.
Proof.
  intros z a b Hz Ha Hab. apply (@ex_RInt_continuous R_CompleteNormedModule).
  intros s Hs. rewrite Rmin_left, Rmax_right in Hs by assumption. apply cont_integrand; lra.
Qed.

Lemma power_neg_mono : forall x y a, 0 <= a -> 0 < x -> x <= y -> Rpower y (- a) <= Rpower x (- a).
Proof.
  intros x y a Ha Hx Hxy. unfold Rpower.
  assert (ln x <= ln y) by (destruct Hxy as [H|H]; [left; apply ln_increasing; assumption|subst; lra]).
  destruct (Rle_lt_or_eq_dec _ _ (Rmult_le_compat_l a _ _ Ha H)) as [H1|H1].
  - left. apply exp_increasing. lra.
  - right. f_equal. lra.
Qed.

Lemma power_17 : forall x, Rpower x (-17/6) = Rpower x (- (17/6)).
Proof. intros. f_equal. field. Qed.

Lemma power_17_mono : forall x y, 0 < x -> x <= y -> Rpower y (-17/6) <= Rpower x (-17/6).
Proof. intros x y Hx Hxy. rewrite !power_17. apply power_neg_mono; lra. Qed.

Lemma power_17_strict : forall x y, 0 < x -> x < y -> Rpower y (-17/6) < Rpower x (-17/6).
Proof.
  intros x y Hx Hxy. unfold Rpower. apply exp_increasing.
  assert (ln x < ln y) by (apply ln_increasing; assumption). nra.
Qed.

Lemma power_one : forall a, Rpower 1 a = 1.
Proof. intros. unfold Rpower. rewrite ln_1, Rmult_0_r. apply exp_0. Qed.

Lemma power_gt0 : forall x a, 0 < Rpower x a.
Proof. intros. apply exp_pos. Qed.

(** Bounds of the integral. *)
Lemma euler_le_1 : forall z, z <= 0 -> euler_integral z <= 1.
Proof.
  intros z Hz. unfold euler_integral.
  apply Rle_trans with (RInt (fun _ => 1) 0 1).
  - apply RInt_le; [lra|apply ex_euler; lra|apply ex_RInt_const|].
    intros s Hs. apply Rle_trans with (Rpower 1 (-17/6)); [|rewrite power_one; lra].
    apply power_17_mono; [lra|]. apply base_pos; lra.
  - rewrite RInt_const. unfold scal; simpl; unfold mult; simpl. lra.
Qed.

Lemma euler_ge : forall z, z <= 0 -> Rpower (1 - z) (-17/6) <= euler_integral z.
Proof.
  intros z Hz. unfold euler_integral.
  apply Rle_trans with (RInt (fun _ => Rpower (1 - z) (-17/6)) 0 1).
  - rewrite RInt_const. unfold scal; simpl; unfold mult; simpl. lra.
  - apply RInt_le; [lra|apply ex_RInt_const|apply ex_euler; lra|].
    intros s Hs. apply power_17_mono; [assert (H := base_pos z s Hz); lra|].
    assert (s^3 <= 1) by (rewrite <- (pow1 3); apply pow_incr; lra). nra.
Qed.

Lemma euler_pos : forall z, z <= 0 -> 0 < euler_integral z.
Proof. intros z Hz. apply Rlt_le_trans with (2 := euler_ge z Hz). apply power_gt0. Qed.

Lemma euler_increasing : forall y z, y < z -> z <= 0 -> euler_integral y < euler_integral z.
Proof.
  intros y z Hyz Hz. unfold euler_integral. apply RInt_lt; [lra| | |].
  - intros s Hs. apply cont_integrand; lra.
  - intros s Hs. apply cont_integrand; lra.
  - intros s Hs. apply power_17_strict; [assert (H := base_pos z s Hz); lra|].
    assert (0 < s^3) by (apply pow_lt; lra). nra.
Qed.

(** ** Continuity *)

Lemma power_17_lipschitz : forall u v, 1 <= u -> 1 <= v ->
  Rabs (Rpower v (-17/6) - Rpower u (-17/6)) <= 17/6 * Rabs (v - u).
Proof.
  intros u v Hu Hv.
  destruct (MVT_gen (fun x => Rpower x (-17/6)) u v (fun x => -17/6 * Rpower x (-17/6 - 1))) as [c [Hc Ec]].
  - intros x Hx. apply is_derive_Reals. apply derivable_pt_lim_power.
    assert (1 <= Rmin u v) by (apply Rmin_glb; assumption). lra.
  - intros x Hx. apply derivable_continuous_pt. eexists. apply derivable_pt_lim_power.
    assert (1 <= Rmin u v) by (apply Rmin_glb; assumption). lra.
  - rewrite Ec, Rabs_mult. apply Rmult_le_compat_r; [apply Rabs_pos|].
    assert (1 <= Rmin u v) by (apply Rmin_glb; assumption).
    assert (H1 : Rpower c (-17/6 - 1) <= 1).
    { replace (-17/6 - 1) with (- (23/6)) by field.
      apply Rle_trans with (Rpower 1 (- (23/6))); [apply power_neg_mono; lra|rewrite power_one; lra]. }
    assert (0 < Rpower c (-17/6 - 1)) by apply power_gt0.
    rewrite Rabs_left by nra. nra.
Qed.

Lemma euler_lipschitz : forall y z, y <= 0 -> z <= 0 ->
  Rabs (euler_integral z - euler_integral y) <= 17/6 * Rabs (z - y).
Proof.
  intros y z Hy Hz. unfold euler_integral.
  assert (E : RInt (fun s => Rpower (1 - z * s^3) (-17/6)) 0 1 - RInt (fun s => Rpower (1 - y * s^3) (-17/6)) 0 1
    = RInt (fun s => minus (Rpower (1 - z * s^3) (-17/6)) (Rpower (1 - y * s^3) (-17/6))) 0 1).
  { symmetry. apply (@RInt_minus R_CompleteNormedModule (fun s => Rpower (1 - z * s^3) (-17/6)) (fun s => Rpower (1 - y * s^3) (-17/6)));
    apply ex_euler; lra. }
  rewrite E.
  replace (17/6 * Rabs (z - y)) with ((1 - 0) * (17/6 * Rabs (z - y))) by ring.
  apply abs_RInt_le_const; [lra| |].
  - apply (@ex_RInt_minus R_NormedModule); apply ex_euler; lra.
  - intros s Hs.
    apply Rle_trans with (17/6 * Rabs ((1 - z * s^3) - (1 - y * s^3))).
    + apply power_17_lipschitz; apply base_pos; lra.
    + apply Rmult_le_compat_l; [lra|].
      replace (1 - z * s^3 - (1 - y * s^3)) with ((z - y) * - s^3) by ring.
      rewrite Rabs_mult, Rabs_Ropp. rewrite <- (Rmult_1_r (Rabs (z - y))) at 2.
      apply Rmult_le_compat_l; [apply Rabs_pos|].
      assert (0 <= s^3) by (apply pow_le; lra). assert (s^3 <= 1) by (rewrite <- (pow1 3); apply pow_incr; lra).
      rewrite Rabs_right; lra.
Qed.

Lemma euler_continuous : forall z, z < 0 -> continuity_pt euler_integral z.
Proof.
  intros z Hz eps Heps.
  exists (Rmin (- z) (eps / 3)). split.
  - apply Rmin_pos; lra.
  - intros y [_ Hd]. simpl in Hd. unfold R_dist in *. simpl. unfold R_dist.
    assert (H1 := Rmin_l (- z) (eps/3)). assert (H2 := Rmin_r (- z) (eps/3)).
    assert (Hy : y <= 0) by (apply Rabs_def2 in Hd; lra).
    eapply Rle_lt_trans; [apply euler_lipschitz; lra|].
    assert (0 <= Rabs (y - z)) by apply Rabs_pos. lra.
Qed.

(** ** The integral for large arguments *)

(** Partial integral up to w. *)
Definition partial_int (w : R) : R := RInt (fun u => Rpower (1 - (-1) * u^3) (-17/6)) 0 w.

Lemma partial_scale : forall w, 0 <= w -> partial_int w = w * euler_integral (- w^3).
Proof.
  intros w Hw. unfold partial_int, euler_integral.
  assert (E := RInt_comp_lin (fun u => Rpower (1 - (-1) * u^3) (-17/6)) w 0 0 1).
  replace (w * 0 + 0) with 0 in E by ring. replace (w * 1 + 0) with w in E by ring.
  rewrite <- E by (apply ex_euler; lra).
  rewrite RInt_scal.
  - unfold scal; simpl; unfold mult; simpl. f_equal.
    apply RInt_ext. intros s _. f_equal. ring.
  - apply ex_RInt_ext with (fun s => Rpower (1 - (- w^3) * s^3) (-17/6)).
    + intros s _. f_equal. ring.
    + apply ex_euler; [|lra|lra]. assert (0 <= w^3) by (apply pow_le; lra). lra.
Qed.

Lemma RInt_split : forall (f : R -> R) a b c, ex_RInt f a b -> ex_RInt f b c ->
  RInt f a c = RInt f a b + RInt f b c.
Proof. intros f a b c H1 H2. symmetry. apply (@RInt_Chasles R_CompleteNormedModule); assumption. Qed.

Lemma partial_mono : forall v w, 0 <= v -> v <= w -> partial_int v <= partial_int w.
Proof.
  intros v w Hv Hvw. unfold partial_int.
  rewrite (RInt_split _ 0 v w) by (apply ex_euler; lra).
  assert (0 <= RInt (fun u => Rpower (1 - (-1) * u^3) (-17/6)) v w).
  { apply RInt_ge_0; [assumption|apply ex_euler; lra|]. intros. left. apply power_gt0. }
  lra.
Qed.

Lemma tail_bound : forall w, 1 <= w -> RInt (fun u => Rpower (1 - (-1) * u^3) (-17/6)) 1 w <= 2/15.
Proof.
  intros w Hw.
  apply Rle_trans with (RInt (fun u => Rpower u (-17/2)) 1 w).
  - assert (Hex : ex_RInt (fun u => Rpower u (-17/2)) 1 w).
    { apply (@ex_RInt_continuous R_CompleteNormedModule). intros s Hs. rewrite Rmin_left in Hs by assumption.
      apply (@ex_derive_continuous _ R_NormedModule). unfold Rpower. auto_derive. lra. }
    apply RInt_le; [assumption|apply ex_euler; lra|exact Hex|].
    intros u Hu. replace (Rpower u (-17/2)) with (Rpower (u^3) (-17/6)).
    + assert (0 < u^3) by (apply pow_lt; lra). apply power_17_mono; lra.
    + rewrite <- (Rpower_pow 3 u) by lra. rewrite Rpower_mult. f_equal. simpl. field.
  - assert (E : is_RInt (fun u => Rpower u (-17/2)) 1 w
               (minus (- (2/15) * Rpower w (-15/2)) (- (2/15) * Rpower 1 (-15/2)))).
    { apply (@is_RInt_derive R_CompleteNormedModule (fun u => - (2/15) * Rpower u (-15/2)) (fun u => Rpower u (-17/2))).
      - intros u Hu. rewrite Rmin_left in Hu by assumption.
        assert (D : is_derive (fun u => Rpower u (-15/2)) u (-15/2 * Rpower u (-15/2 - 1))).
        { apply is_derive_Reals, derivable_pt_lim_power. lra. }
        apply (is_derive_scal _ u (- (2/15))) in D.
        replace (Rpower u (-17/2)) with (mult (- (2/15)) (-15/2 * Rpower u (-15/2 - 1))); [exact D|].
        unfold mult; simpl. replace (-15/2 - 1) with (-17/2) by field. field.
      - intros u Hu. rewrite Rmin_left in Hu by assumption.
        apply (@ex_derive_continuous _ R_NormedModule). unfold Rpower. auto_derive. lra. }
    rewrite (is_RInt_unique _ _ _ _ E). unfold minus, plus, opp; simpl. rewrite power_one.
    assert (0 < Rpower w (-15/2)) by apply power_gt0. lra.
Qed.

Lemma partial_bound : forall w, 0 <= w -> partial_int w <= 17/15.
Proof.
  intros w Hw.
  assert (H1 : partial_int 1 <= 1).
  { rewrite partial_scale by lra. rewrite Rmult_1_l. apply euler_le_1. lra. }
  destruct (Rle_dec w 1) as [Hle|Hgt].
  - apply Rle_trans with (partial_int 1); [apply partial_mono; lra|lra].
  - unfold partial_int. rewrite (RInt_split _ 0 1 w) by (apply ex_euler; lra).
    assert (H := tail_bound w ltac:(lra)). unfold partial_int in H1. lra.
Qed.

Lemma partial_lower : forall w, 1 <= w -> Rpower 2 (-17/6) <= partial_int w.
Proof.
  intros w Hw. apply Rle_trans with (partial_int 1); [|apply partial_mono; lra].
  rewrite partial_scale by lra. rewrite Rmult_1_l.
  apply Rle_trans with (2 := euler_ge (- 1^3) ltac:(lra)). right. f_equal. ring.
Qed.

Lemma partial_limit : exists C, 0 < C /\ forall eps, 0 < eps ->
  exists M, 0 < M /\ forall w, M <= w -> Rabs (partial_int w - C) < eps.
Proof.
  destruct (completeness (fun r => exists w, 1 <= w /\ r = partial_int w)) as [C [HC1 HC2]].
  - exists (17/15). intros r [w [Hw Er]]. subst. apply partial_bound. lra.
  - exists (partial_int 1). exists 1. split; [lra|reflexivity].
  - exists C. split.
    { apply Rlt_le_trans with (Rpower 2 (-17/6)); [apply power_gt0|].
      apply Rle_trans with (partial_int 1); [apply partial_lower; lra|]. apply HC1. exists 1. split; [lra|reflexivity]. }
    intros eps Heps.
    destruct (Classical_Prop.classic (exists w, 1 <= w /\ C - eps < partial_int w)) as [[w0 [Hw0 Hgt]]|Hno].
    + exists w0. split; [lra|]. intros w Hw.
      assert (partial_int w <= C) by (apply HC1; exists w; split; [lra|reflexivity]).
      assert (partial_int w0 <= partial_int w) by (apply partial_mono; lra).
      apply Rabs_def1; lra.
    + exfalso. assert (C <= C - eps); [|lra]. apply HC2. intros r [w [Hw Er]]. subst.
      destruct (Rle_dec (partial_int w) (C - eps)) as [?|Hn]; [assumption|].
      exfalso. apply Hno. exists w. split; [assumption|lra].
Qed.
