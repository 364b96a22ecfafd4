(** Statements of the quadrature theorems in the vocabulary of [QuadSpec], and a
    model for which adding grid points alone does not converge. *)

From Coq Require Import Reals List Arith Lra Lia Sorted.
From Coquelicot Require Import Coquelicot.
From Verif Require Import Prelude RdtModel SpectraModel OpsModel RdtProofs SpectraProofs OpsSpec OpsProofs
  QuadSpec QuadProofs QuadTensor.
Import ListNotations.
Open Scope R_scope.

Lemma output_floored : forall sel e p2 k1, (auto sel \/ sel = phi12 \/ sel = phi23) -> k1 <> 0 -> smooth_model e k1 ->
  refines_to (fun p1 N => ops_forward sel e p1 p2 N k1)
             (k1 * box_integral (floored (/ 10^12) (undelivered sel e k1)) (Rpower 10 p2)).
Proof.
  intros sel e p2 k1 Hsel Hk Hm. apply output_converges; [|exact Hk|exact Hm].
  unfold auto, low_clipped in *. tauto.
Qed.

Lemma output_near' : forall sel e p2 k1, (auto sel \/ sel = phi13) -> 0 < k1 -> smooth_model e k1 -> sensible e ->
  forall eps, 0 < eps -> exists P, forall p1, p1 <= P -> exists N0, forall N, (N0 <= N)%nat ->
  Rabs (ops_forward sel e p1 p2 N k1 - k1 * box_integral (undelivered sel e k1) (Rpower 10 p2))
  <= eps + k1 * (/ 10^12 * (2 * Rpower 10 p2)^2).
Proof. exact output_near. Qed.

Lemma coherence_limit : forall sel e L p2 k1 r, auto sel -> k1 <> 0 -> 0 < L -> smooth_model e k1 ->
  refines_to (fun p1 N => fst (spectral_coherence (coh_cache_init true p1 p2 N L) sel e k1 r))
             (exact_coherence (floored (/ 10^32) (undelivered sel e k1)) (Rpower 10 p2 / L) r).
Proof.
  intros sel e L p2 k1 r Hsel Hk HL Hm.
  apply (coherence_converges sel e L p2 k1 r (auto_low sel Hsel) Hk HL Hm).
Qed.

(** ** Points alone *)

Definition sq (x : R) : R := 1 + x^2.

Definition excess (g : list R) : R :=
  T g sq - ((last_node g - first_node g) + (last_node g ^ 3 - first_node g ^ 3) / 3).

Lemma excess_cons : forall a b g, excess (a :: b :: g) = (b - a)^3 / 6 + excess (b :: g).
Proof.
  intros a b g. unfold excess. rewrite T_cons2.
  change (last_node (a :: b :: g)) with (last_node (b :: g)).
  change (first_node (a :: b :: g)) with a. change (first_node (b :: g)) with b. unfold sq. field.
Qed.

Lemma excess_nonneg : forall g, increasing g -> 0 <= excess g.
Proof.
  induction g as [|a g IH]; intros Hg; [unfold excess, first_node, last_node, T; cbn; lra|].
  destruct g as [|b g]; [unfold excess, first_node, last_node, T; cbn; lra|].
  rewrite excess_cons. specialize (IH (increasing_tail _ _ Hg)).
  pose proof (increasing_head _ _ _ Hg) as H. assert (0 < (b - a)^3) by (apply pow_lt; lra). lra.
Qed.

Lemma excess_cell : forall l a b g, increasing (l ++ a :: b :: g) -> (b - a)^3 / 6 <= excess (l ++ a :: b :: g).
Proof.
  induction l as [|x l IH]; intros a b g Hg; cbn [app] in *.
  - rewrite excess_cons. pose proof (excess_nonneg _ (increasing_tail _ _ Hg)). lra.
  - specialize (IH a b g (increasing_tail _ _ Hg)).
    destruct l as [|y l]; cbn [app] in *.
    + rewrite excess_cons. pose proof (increasing_head _ _ _ Hg) as H. assert (0 < (a - x)^3) by (apply pow_lt; lra). lra.
    + rewrite excess_cons. pose proof (increasing_head _ _ _ Hg) as H. assert (0 < (y - x)^3) by (apply pow_lt; lra). lra.
Qed.

Lemma excess_sym : forall p1 p2 N, p1 < p2 -> (2 <= N)%nat -> Rpower 10 p1 ^ 3 / 6 <= excess (sym_grid p1 p2 N).
Proof.
  intros p1 p2 N Hp HN. pose proof (sym_grid_sorted p1 p2 N Hp) as Hs.
  destruct N as [|N]; [lia|]. unfold sym_grid in *. cbv zeta in *.
  assert (E : logspace p1 p2 (S N) = Rpower 10 p1 :: map (fun t => Rpower 10 t) (map (fun i => p1 + INR i * ((p2 - p1) / INR (S N - 1))) (seq 1 N))).
  { unfold logspace, linspace. cbn [seq map INR]. rewrite Rmult_0_l, Rplus_0_r. reflexivity. }
  rewrite E in Hs |- *. set (t := map (fun t => Rpower 10 t) _) in *. cbn [app] in Hs |- *.
  pose proof (excess_cell _ _ _ _ Hs) as H. rewrite Rminus_0_r in H. exact H.
Qed.

Definition flat_model : ops_env := OpsEnv 1 (4 * PI) (learnable_energy 4 0) (fun _ _ _ => 0).

Lemma flat_value : forall k2 k3, undelivered phi33 flat_model 1 k2 k3 = sq k2.
Proof.
  intros k2 k3. unfold undelivered, flat_model, forward_energy, learnable_energy, kk0_of, k30_of. cbn.
  pose proof PI_RGT_0 as Hpi.
  set (kk := 1 * (1 * 1) + k2 * (k2 * 1) + (k3 + 0 * 1) * ((k3 + 0 * 1) * 1)).
  assert (Hkk : 0 < kk) by (unfold kk; nra).
  assert (Hsq : 0 < sqrt kk) by (apply sqrt_lt_R0; exact Hkk).
  rewrite Rpower_O by (pose proof (Rmult_lt_0_compat _ _ Hsq Hsq); nra).
  replace (Rpower (1 * sqrt kk) 4) with (kk * kk).
  2:{ rewrite Rmult_1_l. replace 4 with (INR 4) by (cbn; ring). rewrite Rpower_pow by exact Hsq.
      replace (sqrt kk ^ 4) with ((sqrt kk * sqrt kk) * (sqrt kk * sqrt kk)) by ring.
      rewrite sqrt_sqrt by lra. reflexivity. }
  replace (Rpower 1 (5/3)) with 1 by (unfold Rpower; rewrite ln_1, Rmult_0_r, exp_0; reflexivity).
  unfold kk_of, sq. unfold kk in *. field_simplify_eq; [ring|]. split; nra.
Qed.

Lemma flat_delivered : forall k2 k3, delivered phi33 flat_model 1 k2 k3 = sq k2.
Proof.
  intros k2 k3. rewrite delivered_clip by (unfold low_clipped; tauto). rewrite flat_value.
  unfold clip_low. destruct (Rlt_dec (sq k2) eps_ops) as [H|H]; [|reflexivity].
  exfalso. unfold sq, eps_ops in H. assert (/ 10^12 < 1) by (rewrite <- Rinv_1; apply Rinv_lt_contravar; lra).
  nra.
Qed.

Lemma RInt_sq : forall a b, is_RInt sq a b ((b - a) + (b^3 - a^3) / 3).
Proof.
  intros a b. replace ((b - a) + (b^3 - a^3)/3) with ((fun x => x + x^3/3) b - (fun x => x + x^3/3) a) by (cbn; field).
  apply (is_RInt_derive (fun x => x + x^3/3) sq).
  - intros x _. unfold sq. auto_derive; [exact I|field].
  - intros x _. unfold sq. apply c_plus; [apply c_const|apply c_pow, continuous_id].
Qed.

Lemma flat_box : forall B, box_integral (undelivered phi33 flat_model 1) B = (2 * B) * (2 * B + 2 * B^3 / 3).
Proof.
  intros B. unfold box_integral.
  rewrite (RInt_ext _ (fun x => (2 * B) * sq x)).
  - transitivity (scal (2 * B) (RInt sq (- B) B)).
    + apply (@RInt_scal R_CompleteNormedModule sq (- B) B (2 * B)). exists ((B - - B) + (B^3 - (- B)^3)/3). apply RInt_sq.
    + rewrite (is_RInt_unique _ _ _ _ (RInt_sq (- B) B)). unfold scal; cbn; unfold mult; cbn. field.
  - intros x _. rewrite (RInt_ext _ (fun _ => sq x)) by (intros y _; apply flat_value).
    rewrite RInt_const. unfold scal; cbn; unfold mult; cbn. ring.
Qed.

Lemma flat_quad : forall p1 p2 N, (2 <= N)%nat ->
  ops_forward phi33 flat_model p1 p2 N 1
  = (2 * Rpower 10 p2) * T (sym_grid p1 p2 N) sq.
Proof.
  intros p1 p2 N HN. unfold ops_forward. cbv zeta. rewrite Rmult_1_l.
  rewrite (quad23_ext _ _ _ (fun x _ => sq x)) by (intros; apply flat_delivered).
  rewrite quad23_T, <- T_scal. apply T_ext. intros x _.
  rewrite T_const, sym_grid_first, sym_grid_last by exact HN. ring.
Qed.

Lemma flat_smooth : smooth_model flat_model 1 /\ sensible flat_model.
Proof.
  pose proof PI_RGT_0. split.
  - split; [cbn; lra|]. split.
    + intros x Hx. cbn. apply energy_continuous. exact Hx.
    + intros x y. cbn. apply continuity_2d_pt_const.
  - split; [|split; cbn; lra]. intros x Hx. cbn. unfold learnable_energy.
    left. apply Rdiv_lt_0_compat; apply exp_pos.
Qed.

Lemma points_alone : forall p1 p2 N, p1 < p2 -> (2 <= N)%nat ->
  Rpower 10 p1 ^ 3 * Rpower 10 p2 / 3
  <= ops_forward phi33 flat_model p1 p2 N 1 - 1 * box_integral (undelivered phi33 flat_model 1) (Rpower 10 p2).
Proof.
  intros p1 p2 N Hp HN. rewrite flat_quad, flat_box by exact HN.
  pose proof (excess_sym p1 p2 N Hp HN) as H. unfold excess in H.
  rewrite sym_grid_first, sym_grid_last in H by exact HN.
  pose proof (Rpower10_pos p2) as HB. set (B := Rpower 10 p2) in *. set (a := Rpower 10 p1) in *.
  apply (Rmult_le_compat_l (2 * B)) in H; [|lra]. lra.
Qed.

Lemma points_alone_witness : exists e k1, 0 < k1 /\ smooth_model e k1 /\ sensible e /\
  forall p1 p2, p1 < p2 -> exists delta, 0 < delta /\ forall N, (2 <= N)%nat ->
  delta <= ops_forward phi33 e p1 p2 N k1 - k1 * box_integral (undelivered phi33 e k1) (Rpower 10 p2).
Proof.
  exists flat_model, 1. split; [lra|]. split; [apply flat_smooth|]. split; [apply flat_smooth|].
  intros p1 p2 Hp. exists (Rpower 10 p1 ^ 3 * Rpower 10 p2 / 3). split.
  - pose proof (Rpower10_pos p1). pose proof (Rpower10_pos p2).
    assert (0 < Rpower 10 p1 ^ 3 * Rpower 10 p2) by (apply Rmult_lt_0_compat; [apply pow_lt|]; assumption). lra.
  - intros N HN. apply points_alone; assumption.
Qed.
