From Coq Require Import String Reals Lra Lia Psatz List Arith ZArith Sorted.
From Coquelicot Require Import Complex.
From Verif Require Import Prelude RdtModel SpectraModel RdtSpec RdtProofs SpectraProofs OpsModel OpsSpec OpsProofs.
Import ListNotations.
Open Scope R_scope.

Lemma scaled_sorted : forall c g, 0 < c -> increasing g -> increasing (map (fun x => x * c) g).
Proof. intros c g Hc H. unfold increasing in *. eapply ss_map; [|exact H]. intros. cbv beta. nra. Qed.

Lemma scaled_length : forall c g, length (map (fun x : R => x * c) g) = length g.
Proof. intros. apply map_length. Qed.

Lemma sorted_bounds : forall g x, increasing g -> In x g -> first_node g <= x <= last_node g.
Proof.
  unfold first_node, last_node. induction g as [|a g IH]; intros x Hs Hx; [destruct Hx|].
  destruct g as [|b g].
  - destruct Hx as [<-|[]]. simpl. lra.
  - pose proof (increasing_head _ _ _ Hs) as Hab. pose proof (last_ge_first _ (increasing_tail _ _ Hs)) as Hl.
    unfold first_node, last_node in Hl. change (last (a :: b :: g) 0) with (last (b :: g) 0).
    cbn [hd] in *. destruct Hx as [<-|Hx]; [lra|].
    specialize (IH x (increasing_tail _ _ Hs) Hx). cbn [hd] in IH. lra.
Qed.

Lemma last_map : forall (f : R -> R) g d, g <> [] -> last (map f g) d = f (last g d).
Proof.
  induction g as [|a g IH]; intros d H; [contradiction|].
  destruct g as [|b g]; [reflexivity|].
  change (last (map f (a :: b :: g)) d) with (last (map f (b :: g)) d).
  change (last (a :: b :: g) d) with (last (b :: g) d). apply IH. discriminate.
Qed.

Lemma coh_entry_even : forall sel e k1 k2 k3, auto sel -> k1 <> 0 -> spanwise_even e ->
  coh_entry sel e k1 (- k2) k3 = coh_entry sel e k1 k2 k3.
Proof.
  intros sel e k1 k2 k3 Ha Hk He. unfold coh_entry. cbv zeta. rewrite He. set (b := oe_beta e k1 k2 k3).
  replace (forward_energy (oe_spec e) (oe_M e) (oe_L e) b k1 (- k2) k3)
    with (forward_energy (oe_spec e) (oe_M e) (oe_L e) b k1 k2 k3).
  - pose proof (raw_mirror (forward_energy (oe_spec e) (oe_M e) (oe_L e) b k1 k2 k3) b k1 k2 k3 Hk) as H.
    cbv zeta in H. destruct H as (H11 & H22 & H33 & _).
    unfold power_spectra_coherence.
    destruct Ha as [->|[->| ->]]; unfold clip6; cbn [phi11 phi22 phi33]; f_equal; assumption.
  - unfold forward_energy. do 3 f_equal. unfold kk0_of. f_equal. f_equal. f_equal. ring.
Qed.

(** Lower bound: on a grid narrow with respect to the separation the coherence is
    close to one. *)
Lemma coherence_lower : forall g sel e k1 r w,
  increasing g -> (2 <= length g)%nat -> auto sel -> 0 <= w -> w < 1 ->
  (forall x, In x g -> Rabs (x * r) <= w) ->
  1 - w ^ 2 <= coherence_on g sel e k1 r.
Proof.
  intros g sel e k1 r w Hs Hl Ha Hw Hw1 Hx. unfold coherence_on. cbv zeta.
  pose proof (coh_S0_pos g sel e k1 Hs Hl (auto_low _ Ha)) as H0.
  set (S0 := quad23 g g (fun k2 k3 => coh_entry sel e k1 k2 k3)) in *.
  set (Sr := quad23C _ _ _).
  rewrite (Rabs_pos_eq S0) by lra.
  assert (Hw2 : w <= PI) by (pose proof PI2_1; lra).
  assert (Hcw : 0 <= cos w).
  { apply cos_ge_0; pose proof PI2_1; lra. }
  assert (Hre : cos w * S0 <= fst Sr).
  { unfold Sr. rewrite quad23C_re. unfold S0. rewrite <- quad23_scal. apply quad23_mono; try assumption.
    intros x y Hxg Hyg. unfold Cmult, RtoC, phase. cbn [fst snd].
    assert (Hc : cos w <= cos (x * r)).
    { specialize (Hx x Hxg). rewrite <- (cos_Rabs (x * r)) || idtac.
      destruct (Rcase_abs (x * r)) as [Hn|Hp].
      - rewrite Rabs_left in Hx by assumption. rewrite <- (cos_neg (x * r)).
        apply cos_decr_1; lra.
      - rewrite Rabs_right in Hx by assumption. apply cos_decr_1; lra. }
    pose proof (coh_entry_pos sel e k1 x y (auto_low _ Ha)). pose proof eps_coh_pos. nra. }
  assert (Hmod : (cos w * S0) ^ 2 <= Cmod Sr ^ 2).
  { apply pow_incr. split; [nra|]. eapply Rle_trans; [exact Hre|].
    eapply Rle_trans; [apply Rle_abs|]. destruct Sr as [a b]. cbn [fst]. eapply Rle_trans; [|apply Rmax_Cmod].
    apply Rmax_l. }
  assert (Hsin : 0 <= sin w <= w).
  { split; [apply sin_ge_0; lra|]. destruct (Req_dec w 0) as [->|Hne]; [rewrite sin_0; lra|].
    left. apply sin_lt_x. lra. }
  pose proof (sin2_cos2 w) as Hsc. unfold Rsqr in Hsc.
  assert (Hcos2 : 1 - w ^ 2 <= cos w ^ 2) by nra.
  assert (Hp : 0 < S0 ^ 2) by (apply pow_lt; assumption).
  apply (Rmult_le_reg_r (S0 ^ 2)); [assumption|]. unfold Rdiv. rewrite Rmult_assoc, Rinv_l, Rmult_1_r by lra.
  eapply Rle_trans; [|exact Hmod]. rewrite Rpow_mult_distr. nra.
Qed.

(** Strict upper bound for a mirror-symmetric model. *)
Lemma coherence_strict : forall g sel e k1 r,
  increasing g -> symmetric g -> (2 <= length g)%nat -> auto sel -> k1 <> 0 -> spanwise_even e ->
  (forall x, In x g -> 0 <= cos (x * r)) -> cos (last_node g * r) < 1 ->
  coherence_on g sel e k1 r < 1.
Proof.
  intros g sel e k1 r Hs Hsym Hl Ha Hk He Hc Hlast. unfold coherence_on. cbv zeta.
  pose proof (coh_S0_pos g sel e k1 Hs Hl (auto_low _ Ha)) as H0.
  set (S0 := quad23 g g (fun k2 k3 => coh_entry sel e k1 k2 k3)) in *.
  set (Sr := quad23C _ _ _).
  rewrite (Rabs_pos_eq S0) by lra.
  assert (Hpos : forall x y, 0 < coh_entry sel e k1 x y).
  { intros x y. pose proof (coh_entry_pos sel e k1 x y (auto_low _ Ha)). pose proof eps_coh_pos. lra. }
  assert (Him : snd Sr = 0).
  { unfold Sr. rewrite quad23C_im. apply quad23_odd2; [assumption|]. intros x y _ _.
    unfold Cmult, RtoC, phase. cbn [fst snd]. rewrite coh_entry_even by assumption.
    rewrite Ropp_mult_distr_l_reverse, cos_neg, sin_neg. ring. }
  assert (Hre : fst Sr = T g (fun x => cos (x * r) * T g (fun y => coh_entry sel e k1 x y))).
  { unfold Sr. rewrite quad23C_re, quad23_T. apply T_ext. intros x _. rewrite <- T_scal. apply T_ext. intros y _.
    unfold Cmult, RtoC, phase. cbn [fst snd]. ring. }
  assert (Hin : forall x, 0 < T g (fun y => coh_entry sel e k1 x y)).
  { intro x. eapply Rlt_le_trans; [|apply (T_lower g _ eps_coh Hs)].
    - pose proof (increasing_two g Hs Hl). pose proof eps_coh_pos. apply Rmult_lt_0_compat; lra.
    - intros y _. apply coh_entry_pos. apply auto_low. assumption. }
  assert (Hge : 0 <= fst Sr).
  { rewrite Hre. apply T_nonneg; [assumption|]. intros x Hx. specialize (Hc x Hx). specialize (Hin x). nra. }
  assert (Hlt : fst Sr < S0).
  { rewrite Hre. unfold S0. rewrite quad23_T. apply T_strict_last; try assumption.
    - intros x Hx. pose proof (COS_bound (x * r)). specialize (Hin x). nra.
    - specialize (Hin (last_node g)). nra. }
  assert (Hmod : Cmod Sr = fst Sr).
  { unfold Cmod. rewrite Him. replace (fst Sr ^ 2 + 0 ^ 2) with (Rsqr (fst Sr)) by (unfold Rsqr; ring).
    apply sqrt_Rsqr. assumption. }
  rewrite Hmod.
  assert (Hp : 0 < S0 ^ 2) by (apply pow_lt; assumption).
  apply (Rmult_lt_reg_r (S0 ^ 2)); [assumption|]. unfold Rdiv. rewrite Rmult_assoc, Rinv_l by lra. nra.
Qed.

(** The fallback grid. *)
Lemma base_last : last_node (sym_grid (-3) 3 100) = Rpower 10 3.
Proof. apply sym_grid_last. lia. Qed.

Lemma Rpower10_3 : Rpower 10 3 = 1000.
Proof. change 3 with (INR 3 + 0) || idtac. replace 3 with (INR 3) by (simpl; lra). rewrite Rpower_pow by lra. simpl. lra. Qed.

Lemma base_bounds : forall x, In x (sym_grid (-3) 3 100) -> -1000 <= x <= 1000.
Proof.
  intros x Hx. assert (Hs : increasing (sym_grid (-3) 3 100)) by (apply sym_grid_sorted; lra).
  pose proof (sorted_bounds _ x Hs Hx) as H.
  rewrite sym_grid_first, sym_grid_last, Rpower10_3 in H by lia. exact H.
Qed.

Lemma fresh_grid : forall L, coh_grid_for None L = map (fun x => x * (1 / L)) (sym_grid (-3) 3 100).
Proof. reflexivity. Qed.

Lemma scaled_symmetric : forall c g, symmetric g -> symmetric (map (fun x => x * c) g).
Proof.
  intros c g H. unfold symmetric in *. rewrite <- H at 2. rewrite <- map_rev, !map_map.
  apply map_ext. intro. ring.
Qed.

Lemma grid_for_ok : forall L, 0 < L ->
  increasing (coh_grid_for None L) /\ (2 <= length (coh_grid_for None L))%nat /\ symmetric (coh_grid_for None L).
Proof.
  intros L HL. rewrite fresh_grid. split; [|split].
  - apply scaled_sorted; [apply Rdiv_lt_0_compat; lra|]. apply sym_grid_sorted; lra.
  - rewrite map_length, sym_grid_length. lia.
  - apply scaled_symmetric, sym_grid_symmetric.
Qed.

(** Same model with another length scale. *)
Definition with_L (L : R) (e : ops_env) : ops_env := OpsEnv L (oe_M e) (oe_spec e) (oe_beta e).

(** A coherence evaluation made earlier with a large length scale changes later
    values. *)
Lemma coherence_history : forall e k1, 0 < oe_L e -> k1 <> 0 -> spanwise_even e ->
  exists r h,
    fst (spectral_coherence (coh_run None h) phi11 e k1 r)
    <> fst (spectral_coherence None phi11 e k1 r).
Proof.
  intros e k1 HL Hk He.
  destruct (grid_for_ok (oe_L e) HL) as [Hs [Hl Hsym]].
  set (L := oe_L e) in *.
  set (r := PI / 2 / 1000 * L).
  assert (Hscale : forall x, x * (1 / L) * r = x * (PI / 2 / 1000)).
  { intro x. unfold r. field. lra. }
  assert (Ha : auto phi11) by (left; reflexivity).
  assert (Hlt : coherence_on (coh_grid_for None L) phi11 e k1 r < 1).
  { apply coherence_strict; try assumption.
    - intros x Hx. rewrite fresh_grid in Hx. apply in_map_iff in Hx. destruct Hx as [t [<- Ht]].
      rewrite Hscale. apply base_bounds in Ht. pose proof PI_RGT_0. apply cos_ge_0; nra.
    - rewrite fresh_grid. unfold last_node. rewrite last_map.
      + fold (last_node (sym_grid (-3) 3 100)). rewrite base_last, Rpower10_3, Hscale.
        replace (1000 * (PI / 2 / 1000)) with (PI / 2) by field. rewrite cos_PI2. lra.
      + intro E. pose proof (sym_grid_length (-3) 3 100) as Hn. rewrite E in Hn. discriminate Hn. }
  set (c := coherence_on (coh_grid_for None L) phi11 e k1 r) in *.
  assert (Hc0 : 0 <= c) by (unfold c; apply coherence_range; assumption).
  set (w := (1 - c) / 2).
  assert (Hw : 0 < w < 1) by (unfold w; lra).
  set (L' := PI / 2 / w * L).
  assert (HL' : 0 < L').
  { unfold L'. pose proof PI_RGT_0. apply Rmult_lt_0_compat; [|assumption]. apply Rdiv_lt_0_compat; lra. }
  exists r, [(with_L L' e, k1, r)].
  unfold coh_run. cbn [fold_left]. unfold spectral_coherence. cbv zeta. cbn [fst snd].
  change (oe_L (with_L L' e)) with L'. fold L. fold c.
  destruct (grid_for_ok L' HL') as [Hs' [Hl' _]].
  set (g' := coh_grid_for None L') in *.
  assert (Hb : 1 - w ^ 2 <= coherence_on g' phi11 e k1 r).
  { apply coherence_lower; try assumption; try lra.
    intros x Hx. unfold g' in Hx. rewrite fresh_grid in Hx. apply in_map_iff in Hx. destruct Hx as [t [<- Ht]].
    replace (t * (1 / L') * r) with (t / 1000 * w).
    - apply base_bounds in Ht. apply Rabs_le. nra.
    - unfold L', r. pose proof PI_RGT_0. field. repeat split; lra. }
  change (coh_grid_for (Some g') L) with g'.
  assert (1 - w ^ 2 > c) by (unfold w; nra).
  lra.
Qed.

(** A module built with its own coherence grid does not depend on history. *)
Lemma coh_run_fixed : forall h g, coh_run (Some g) h = Some g.
Proof. induction h as [|[[e k1] r] h IH]; intro g; [reflexivity|]. unfold coh_run. cbn [fold_left]. exact (IH g). Qed.

Lemma coherence_settled : forall c h sel e k1 r, c <> None ->
  spectral_coherence (coh_run c h) sel e k1 r = spectral_coherence c sel e k1 r.
Proof. intros [g|] h sel e k1 r H; [|contradiction]. rewrite coh_run_fixed. reflexivity. Qed.

(** Divergence diagnostic *)
Lemma attrs_no_freq : forall h a, ~ In "freq"%string a ->
  ~ In "freq"%string (fold_left (fun a c => ops_call_attrs c ++ a) h a).
Proof.
  induction h as [|c h IH]; intros a Ha; [exact Ha|]. cbn [fold_left]. apply IH.
  intro Hin. apply in_app_or in Hin. destruct Hin as [Hin|Hin]; [|exact (Ha Hin)].
  destruct c; cbn in Hin; intuition discriminate.
Qed.

Lemma get_div_fails : forall A (h : list ops_call) (v : A), get_div (ops_attrs h) v = Err AttributeError.
Proof.
  intros A h v. unfold get_div.
  destruct (existsb (String.eqb "freq") (ops_attrs h)) eqn:E; [|reflexivity].
  exfalso. apply existsb_exists in E. destruct E as [s [Hin Heq]]. apply String.eqb_eq in Heq. subst s.
  revert Hin. unfold ops_attrs. apply attrs_no_freq. cbn. intuition discriminate.
Qed.

Lemma network_ignores : forall A (relu : A) n h l1 l2 a1 a2 nu,
  ops_network relu (NNP n h l1 a1) nu = ops_network relu (NNP n h l2 a2) nu.
Proof. reflexivity. Qed.
