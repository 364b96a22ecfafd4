(** Proofs about the optimiser, its schedule and the plots. *)

From Coq Require Import String Reals List Arith ZArith Bool Lra Lia.
From Verif Require Import Prelude RdtModel SpectraModel OpsModel LossModel CalModel CalSpec CalProofs CalMore PlotModel PlotSpec.
Import ListNotations.
Open Scope R_scope.

(** ** Optimiser *)

Lemma optimiser_exact : forall c, optimiser_used c = c <-> c = LBFGS \/ c = Adam.
Proof.
  intros [| | s]; simpl; split; intros H; try tauto.
  - discriminate.
  - destruct H; discriminate.
Qed.

Lemma adam_first : forall lr theta grad,
  fst (adam_coord lr 1 theta grad 0 0) =
  theta - lr * ((grad + 1/100000 * theta) / (Rabs (grad + 1/100000 * theta) + 1/100000000)).
Proof.
  intros lr theta grad. unfold adam_coord. cbv zeta. cbn [fst].
  set (g := grad + 1/100000 * theta).
  replace ((999/1000) * 0 + (1 - 999/1000) * g ^ 2) with ((1/1000) * g ^ 2) by lra.
  replace (1 - (999/1000) ^ 1) with (1/1000) by (simpl; lra).
  replace (1 - (9/10) ^ 1) with (1/10) by (simpl; lra).
  rewrite sqrt_mult by (try lra; apply pow2_ge_0).
  assert (S : sqrt (g ^ 2) = Rabs g).
  { replace (g ^ 2) with (Rsqr g) by (unfold Rsqr; ring). apply sqrt_Rsqr_abs. }
  rewrite S.
  assert (P : 0 < sqrt (1/1000)) by (apply sqrt_lt_R0; lra).
  pose proof (Rabs_pos g) as A.
  replace (sqrt (1/1000) * Rabs g / sqrt (1/1000)) with (Rabs g) by (field; lra).
  f_equal. field. lra.
Qed.

Lemma combine_zeros : forall theta : list R, combine (combine theta (repeat 0 (length theta))) (combine (repeat 0 (length theta)) (repeat 0 (length theta)))
  = map (fun th => ((th, 0), (0, 0))) theta.
Proof. induction theta as [| x l IH]; [reflexivity|]. simpl. rewrite IH. reflexivity. Qed.

Lemma adam_stationary : forall lr theta,
  fst (adam_step lr (repeat 0 (length theta)) theta (adam_init (length theta))) =
  map (fun th => th - lr * ((1/100000 * th) / (Rabs (1/100000 * th) + 1/100000000))) theta.
Proof.
  intros lr theta. unfold adam_step, adam_init. cbn [ad_t ad_m ad_v fst]. rewrite combine_zeros, !map_map.
  apply map_ext. intros th. rewrite adam_first. rewrite Rplus_0_l. reflexivity.
Qed.

Lemma abs_ratio : forall g, Rabs (g / (Rabs g + 1/100000000)) = Rabs g / (Rabs g + 1/100000000).
Proof.
  intros g. pose proof (Rabs_pos g). unfold Rdiv. rewrite Rabs_mult. f_equal. apply Rabs_right.
  apply Rle_ge, Rlt_le, Rinv_0_lt_compat. lra.
Qed.

Lemma adam_moves : forall lr theta i th th', 0 < lr -> nth_error theta i = Some th -> th <> 0 ->
  nth_error (fst (adam_step lr (repeat 0 (length theta)) theta (adam_init (length theta)))) i = Some th' ->
  th' <> th /\ (1/1000 <= Rabs th -> lr / 2 <= Rabs (th' - th)).
Proof.
  intros lr theta i th th' Hl Hi H0 H. rewrite adam_stationary, nth_error_map, Hi in H. cbn in H. injection H as <-.
  set (g := 1/100000 * th).
  assert (E : Rabs (th - lr * (g / (Rabs g + 1/100000000)) - th) = lr * (Rabs g / (Rabs g + 1/100000000))).
  { replace (th - lr * (g / (Rabs g + 1/100000000)) - th) with (- (lr * (g / (Rabs g + 1/100000000)))) by ring.
    rewrite Rabs_Ropp, Rabs_mult, abs_ratio, (Rabs_right lr) by lra. reflexivity. }
  assert (A : Rabs g = 1/100000 * Rabs th).
  { unfold g. rewrite Rabs_mult, (Rabs_right (1/100000)) by lra. reflexivity. }
  assert (Pt : 0 < Rabs th) by (apply Rabs_pos_lt; exact H0).
  assert (Pg : 0 < Rabs g) by lra.
  assert (Q : 0 < Rabs g / (Rabs g + 1/100000000)) by (apply Rdiv_lt_0_compat; lra).
  split.
  - intros K. rewrite K in E. rewrite Rminus_diag_eq, Rabs_R0 in E by reflexivity.
    pose proof (Rmult_lt_0_compat _ _ Hl Q). lra.
  - intros K. rewrite E. unfold Rdiv at 1. apply Rmult_le_compat_l; [lra|].
    apply Rmult_le_reg_r with (Rabs g + 1/100000000); [lra|].
    unfold Rdiv. rewrite Rmult_assoc, Rinv_l by lra. lra.
Qed.

Lemma adam_bound : forall lr theta grads i th th', 0 < lr -> length grads = length theta ->
  nth_error theta i = Some th ->
  nth_error (fst (adam_step lr grads theta (adam_init (length theta)))) i = Some th' ->
  Rabs (th' - th) < lr.
Proof.
  intros lr theta grads i th th' Hl Hg Hi H.
  assert (C : combine (combine theta grads) (combine (repeat 0 (length theta)) (repeat 0 (length theta)))
              = map (fun p => (p, (0, 0))) (combine theta grads)).
  { clear - Hg. revert grads Hg. induction theta as [| x l IH]; intros [| g gs] Hg; try reflexivity; try discriminate.
    simpl. rewrite IH by (simpl in Hg; lia). reflexivity. }
  unfold adam_step, adam_init in H. cbn [ad_t ad_m ad_v fst] in H. rewrite C, !map_map, nth_error_map in H.
  destruct (nth_error (combine theta grads) i) as [[x g]|] eqn:E; [|discriminate]. cbn in H. injection H as <-.
  assert (x = th).
  { assert (nth_error (map fst (combine theta grads)) i = Some x) by (rewrite nth_error_map, E; reflexivity).
    assert (F : map fst (combine theta grads) = theta).
    { clear - Hg. revert grads Hg. induction theta as [| u l IH]; intros [| v gs] Hg; try reflexivity; try discriminate.
      simpl. rewrite IH by (simpl in Hg; lia). reflexivity. }
    rewrite F in H. congruence. }
  subst x.
  pose proof (adam_first lr th g) as F. unfold adam_coord in F. cbv zeta in F. cbn [fst] in F.
  match goal with |- Rabs (?a - th) < lr => replace a with (th - lr * ((g + 1/100000 * th) / (Rabs (g + 1/100000 * th) + 1/100000000))) by (rewrite <- F; reflexivity) end.
  set (q := g + 1/100000 * th).
  replace (th - lr * (q / (Rabs q + 1/100000000)) - th) with (- (lr * (q / (Rabs q + 1/100000000)))) by ring.
  rewrite Rabs_Ropp, Rabs_mult, abs_ratio, (Rabs_right lr) by lra.
  rewrite <- (Rmult_1_r lr) at 2. apply Rmult_lt_compat_l; [exact Hl|].
  pose proof (Rabs_pos q). apply Rmult_lt_reg_r with (Rabs q + 1/100000000); [lra|].
  unfold Rdiv. rewrite Rmult_assoc, Rinv_l by lra. lra.
Qed.

(** ** Learning rate *)

Lemma annealed_start : forall lr T, annealed lr T 0 = lr.
Proof.
  intros lr T. unfold annealed. simpl (INR 0). replace (PI * 0 / INR T) with 0 by (unfold Rdiv; ring). rewrite cos_0. field.
Qed.

Lemma annealed_end : forall lr T, (1 <= T)%nat -> annealed lr T T = 0.
Proof.
  intros lr T H. unfold annealed. assert (INR T <> 0) by (apply not_0_INR; lia).
  replace (PI * INR T / INR T) with PI by (field; assumption). rewrite cos_PI. lra.
Qed.

Lemma annealed_bounds : forall lr T n, 0 <= lr -> 0 <= annealed lr T n <= lr.
Proof.
  intros lr T n H. unfold annealed. pose proof (COS_bound (PI * INR n / INR T)) as [A B]. split.
  - apply Rmult_le_pos; lra.
  - rewrite <- (Rmult_1_r lr) at 2. apply Rmult_le_compat_l; lra.
Qed.

Lemma cosine_positive : forall T n, (n < T)%nat -> 0 < 1 + cos (PI * INR n / INR T).
Proof.
  intros T n H. assert (PT : 0 < INR T) by (apply lt_0_INR; lia).
  pose proof PI_RGT_0 as PP. pose proof (pos_INR n) as Pn. pose proof (lt_INR n T H) as L.
  assert (A : PI * INR n / INR T < PI).
  { apply Rmult_lt_reg_r with (INR T); [exact PT|]. unfold Rdiv. rewrite Rmult_assoc, Rinv_l by lra.
    rewrite Rmult_1_r. apply Rmult_lt_compat_l; assumption. }
  assert (B : 0 <= PI * INR n / INR T).
  { apply Rmult_le_pos; [apply Rmult_le_pos; lra|]. left. apply Rinv_0_lt_compat, PT. }
  pose proof (cos_decreasing_1 (PI * INR n / INR T) PI B ltac:(lra) ltac:(lra) ltac:(lra) A) as C.
  rewrite cos_PI in C. lra.
Qed.

Lemma cosine_sched_step : forall T lr0 e x, (1 <= e <= T)%nat ->
  cosine_sched T lr0 e (annealed lr0 T (e - 1) * x) = annealed lr0 T e * x.
Proof.
  intros T lr0 e x H. unfold cosine_sched.
  assert (M : ((Z.of_nat e - 1 - Z.of_nat T) mod (2 * Z.of_nat T) =? 0)%Z = false).
  { apply Z.eqb_neq. rewrite <- (Z_mod_plus_full _ 1). rewrite Z.mod_small by lia. lia. }
  rewrite M. unfold annealed.
  assert (E : INR e - 1 = INR (e - 1)) by (rewrite minus_INR by lia; reflexivity).
  rewrite E. pose proof (cosine_positive T (e - 1) ltac:(lia)) as P. field. lra.
Qed.

Lemma run_strategy_lr : forall c t s s', run_strategy c t s = Ok s' -> ts_lr s' = ts_lr s.
Proof.
  intros c t. induction t as [v | v k IH]; intros s s' H; cbn [run_strategy] in H.
  - injection H as <-. reflexivity.
  - destruct (closure_eval c v s) as [s1 | e] eqn:E; [|discriminate].
    rewrite (IH _ _ _ H). unfold closure_eval in E.
    destruct (agg_eval _ _ _ _ _) as [[l | e] a]; [|discriminate]. injection E as <-. reflexivity.
Qed.

Lemma should_adjust_factor : forall e w s a, should_adjust e w s = Ok a ->
  (exists r, a = Keep r) \/ (exists r f, a = Reduce r f /\ advice_factor f).
Proof.
  intros e w s a H. unfold should_adjust in H.
  destruct (e <? w)%nat; [injection H as <-; left; eexists; reflexivity|].
  destruct (get_loss_diagnostics w s) as [od | x]; cbn [bind] in H; [|discriminate].
  destruct od as [d|]; [|injection H as <-; left; eexists; reflexivity].
  destruct (d_improvement d) as [imp|]; [|discriminate].
  destruct (xltb imp (Fin (1/100))).
  { injection H as <-. right. do 2 eexists. split; [reflexivity|]. unfold advice_factor. tauto. }
  destruct (xltb _ (Fin (3/10))).
  { injection H as <-. right. do 2 eexists. split; [reflexivity|]. unfold advice_factor. tauto. }
  destruct (xltb (Fin 100) (d_dominance d)).
  { injection H as <-. right. do 2 eexists. split; [reflexivity|]. unfold advice_factor. tauto. }
  injection H as <-. left. eexists; reflexivity.
Qed.

Lemma div50_step : forall e, (1 <= e)%nat ->
  (e / 50 = (e - 1) / 50 + (if e mod 50 =? 0 then 1 else 0))%nat.
Proof.
  intros e H.
  pose proof (Nat.div_mod e 50 ltac:(lia)) as D. pose proof (Nat.mod_upper_bound e 50 ltac:(lia)) as B.
  pose proof (Nat.div_mod (e - 1) 50 ltac:(lia)) as D'. pose proof (Nat.mod_upper_bound (e - 1) 50 ltac:(lia)) as B'.
  destruct (Nat.eqb_spec (e mod 50) 0); lia.
Qed.

Lemma train_lr : forall c opt T lr0 left e s s' ls x, (1 <= e)%nat -> (e - 1 + left <= T)%nat ->
  train c opt (cosine_sched T lr0) e left s = (Ok s', ls) ->
  ts_lr s = annealed lr0 T (e - 1) * x ->
  exists fs, List.Forall advice_factor fs /\
    (length fs + (e - 1) / 50 <= (e - 1 + length ls) / 50)%nat /\
    ts_lr s' = annealed lr0 T (e - 1 + length ls) * (x * product fs).
Proof.
  intros c opt T lr0 left. induction left as [| left IH]; intros e s s' ls x He HT H Hs; cbn [train] in H.
  - injection H as <- <-. exists []. split; [constructor|]. rewrite Nat.add_0_r. split; [simpl; lia|].
    rewrite Hs. simpl. ring.
  - destruct (run_strategy c (opt e s) s) as [s0 | y] eqn:E; [|discriminate].
    pose proof (run_strategy_lr _ _ _ _ E) as L0.
    cbv zeta in H. cbn [ts_mod ts_loss] in H.
    destruct (mp_pq (ts_mod s0)) as [pq|]; [|discriminate].
    destruct (negb (xfinite (ts_loss s0))); [discriminate|].
    assert (L1 : cosine_sched T lr0 e (ts_lr s0) = annealed lr0 T e * x).
    { rewrite L0, Hs. apply cosine_sched_step. lia. }
    destruct (xltb (ts_loss s0) (Fin (tg_tol c))).
    { injection H as <- <-. exists []. split; [constructor|]. cbn [length ts_lr].
      replace (e - 1 + 1)%nat with e by lia. split.
      - pose proof (Nat.div_le_mono (e - 1) e 50 ltac:(lia) ltac:(lia)). cbn [length]. lia.
      - rewrite L1. simpl. ring. }
    set (s1 := TS (ts_mod s0) (ts_loss s0) (ts_agg s0) (ts_ecount s0) (cosine_sched T lr0 e (ts_lr s0)) (ts_seen s0)) in *.
    destruct (lr_check e s1) as [s2 | y] eqn:C; [|discriminate].
    destruct (train c opt (cosine_sched T lr0) (S e) left s2) as [r2 l2] eqn:F.
    cbn [fst snd] in H. injection H as -> <-.
    assert (K : exists fs0, List.Forall advice_factor fs0 /\ (length fs0 <= if e mod 50 =? 0 then 1 else 0)%nat
                /\ ts_lr s2 = annealed lr0 T e * (x * product fs0)).
    { unfold lr_check in C. destruct (e mod 50 =? 0)%nat.
      - destruct (should_adjust e 50 (ts_agg s1)) as [a | y] eqn:A; cbn [bind] in C; [|discriminate].
        injection C as <-. cbn [ts_lr]. destruct (should_adjust_factor _ _ _ _ A) as [(r & ->) | (r & f & -> & Hf)].
        + exists []. split; [constructor|]. split; [simpl; lia|]. cbn [apply_advice s1 ts_lr]. rewrite L1. simpl. ring.
        + exists [f]. split; [constructor; [exact Hf|constructor]|]. split; [simpl; lia|].
          cbn [apply_advice s1 ts_lr]. rewrite L1. simpl. ring.
      - injection C as <-. exists []. split; [constructor|]. split; [simpl; lia|]. cbn [s1 ts_lr]. rewrite L1. simpl. ring. }
    destruct K as (fs0 & K1 & K2 & K3).
    assert (E1 : (S e - 1 = e)%nat) by lia.
    destruct (IH (S e) s2 s' l2 (x * product fs0)) as (fs & F1 & F2 & F3); try lia; try exact F.
    { rewrite E1. exact K3. }
    exists (fs0 ++ fs). split; [apply Forall_app; split; assumption|]. cbn [length]. rewrite E1 in F2, F3. split.
    + rewrite app_length. pose proof (div50_step e He) as D.
      replace (e - 1 + S (length l2))%nat with (e + length l2)%nat by lia. lia.
    + replace (e - 1 + S (length l2))%nat with (e + length l2)%nat by lia. rewrite F3. f_equal.
      assert (P : forall a b, product (a ++ b) = product a * product b).
      { induction a as [| u a IHa]; intros b; simpl; [ring|]. rewrite IHa. ring. }
      rewrite P. ring.
Qed.

Lemma calibrate_lr : forall c opt m v s ls,
  calibrate c opt (cosine_sched (tg_nepochs c) (tg_lr c)) m = (Ok (v, s), ls) ->
  exists fs, List.Forall advice_factor fs /\ (length fs <= length ls / 50)%nat /\
    ts_lr s = annealed (tg_lr c) (tg_nepochs c) (length ls) * product fs.
Proof.
  intros c opt m v s ls H. unfold calibrate in H.
  destruct (agg_eval _ _ _ _ _) as [[l | e] a]; [|discriminate].
  set (s0 := TS m l a 0 (tg_lr c) []) in *.
  destruct (train c opt (cosine_sched (tg_nepochs c) (tg_lr c)) 1 (tg_nepochs c) s0) as [r rs] eqn:F.
  cbn [fst snd] in H. injection H as H <-.
  destruct r as [s' | e]; cbn [bind] in H; [|discriminate].
  destruct (calibrated_params (ts_mod s')) as [v' | e]; cbn [bind] in H; [|discriminate]. injection H as <- <-.
  destruct (train_lr c opt (tg_nepochs c) (tg_lr c) (tg_nepochs c) 1 s0 s' rs 1) as (fs & F1 & F2 & F3); try lia; try exact F.
  - cbn [s0 ts_lr]. simpl (1 - 1)%nat. rewrite annealed_start. ring.
  - exists fs. split; [exact F1|]. simpl (1 - 1)%nat in F2, F3. rewrite Nat.add_0_l in F2, F3. split.
    + simpl (0 / 50)%nat in F2. lia.
    + rewrite F3. ring.
Qed.

Lemma product_bounds : forall fs, List.Forall advice_factor fs -> 0 < product fs <= 1.
Proof.
  induction fs as [| f fs IH]; intros H; [simpl; lra|].
  inversion H as [| ? ? Hf Hr]; subst. specialize (IH Hr). simpl.
  assert (0 < f <= 1) by (destruct Hf as [-> | [-> | ->]]; lra).
  split; [apply Rmult_lt_0_compat; lra|].
  apply Rle_trans with (1 * 1); [apply Rmult_le_compat; lra | lra].
Qed.

Lemma calibrate_lr_range : forall c opt m v s ls, 0 <= tg_lr c ->
  calibrate c opt (cosine_sched (tg_nepochs c) (tg_lr c)) m = (Ok (v, s), ls) ->
  0 <= ts_lr s <= tg_lr c /\ ((1 <= tg_nepochs c)%nat -> length ls = tg_nepochs c -> ts_lr s = 0).
Proof.
  intros c opt m v s ls Hl H. destruct (calibrate_lr _ _ _ _ _ _ H) as (fs & F1 & _ & ->).
  destruct (product_bounds fs F1) as [P1 P2]. pose proof (annealed_bounds (tg_lr c) (tg_nepochs c) (length ls) Hl) as [A B].
  split; [split|].
  - apply Rmult_le_pos; lra.
  - apply Rle_trans with (tg_lr c * 1); [apply Rmult_le_compat; lra | lra].
  - intros H1 ->. rewrite annealed_end by exact H1. ring.
Qed.

(** ** Plots *)

Lemma plot_spectra_data : forall ops e given mv fig, plot_spectra ops e given mv = Ok fig ->
  exists k1 rows, plot_data e given = Ok (k1, rows).
Proof.
  intros ops e given mv fig H. unfold plot_spectra in H.
  destruct (existsb _ _); [|discriminate].
  destruct (plot_data e given) as [[k1 rows] | x]; cbn [bind] in H; [|discriminate]. exists k1, rows. reflexivity.
Qed.

Lemma panels_model : forall nc model rows i n, (i < 6)%nat ->
  drawn_model (plot_panels nc model rows) i n = option_map (fun x => panel_sign i * x) (curve_at model i n).
Proof.
  intros nc model rows i n H. unfold drawn_model, plot_panels, curve_at.
  do 6 (destruct i as [| i]; [cbn [seq map nth_error pn_model]; rewrite nth_error_map; reflexivity|]). lia.
Qed.

Lemma panels_data : forall nc model rows i n j, (i < 6)%nat -> data_component_map nc i = Some j ->
  drawn_data (plot_panels nc model rows) i n = option_map (fun x => panel_sign i * x) (curve_at rows j n).
Proof.
  intros nc model rows i n j H Hj. unfold drawn_data, plot_panels, curve_at.
  do 6 (destruct i as [| i]; [cbn [seq map nth_error pn_data]; rewrite Hj, nth_error_map; reflexivity|]). lia.
Qed.

Lemma panels_no_data : forall nc model rows i n, data_component_map nc i = None ->
  drawn_data (plot_panels nc model rows) i n = None.
Proof.
  intros nc model rows i n Hj. unfold drawn_data, plot_panels.
  do 6 (destruct i as [| i]; [cbn [seq map nth_error pn_data]; rewrite Hj; reflexivity|]).
  destruct i; reflexivity.
Qed.

Lemma curve_scaled : forall u l i n, curve_at (map (per_ustar2 u) l) i n = option_map (fun x => x / u ^ 2) (curve_at l i n).
Proof.
  intros u l i n. unfold curve_at. change (@nil R) with (per_ustar2 u []) at 1. rewrite map_nth.
  unfold per_ustar2. apply nth_error_map.
Qed.

Lemma plot_default_units : forall ops e given fig k1 rows i n, (i < 6)%nat ->
  plot_spectra ops e given None = Ok fig -> plot_data e given = Ok (k1, rows) ->
  drawn_model fig i n = option_map (fun x => (if (i =? 3)%nat then -1 else 1) * (x / pe_ustar e ^ 2)) (curve_at (ops k1) i n)
  /\ (forall j, data_component_map (pe_ncomp e) i = Some j ->
       drawn_data fig i n = option_map (fun x => (if (i =? 3)%nat then -1 else 1) * (x / pe_ustar e ^ 2)) (curve_at rows j n)).
Proof.
  intros ops e given fig k1 rows i n Hi H Hd. unfold plot_spectra in H.
  destruct (existsb _ _); [|discriminate]. rewrite Hd in H. cbn [bind fst snd] in H. injection H as <-. split.
  - rewrite panels_model by exact Hi. rewrite curve_scaled. destruct (curve_at (ops k1) i n); reflexivity.
  - intros j Hj. rewrite (panels_data _ _ _ _ _ _ Hi Hj), curve_scaled. destruct (curve_at rows j n); reflexivity.
Qed.

Lemma plot_given_model : forall ops e given fig fig' k1 rows i n y, (i < 6)%nat -> pe_ustar e <> 0 ->
  plot_data e given = Ok (k1, rows) -> curve_at (ops k1) i n = Some y ->
  plot_spectra ops e given None = Ok fig -> plot_spectra ops e given (Some (ops k1)) = Ok fig' ->
  exists a b, drawn_model fig i n = Some a /\ drawn_model fig' i n = Some b /\ b = pe_ustar e ^ 2 * a /\ (y <> 0 -> a <> 0).
Proof.
  intros ops e given fig fig' k1 rows i n y Hi Hu Hd Hy H H'.
  destruct (plot_default_units _ _ _ _ _ _ i n Hi H Hd) as [A _]. rewrite Hy in A. cbn in A.
  unfold plot_spectra in H'. destruct (existsb _ _); [|discriminate]. rewrite Hd in H'. cbn [bind fst snd] in H'. injection H' as <-.
  do 2 eexists. split; [exact A|]. rewrite panels_model by exact Hi. rewrite Hy. split; [reflexivity|].
  assert (P : pe_ustar e ^ 2 <> 0) by (apply pow_nonzero; exact Hu). split.
  - unfold panel_sign. field. exact Hu.
  - intros Hy0 K. apply Rmult_integral in K. destruct K as [K | K].
    + destruct (i =? 3)%nat; lra.
    + apply Rmult_integral in K. destruct K as [K | K]; [exact (Hy0 K)|]. exact (Rinv_neq_0_compat _ P K).
Qed.

Lemma plot_given_model_differs : forall ops e given fig fig' k1 rows i n y, (i < 6)%nat -> pe_ustar e <> 0 -> pe_ustar e ^ 2 <> 1 ->
  plot_data e given = Ok (k1, rows) -> curve_at (ops k1) i n = Some y -> y <> 0 ->
  plot_spectra ops e given None = Ok fig -> plot_spectra ops e given (Some (ops k1)) = Ok fig' ->
  fig' <> fig.
Proof.
  intros ops e given fig fig' k1 rows i n y Hi Hu H1 Hd Hy Hy0 H H' E.
  destruct (plot_given_model _ _ _ _ _ _ _ i n y Hi Hu Hd Hy H H') as (a & b & A & B & C & D). subst fig'.
  rewrite A in B. injection B as B. specialize (D Hy0).
  assert (K : (pe_ustar e ^ 2 - 1) * a = 0) by lra. apply Rmult_integral in K. destruct K; lra.
Qed.

Lemma plot_given_data_alike : forall ops e given mv mv' fig fig' i n,
  plot_spectra ops e given mv = Ok fig -> plot_spectra ops e given mv' = Ok fig' -> drawn_data fig i n = drawn_data fig' i n.
Proof.
  intros ops e given mv mv' fig fig' i n H H'. unfold plot_spectra in H, H'.
  destruct (existsb _ _); [|discriminate]. destruct (plot_data e given) as [[k1 rows] | x]; cbn [bind fst snd] in H, H'; [|discriminate].
  injection H as <-. injection H' as <-.
  destruct (data_component_map (pe_ncomp e) i) as [j|] eqn:J.
  - destruct (lt_dec i 6) as [L | L].
    + rewrite !(panels_data _ _ _ _ _ _ L J). reflexivity.
    + exfalso. unfold data_component_map in J.
      destruct (pe_ncomp e =? 3)%Z; [destruct (Nat.ltb_spec i 3); [lia|discriminate]|].
      destruct (pe_ncomp e =? 4)%Z; [destruct (Nat.ltb_spec i 4); [lia|discriminate]|].
      do 6 (destruct i as [| i]; [lia|]). simpl in J. discriminate.
  - rewrite !panels_no_data by exact J. reflexivity.
Qed.

Lemma plot_no_data : forall ops e mv, In (pe_ncomp e) [3; 4; 6]%Z -> pe_data e = None ->
  plot_spectra ops e None mv = Err AttributeError.
Proof.
  intros ops e mv H Hd. unfold plot_spectra, plot_data.
  assert (E : existsb (Z.eqb (pe_ncomp e)) [3; 4; 6]%Z = true).
  { apply existsb_exists. exists (pe_ncomp e). split; [exact H|apply Z.eqb_refl]. }
  rewrite E, Hd. reflexivity.
Qed.

Lemma plot_flat : forall ops e l d mv, In (pe_ncomp e) [3; 4; 6]%Z ->
  plot_spectra ops e (Some (Flat l, d)) mv = Err IndexError.
Proof.
  intros ops e l d mv H. unfold plot_spectra, plot_data.
  assert (E : existsb (Z.eqb (pe_ncomp e)) [3; 4; 6]%Z = true).
  { apply existsb_exists. exists (pe_ncomp e). split; [exact H|apply Z.eqb_refl]. }
  rewrite E. reflexivity.
Qed.

Lemma plot_succeeds : forall ops e given mv, In (pe_ncomp e) [3; 4; 6]%Z ->
  ((exists fig, plot_spectra ops e given mv = Ok fig) <->
   match given with
   | None => pe_data e <> None
   | Some (p, _) => exists rows, p = Rows rows /\ List.Forall (fun r => r <> []) rows
   end).
Proof.
  intros ops e given mv H. unfold plot_spectra, plot_data.
  assert (E : existsb (Z.eqb (pe_ncomp e)) [3; 4; 6]%Z = true).
  { apply existsb_exists. exists (pe_ncomp e). split; [exact H|apply Z.eqb_refl]. }
  rewrite E. destruct given as [[p d]|].
  - destruct p as [l | rows]; cbn [first_column bind].
    + split; [intros [fig K]; discriminate|]. intros (rows & K & _). discriminate.
    + assert (Q : existsb (fun r : list R => match r with [] => true | _ => false end) rows = false <-> List.Forall (fun r => r <> []) rows).
      { clear. induction rows as [| r rows IH]; simpl; [split; auto|].
        destruct r as [| x r]; simpl.
        - split; [discriminate|]. intros K. inversion K as [| ? ? K1]. congruence.
        - rewrite IH. split; [intros K; constructor; [discriminate|exact K]|]. intros K. inversion K; assumption. }
      destruct (existsb _ rows) eqn:F; cbn [bind].
      * split; [intros [fig K]; discriminate|]. intros (r & K & L). injection K as <-. apply Q in L. congruence.
      * split; [|intros _; eexists; reflexivity]. intros _. exists rows. split; [reflexivity|]. apply Q. reflexivity.
  - destruct (pe_data e) as [[k1 d]|]; cbn [bind].
    + split; [discriminate|]. intros _. eexists. reflexivity.
    + split; [intros [fig K]; discriminate|]. intros K. congruence.
Qed.

Lemma plot_other_components : forall ops e given mv, ~ In (pe_ncomp e) [3; 4; 6]%Z ->
  plot_spectra ops e given mv = Err ValueError.
Proof.
  intros ops e given mv H. unfold plot_spectra.
  destruct (existsb (Z.eqb (pe_ncomp e)) [3; 4; 6]%Z) eqn:E; [|reflexivity].
  exfalso. apply H. apply existsb_exists in E. destruct E as (x & I & Q). apply Z.eqb_eq in Q. rewrite Q. exact I.
Qed.

(** ** Coherence figure *)

Lemma coherence_stale : forall A (coh : module_params -> A) c opt sched m,
  coherence_figure (calibrate_with_coherence coh c opt sched m) = coh m.
Proof. reflexivity. Qed.

Definition moving_opt (_ : nat) (s : tstate) : strategy :=
  Ask (get_parameters (ts_mod s)) (fun _ => Finish (map (fun x => x + 1) (get_parameters (ts_mod s)))).

Lemma moving_run : exists v s, fst (calibrate (easy 5) moving_opt (cosine_sched 5 1) (MP 1 2 3 (Some (4, 2)) None)) = Ok (v, s)
  /\ ts_mod s = MP (1 + 1) (2 + 1) (3 + 1) (Some (4 + 1, 2 + 1)) None /\ v = [exp (1 + 1); exp (2 + 1); exp (3 + 1); 4 + 1; 2 + 1].
Proof.
  unfold calibrate. cbn [easy tg_loss tg_k1 tg_zref tg_args0 tg_nepochs tg_lr].
  destruct (easy_eval agg_init) as (a & ->). cbn [train].
  set (s0 := TS _ _ _ _ _ _). fold (easy 5).
  unfold moving_opt. cbn [run_strategy].
  destruct (easy_closure 5 (get_parameters (ts_mod s0)) s0) as (s1 & -> & M & L).
  cbn [run_strategy ts_mod ts_loss]. rewrite M, L.
  cbn [s0 ts_mod get_parameters tensors concat app map mp_pq vector_to_parameters nth mp_net mp_logL mp_logT mp_logM].
  cbn. replace (Rltb 0 1) with true; [|symmetry; unfold Rltb; destruct (Rlt_dec 0 1); [reflexivity|lra]].
  cbn. do 2 eexists. split; [reflexivity|]. split; reflexivity.
Qed.

(** ** Files *)

Lemma plot_files_dir : forall sd od name tau d, (sd = Some d \/ sd = None /\ od = Some d) -> name <> ""%string ->
  plot_files sd od name tau = Ok ((d ++ "/" ++ name ++ "_spectra.png")%string :: (if tau then [(d ++ "/" ++ name ++ "_tau.png")%string] else [])).
Proof.
  intros sd od name tau d H Hn. unfold plot_files.
  destruct (String.eqb_spec name "") as [E | _]; [congruence|].
  destruct H as [-> | [-> ->]]; reflexivity.
Qed.

Lemma plot_files_none : forall name tau, plot_files None None name tau = Err ValueError.
Proof. reflexivity. Qed.

Lemma optimiser_false : ~ (forall c, optimiser_used c = c).
Proof. intros H. specialize (H (OtherOptimiser "SGD")). discriminate. Qed.

Lemma coherence_false : ~ (forall A (coh : module_params -> A) c opt sched m v s,
  fst (calibrate c opt sched m) = Ok (v, s) -> coherence_figure (calibrate_with_coherence coh c opt sched m) = coh (ts_mod s)).
Proof.
  intros H. destruct moving_run as (v & s & R1 & M & _).
  specialize (H R mp_logL _ _ _ _ _ _ R1). rewrite coherence_stale, M in H. cbn in H. lra.
Qed.

Lemma plot_files_default : forall sd od tau d, (sd = Some d \/ sd = None /\ od = Some d) ->
  plot_files sd od "" tau = Ok ((d ++ "/drdmannturb_final_spectra_fit_spectra.png")%string ::
                                (if tau then [(d ++ "/drdmannturb_final_spectra_fit_tau.png")%string] else [])).
Proof. intros sd od tau d [-> | [-> ->]]; reflexivity. Qed.

(** Wave numbers taken from given rows. *)
Lemma given_abscissae : forall e rows d k1 r, plot_data e (Some (Rows rows, d)) = Ok (k1, r) ->
  forall n, nth_error k1 n = match nth_error rows n with Some (x :: _) => Some x | _ => None end.
Proof.
  intros e rows d k1 r H n. unfold plot_data, first_column in H. destruct (existsb (fun r => match r with [] => true | _ => false end) rows) eqn:EX; [discriminate|]. cbn [bind] in H. injection H as <- _.
  rewrite nth_error_map. destruct (nth_error rows n) as [[|x l]|] eqn:EN; [|reflexivity|reflexivity]. exfalso. apply nth_error_In in EN.
  assert (T : existsb (fun r : list R => match r with [] => true | _ => false end) rows = true) by (apply existsb_exists; exists []; split; [exact EN|reflexivity]). congruence.
Qed.

(** Markers of the data in the panels. *)
Lemma rows_marker : forall order nk d u j n a b, nth_error order j = Some (a, b) ->
  curve_at (map (per_ustar2 u) (plot_data_rows order nk d)) j n = if (n <? nk)%nat then Some (d n a b / u ^ 2) else None.
Proof.
  intros order nk d u j n a b H. unfold curve_at.
  assert (E : nth_error (map (per_ustar2 u) (plot_data_rows order nk d)) j = Some (per_ustar2 u (map (fun n => d n a b) (seq 0 nk)))).
  { rewrite nth_error_map. unfold plot_data_rows. rewrite nth_error_map, H. reflexivity. }
  rewrite (nth_error_nth _ _ [] E). unfold per_ustar2. rewrite !nth_error_map.
  destruct (Nat.ltb_spec n nk) as [L|L].
  - rewrite (nth_error_nth' (seq 0 nk) 0%nat) by (rewrite seq_length; exact L). rewrite seq_nth by exact L. reflexivity.
  - replace (nth_error (seq 0 nk) n) with (@None nat); [reflexivity|]. symmetry. apply nth_error_None. rewrite seq_length. exact L.
Qed.

Lemma first_column_length : forall rows k1, first_column (Rows rows) = Ok k1 -> length k1 = length rows.
Proof. intros rows k1 H. unfold first_column in H. destruct existsb in H; [discriminate|]. injection H as <-. apply map_length. Qed.

Lemma sign_marker : forall d u i n a b, panel_sign i * (d n a b / u ^ 2) = marker d u i n a b.
Proof. intros d u i n a b. unfold panel_sign, marker. destruct (i =? 3)%nat; unfold Rdiv; ring. Qed.

Lemma drawn_given : forall ops e rows d mv fig i n a b,
  plot_spectra ops e (Some (Rows rows, d)) mv = Ok fig -> nth_error labelled i = Some (a, b) ->
  drawn_data fig i n = if (Z.of_nat i <? pe_ncomp e)%Z && (n <? length rows)%nat then Some (marker d (pe_ustar e) i n a b) else None.
Proof.
  intros ops e rows d mv fig i n a b H HL. unfold plot_spectra in H.
  destruct (existsb (Z.eqb (pe_ncomp e)) [3; 4; 6]%Z) eqn:EN; [|discriminate]. unfold plot_data in H.
  destruct (first_column (Rows rows)) as [k1|x] eqn:EC; [|discriminate]. cbn [bind fst snd] in H. injection H as <-.
  rewrite <- (first_column_length _ _ EC).
  assert (HI : (i < 6)%nat) by (change 6%nat with (length labelled); apply nth_error_Some; congruence).
  apply existsb_exists in EN. destruct EN as (z & HZ & EZ). apply Z.eqb_eq in EZ. rewrite EZ in *. clear EZ.
  destruct HZ as [<-|[<-|[<-|[]]]];
  (do 6 (destruct i as [|i]; [first [rewrite panels_no_data by reflexivity; reflexivity
     | erewrite panels_data by (exact HI || reflexivity); rewrite (rows_marker _ _ _ _ _ _ a b) by exact HL;
       match goal with |- context [(Z.of_nat ?j <? ?k)%Z] => change (Z.of_nat j <? k)%Z with true end; cbn [andb];
       destruct (n <? length k1)%nat; [cbn [option_map]; rewrite sign_marker; reflexivity|reflexivity]]|]); lia).
Qed.

Lemma drawn_stored : forall ops e k1 d mv fig i n a b, pe_data e = Some (k1, d) ->
  plot_spectra ops e None mv = Ok fig -> nth_error labelled i = Some (a, b) -> (i < 4)%nat ->
  drawn_data fig i n = if (Z.of_nat i <? pe_ncomp e)%Z && (n <? length k1)%nat then Some (marker d (pe_ustar e) i n a b) else None.
Proof.
  intros ops e k1 d mv fig i n a b HD H HL HF. unfold plot_spectra in H.
  destruct (existsb (Z.eqb (pe_ncomp e)) [3; 4; 6]%Z) eqn:EN; [|discriminate]. unfold plot_data in H. rewrite HD in H.
  cbn [bind fst snd] in H. injection H as <-.
  assert (HI : (i < 6)%nat) by lia.
  apply existsb_exists in EN. destruct EN as (z & HZ & EZ). apply Z.eqb_eq in EZ. rewrite EZ in *. clear EZ.
  destruct HZ as [<-|[<-|[<-|[]]]];
  (do 4 (destruct i as [|i]; [first [rewrite panels_no_data by reflexivity; reflexivity
     | erewrite panels_data by (exact HI || reflexivity); rewrite (rows_marker _ _ _ _ _ _ a b) by exact HL;
       match goal with |- context [(Z.of_nat ?j <? ?k)%Z] => change (Z.of_nat j <? k)%Z with true end; cbn [andb];
       destruct (n <? length k1)%nat; [cbn [option_map]; rewrite sign_marker; reflexivity|reflexivity]]|]); lia).
Qed.

Lemma drawn_swapped : forall ops e k1 d mv fig n, pe_data e = Some (k1, d) -> pe_ncomp e = 6%Z ->
  plot_spectra ops e None mv = Ok fig -> (n < length k1)%nat ->
  drawn_data fig 4 n = Some (d n X1 X2 / pe_ustar e ^ 2) /\ drawn_data fig 5 n = Some (d n X2 X3 / pe_ustar e ^ 2).
Proof.
  intros ops e k1 d mv fig n HD HC H HN. unfold plot_spectra, plot_data in H. rewrite HD, HC in H.
  change (existsb (Z.eqb 6) [3; 4; 6]%Z) with true in H. cbv iota in H. cbn [bind fst snd] in H.
  match type of H with Ok ?x = Ok _ => assert (EF : fig = x) by congruence; rewrite EF; clear EF H end.
  split.
  - rewrite (panels_data _ _ _ 4%nat _ 5%nat) by (lia || reflexivity). rewrite (rows_marker _ _ _ _ _ _ X1 X2) by reflexivity.
    destruct (Nat.ltb_spec n (length k1)); [|lia]. cbn [option_map]. rewrite sign_marker. reflexivity.
  - rewrite (panels_data _ _ _ 5%nat _ 4%nat) by (lia || reflexivity). rewrite (rows_marker _ _ _ _ _ _ X2 X3) by reflexivity.
    destruct (Nat.ltb_spec n (length k1)); [|lia]. cbn [option_map]. rewrite sign_marker. reflexivity.
Qed.
