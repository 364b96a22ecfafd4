(** Mann's lifetime is a constant for autograd. *)

From Coq Require Import Reals Lra Lia List Arith Psatz.
From Coquelicot Require Import Coquelicot.
From Verif Require Import Prelude RdtModel SpectraModel RdtSpec RdtProofs RdtOde SpectraProofs OpsModel OpsSpec OpsProofs HypSpec HypProofs AsySpec AsyProofs AsyMore AsyFinal SensSpec SensFinal AutoModel AutoSpec AutoProofs AutoNet AutoSpectra.
Import ListNotations.
Open Scope R_scope.

Lemma mann_ratio : forall hyp x c, hypergeometric hyp -> 0 < x -> 1 <= c ->
  mann_lifetime hyp (c * x) <= Rpower c (-2/3) * mann_lifetime hyp x.
Proof.
  intros hyp x c H Hx Hc. rewrite !mann_form by assumption.
  rewrite <- Rpower_mult_distr by lra. unfold Rdiv at 1 5. rewrite Rmult_assoc.
  apply Rmult_le_compat_l; [left; apply power_gt0|]. apply Rmult_le_compat_l; [left; apply power_gt0|].
  apply Rinv_le_contravar.
  - apply sqrt_lt_R0, euler_pos. pose proof (arg_neg x). lra.
  - apply sqrt_le_1_alt. destruct Hc as [Hc|Hc]; [|subst c; rewrite Rmult_1_l; lra].
    left. apply euler_increasing; [|apply Rlt_le, arg_neg].
    apply Ropp_lt_contravar. apply power_neg_strict; [lra|exact Hx|nra].
Qed.

Lemma one_sided : forall (H : R -> R) l, is_derive H 0 l -> H 0 = 0 ->
  locally 0 (fun t => 0 < t * l -> H t <= 0) -> l = 0.
Proof.
  intros H l D Z [d Hd]. destruct (Req_dec l 0) as [E|E]; [exact E|exfalso].
  assert (P : 0 < Rabs l) by (apply Rabs_pos_lt; exact E).
  apply is_derive_Reals in D. destruct (D (Rabs l / 2) ltac:(lra)) as [e He].
  set (m := Rmin d e / 2). assert (M : 0 < m) by (unfold m; pose proof (Rmin_pos d e (cond_pos d) (cond_pos e)); lra).
  assert (M1 : m < d) by (unfold m; pose proof (Rmin_l d e); pose proof (cond_pos d); pose proof (Rmin_pos d e (cond_pos d) (cond_pos e)); lra).
  assert (M2 : m < e) by (unfold m; pose proof (Rmin_r d e); pose proof (cond_pos e); pose proof (Rmin_pos d e (cond_pos d) (cond_pos e)); lra).
  assert (Q : exists t, Rabs t = m /\ 0 < t * l).
  { destruct (Rlt_dec 0 l) as [L|L].
    - exists m. split; [apply Rabs_pos_eq; lra|nra].
    - exists (- m). split; [rewrite Rabs_Ropp; apply Rabs_pos_eq; lra|assert (l < 0) by lra; nra]. }
  destruct Q as (t & Ht & S).
  assert (T0 : t <> 0) by (intros ->; lra).
  specialize (He t T0 ltac:(lra)). rewrite Rplus_0_l, Z, Rminus_0_r in He.
  assert (B : H t <= 0).
  { apply Hd; [|exact S]. unfold ball; simpl; unfold AbsRing_ball, abs, minus, plus, opp; simpl. rewrite Ropp_0, Rplus_0_r. lra. }
  apply Rabs_def2 in He. destruct He as [He1 He2].
  destruct (Rlt_dec 0 l) as [L|L].
  - rewrite (Rabs_pos_eq l) in * by lra. assert (0 < t) by nra.
    assert (H t / t <= 0) by (apply Rmult_le_reg_r with t; [lra|]; unfold Rdiv; rewrite Rmult_assoc, Rinv_l by lra; lra). lra.
  - rewrite (Rabs_left l) in * by lra. assert (t < 0) by nra.
    assert (0 <= H t / t).
    { replace (H t / t) with ((- H t) * / (- t)) by (field; exact T0). apply Rmult_le_pos; [lra|]. left. apply Rinv_0_lt_compat. lra. }
    lra.
Qed.

Lemma vk_exp : forall x, 0 < x -> vklike_energy x = exp (4 * ln x - 17/6 * ln (1 + x^2)).
Proof.
  intros x Hx. rewrite vklike_product by exact Hx. unfold Rpower, Rminus. rewrite exp_plus, exp_Ropp. reflexivity.
Qed.

Lemma vk_derive : forall x, 0 < x -> is_derive vklike_energy x (vklike_energy x * (4 / x - 17/3 * (x / (1 + x^2)))).
Proof.
  intros x Hx. assert (S : 0 < 1 + x^2) by (pose proof (pow2_ge_0 x); lra).
  apply (is_derive_ext_loc (fun x => exp (4 * ln x - 17/6 * ln (1 + x^2)))).
  - apply (filter_imp (fun v => 0 < v)); [|apply (open_gt 0); exact Hx].
    intros v Hv. symmetry. apply vk_exp. exact Hv.
  - rewrite vk_exp by exact Hx. auto_derive.
    + repeat split; try exact Hx. simpl in S. lra.
    + replace (1 + x * (x * 1)) with (1 + x^2) by (simpl; ring).
      replace (4 * ln x + - (17 / 6 * ln (1 + x^2))) with (4 * ln x - 17/6 * ln (1 + x^2)) by ring. field. lra.
Qed.

Lemma vk_rise : forall x, 0 < x -> x^2 < 12/5 -> 0 < vklike_energy x * (4 / x - 17/3 * (x / (1 + x^2))).
Proof.
  intros x Hx H. assert (0 < 1 + x^2) by (pose proof (pow2_ge_0 x); lra).
  apply Rmult_lt_0_compat; [rewrite vklike_form by exact Hx; apply vk_energy_pos; exact Hx|].
  replace (4 / x - 17/3 * (x / (1 + x^2))) with ((4 - 5/3 * x^2) * / (x * (1 + x^2))) by (field; lra).
  apply Rmult_lt_0_compat; [lra|]. apply Rinv_0_lt_compat. nra.
Qed.

Lemma vk_mono : forall x y, 0 < x -> x <= y -> y^2 < 12/5 -> vklike_energy x <= vklike_energy y.
Proof.
  intros x y Hx Hxy Hy. destruct Hxy as [Hxy|Hxy]; [|rewrite Hxy; lra].
  destruct (MVT_gen vklike_energy x y (fun v => vklike_energy v * (4 / v - 17/3 * (v / (1 + v^2))))) as (c & Hc & E).
  - intros v Hv. rewrite Rmin_left, Rmax_right in Hv by lra. apply vk_derive. lra.
  - intros v Hv. rewrite Rmin_left, Rmax_right in Hv by lra. apply continuity_pt_filterlim.
    apply (ex_derive_continuous (K := R_AbsRing) (V := R_NormedModule)). eexists. apply vk_derive. lra.
  - rewrite Rmin_left, Rmax_right in Hc by lra.
    assert (0 < vklike_energy c * (4 / c - 17/3 * (c / (1 + c^2)))) by (apply vk_rise; [lra|nra]). nra.
Qed.

Lemma vk_dual : forall d, 0 < val d ->
  der (ad_vklike d) = der d * (vklike_energy (val d) * (4 / val d - 17/3 * (val d / (1 + val d ^ 2)))).
Proof.
  intros d H. pose proof (vklike_tracks (fun t => moved t d) d H (tracks_moved d)) as [_ D1].
  pose proof (tracks_comp vklike_energy (fun t => moved t d) d _ (tracks_moved d) (vk_derive (val d) H)) as [_ D2].
  cbn [der] in D2. apply is_derive_unique in D1. apply is_derive_unique in D2. congruence.
Qed.

Lemma last_in : forall g, g <> [] -> In (last_node g) g.
Proof.
  intros g H. destruct (exists_last H) as (l & x & ->). unfold last_node. rewrite last_last. apply in_or_app. right. left. reflexivity.
Qed.

Lemma near_all : forall (A : Type) (l : list A) (Q : A -> R -> Prop),
  (forall a, In a l -> locally 0 (Q a)) -> locally 0 (fun t => forall a, In a l -> Q a t).
Proof.
  intros A l Q. induction l as [|a l IH]; intros H.
  - apply filter_forall. intros t a [].
  - apply (filter_imp (fun t => Q a t /\ forall b, In b l -> Q b t)).
    + intros t [H1 H2] b [->|I]; auto.
    + apply filter_and; [apply H; left; reflexivity|]. apply IH. intros b I. apply H. right. exact I.
Qed.

Section Mann.
Variables (s : setting) (P : params).
Hypothesis (HT : st_type s = MANN) (HH : hypergeometric (st_hyp s)).

Let dL := der (pa_logL P).
Let dT := der (pa_logT P).

(** The lifetime. *)
Definition beta_at (t k1 k2 k3 : R) : R :=
  exp (moved t (pa_logT P)) * mann_lifetime (st_hyp s) (exp (moved t (pa_logL P)) * sqrt (kk_of k1 k2 k3)).

Lemma beta_value : forall t k1 k2 k3, eddy_lifetime (lifetime_at s P t) k1 k2 k3 = Ok (beta_at t k1 k2 k3).
Proof. intros. unfold eddy_lifetime, lifetime_at. cbn [le_type le_L le_T le_hyp]. rewrite HT. reflexivity. Qed.

Lemma ad_value : forall k1 k2 k3,
  ad_lifetime s P k1 k2 k3 = Ok (dmul (dexp (pa_logT P)) (const (mann_lifetime (st_hyp s) (exp (val (pa_logL P)) * sqrt (kk_of k1 k2 k3))))).
Proof. intros. unfold ad_lifetime. rewrite HT. reflexivity. Qed.

Lemma beta_gt0 : forall t k1 k2 k3, k1 <> 0 -> 0 < beta_at t k1 k2 k3.
Proof.
  intros t k1 k2 k3 Hk. unfold beta_at. apply Rmult_lt_0_compat; [apply exp_pos|]. apply mann_pos; [exact HH|].
  apply Rmult_lt_0_compat; [apply exp_pos|]. apply sqrt_lt_R0, kk_pos, Hk.
Qed.

Lemma beta_bound : forall t k1 k2 k3, k1 <> 0 -> 0 <= t * dL ->
  beta_at t k1 k2 k3 <= beta_at 0 k1 k2 k3 * exp (t * (dT - 2/3 * dL)).
Proof.
  intros t k1 k2 k3 Hk Ht. unfold beta_at, moved. rewrite !Rmult_0_l, !Rplus_0_r. fold dL dT.
  set (x := exp (val (pa_logL P)) * sqrt (kk_of k1 k2 k3)).
  assert (Hx : 0 < x) by (apply Rmult_lt_0_compat; [apply exp_pos|apply sqrt_lt_R0, kk_pos, Hk]).
  rewrite !exp_plus.
  replace (exp (val (pa_logL P)) * exp (t * dL) * sqrt (kk_of k1 k2 k3)) with (exp (t * dL) * x) by (unfold x; ring).
  assert (C : 1 <= exp (t * dL)) by (pose proof (exp_ineq1_le (t * dL)); lra).
  pose proof (mann_ratio (st_hyp s) x (exp (t * dL)) HH Hx C) as B.
  replace (Rpower (exp (t * dL)) (-2/3)) with (exp (- (2/3) * (t * dL))) in B by (unfold Rpower; rewrite ln_exp; f_equal; field).
  replace (t * (dT - 2/3 * dL)) with (t * dT + - (2/3) * (t * dL)) by ring. rewrite exp_plus.
  assert (0 < exp (val (pa_logT P)) * exp (t * dT)) by (apply Rmult_lt_0_compat; apply exp_pos). nra.
Qed.

Lemma lifetime_wrong : forall k1 k2 k3, k1 <> 0 -> dL <> 0 ->
  exists d, ad_lifetime s P k1 k2 k3 = Ok d
  /\ ~ is_derive (fun t => match eddy_lifetime (lifetime_at s P t) k1 k2 k3 with Ok b => b | Err _ => 0 end) 0 (der d).
Proof.
  intros k1 k2 k3 Hk HL. eexists. split; [apply ad_value|]. intros D.
  set (b0 := beta_at 0 k1 k2 k3). assert (B0 : 0 < b0) by (apply beta_gt0; exact Hk).
  assert (D' : is_derive (fun t => beta_at t k1 k2 k3) 0 (dT * b0)).
  { evar_last; [apply (is_derive_ext _ (fun t => beta_at t k1 k2 k3)) in D; [exact D|intros t; rewrite beta_value; reflexivity]|].
    cbn [der dmul dexp const val]. unfold b0, beta_at, moved. rewrite !Rmult_0_l, !Rplus_0_r. fold dT. ring. }
  assert (G : is_derive (fun t => beta_at t k1 k2 k3 - b0 * exp (t * (dT - 2/3 * dL))) 0 (2/3 * dL * b0)).
  { evar_last; [apply @is_derive_minus; [exact D'|]; auto_derive; [exact I|reflexivity]|].
    rewrite Rmult_0_l, exp_0. unfold minus, plus, opp; simpl. ring. }
  apply one_sided in G.
  - apply HL. nra.
  - rewrite Rmult_0_l, exp_0. fold b0. ring.
  - exists (mkposreal 1 Rlt_0_1). intros t _ Ht. assert (0 <= t * dL) by (assert (0 < (t * dL) * (2/3 * b0)) by lra; nra).
    pose proof (beta_bound t k1 k2 k3 Hk H). fold b0 in H0. lra.
Qed.

(** The model with the lifetime replaced by an upper bound which is differentiable. *)
Let q := dT - 2/3 * dL.
Definition upper (t : R) : ops_env :=
  OpsEnv (exp (moved t (pa_logL P))) (exp (moved t (pa_logM P))) vklike_energy
         (fun k1 k2 k3 => beta_at 0 k1 k2 k3 * exp (t * q)).

Definition db_upper (k1 k2 k3 : R) : dual := Dual (beta_at 0 k1 k2 k3) (beta_at 0 k1 k2 k3 * q).

Definition node (db : dual) (k1 k2 k3 : R) : dual :=
  let k0L := dmul (dexp (pa_logL P)) (dnorm [const k1; const k2; dadd (const k3) (dmul db (const k1))]) in
  entry phi33 (ad_power_spectra (dmul (dmul (dexp (pa_logM P)) (dpow (dexp (pa_logL P)) (5/3))) (ad_vklike k0L)) db k1 k2 k3).

Hypothesis HV : st_learnable s = false.

Lemma model_form : forall t k1 k2 k3, oe_beta (model_at s P t) k1 k2 k3 = beta_at t k1 k2 k3.
Proof. intros. cbn [oe_beta model_at]. rewrite beta_value. reflexivity. Qed.

Lemma undelivered_upper : forall k1 k2 k3, undelivered phi33 (upper 0) k1 k2 k3 = undelivered phi33 (model_at s P 0) k1 k2 k3.
Proof.
  intros. unfold undelivered. rewrite model_form. cbn [oe_L oe_M oe_spec oe_beta upper model_at]. cbv zeta. rewrite HV.
  rewrite Rmult_0_l, exp_0, Rmult_1_r. reflexivity.
Qed.

Lemma upper_tracks : forall k1 k2 k3, k1 <> 0 -> / 10^12 < undelivered phi33 (model_at s P 0) k1 k2 k3 ->
  tracks (fun t => delivered phi33 (upper t) k1 k2 k3) (node (db_upper k1 k2 k3) k1 k2 k3).
Proof.
  intros k1 k2 k3 Hk B.
  assert (Tb : tracks (fun t => beta_at 0 k1 k2 k3 * exp (t * q)) (db_upper k1 k2 k3)).
  { split; [cbn [val db_upper]; rewrite Rmult_0_l, exp_0; ring|]. cbn [der db_upper]. auto_derive; [exact I|]. rewrite Rmult_0_l, exp_0. ring. }
  pose proof (density_tracks s P phi33 k1 k2 k3 _ _ (or_intror (or_intror (or_introl eq_refl))) Hk Tb) as H. cbv zeta in H. rewrite HV in H.
  apply H.
  - change (Rabs (undelivered phi33 (upper 0) k1 k2 k3) <> / 10^12). rewrite undelivered_upper.
    assert (0 < / 10^12) by (apply Rinv_0_lt_compat, pow_lt; lra). rewrite Rabs_pos_eq by lra. lra.
  - intros C. exfalso. assert (Q : phi33 (T6 0 0 1 0 0 0) = phi13 (T6 0 0 1 0 0 0)) by (rewrite <- C; reflexivity). cbn in Q. lra.
Qed.

Definition lift (k1 k2 k3 : R) : R :=
  let b := beta_at 0 k1 k2 k3 in
  let L := exp (val (pa_logL P)) in
  let k0 := sqrt (kk0_of b k1 k2 k3) in
  let x := L * k0 in
  exp (val (pa_logM P)) * Rpower L (5/3) / (4 * PI) / kk_of k1 k2 k3 ^ 2 * (k1^2 + k2^2)
  * (vklike_energy x * (4 / x - 17/3 * (x / (1 + x^2)))) * (L * (k1 * (k30_of b k1 k3 / k0))) * (2/3 * b).

Lemma gap : forall k1 k2 k3, 0 < k1 -> / 10^12 < undelivered phi33 (model_at s P 0) k1 k2 k3 ->
  der (ad_delivered phi33 s P k1 k2 k3) - der (node (db_upper k1 k2 k3) k1 k2 k3) = dL * lift k1 k2 k3.
Proof.
  intros k1 k2 k3 Hk1 B. assert (Hk : k1 <> 0) by lra.
  unfold ad_delivered. rewrite ad_value. cbv zeta. rewrite HV.
  set (b := beta_at 0 k1 k2 k3) in *.
  set (db := dmul (dexp (pa_logT P)) _).
  assert (Vb : val db = b) by (unfold b, beta_at, moved, db; cbn [val dmul dexp const]; rewrite !Rmult_0_l, !Rplus_0_r; reflexivity).
  assert (Db : der db = b * dT).
  { unfold db. cbn [der dmul dexp const val]. unfold b, beta_at, moved. rewrite !Rmult_0_l, !Rplus_0_r. fold dT. ring. }
  change (der (node db k1 k2 k3) - der (node (db_upper k1 k2 k3) k1 k2 k3) = dL * lift k1 k2 k3).
  assert (N : forall e, val e = b -> der (node e k1 k2 k3)
     = (der (dmul (dexp (pa_logM P)) (dpow (dexp (pa_logL P)) (5/3))) * vklike_energy (exp (val (pa_logL P)) * sqrt (kk0_of b k1 k2 k3))
        + exp (val (pa_logM P)) * Rpower (exp (val (pa_logL P))) (5/3)
          * ((der (pa_logL P) * exp (val (pa_logL P)) * sqrt (kk0_of b k1 k2 k3)
              + exp (val (pa_logL P)) * (der e * k1 * (k30_of b k1 k3 / sqrt (kk0_of b k1 k2 k3))))
             * (vklike_energy (exp (val (pa_logL P)) * sqrt (kk0_of b k1 k2 k3))
                * (4 / (exp (val (pa_logL P)) * sqrt (kk0_of b k1 k2 k3))
                   - 17/3 * (exp (val (pa_logL P)) * sqrt (kk0_of b k1 k2 k3) / (1 + (exp (val (pa_logL P)) * sqrt (kk0_of b k1 k2 k3))^2))))))
       / (4 * PI) / kk_of k1 k2 k3 ^ 2 * (k1^2 + k2^2)).
  { intros e Ve. unfold node, entry, ad_power_spectra. cbv zeta. cbn [fst snd pack phi33].
    set (k0 := dnorm _).
    assert (V0 : val k0 = sqrt (kk0_of b k1 k2 k3)).
    { unfold k0, dnorm. cbn [val]. unfold Rsum. cbn [map fold_right val const dadd dmul]. rewrite Ve. f_equal. unfold kk0_of, k30_of. ring. }
    assert (D0 : der k0 = der e * k1 * (k30_of b k1 k3 / sqrt (kk0_of b k1 k2 k3))).
    { unfold k0, dnorm in *. cbn [der val] in *. rewrite V0. unfold Rsum. cbn [map fold_right val der const dadd dmul]. rewrite Ve. unfold k30_of. ring. }
    assert (PX : 0 < val (dmul (dexp (pa_logL P)) k0)).
    { cbn [val dmul dexp]. rewrite V0. apply Rmult_lt_0_compat; [apply exp_pos|]. apply sqrt_lt_R0. unfold kk0_of.
      pose proof (sq_pos k1 Hk). pose proof (pow2_ge_0 k2). pose proof (pow2_ge_0 (k30_of b k1 k3)). lra. }
    set (kL := dmul (dexp (pa_logL P)) k0) in *.
    assert (VL : val kL = exp (val (pa_logL P)) * sqrt (kk0_of b k1 k2 k3)) by (unfold kL; cbn [val dmul dexp]; rewrite V0; reflexivity).
    assert (VE : val (ad_vklike kL) = vklike_energy (val kL)) by reflexivity.
    unfold ad_clip_low. destruct (Rlt_dec _ eps_ops) as [C|_].
    - exfalso. unfold undelivered in B. rewrite model_form in B. fold b in B. cbv zeta in B. cbn [oe_L oe_M oe_spec model_at] in B.
      rewrite HV in B. unfold moved in B. rewrite !Rmult_0_l, !Rplus_0_r in B.
      cbn [val dmul ddiv const dexp dpow dsq] in C. rewrite VE, VL in C. unfold eps_ops in C.
      apply (Rlt_irrefl (/ 10^12)). eapply Rlt_trans; [exact B|]. exact C.
    - cbn [der val dmul ddiv dsq const dexp dpow]. rewrite vk_dual by exact PX. rewrite VE, VL.
      assert (DL : der kL = der (pa_logL P) * exp (val (pa_logL P)) * sqrt (kk0_of b k1 k2 k3)
              + exp (val (pa_logL P)) * (der e * k1 * (k30_of b k1 k3 / sqrt (kk0_of b k1 k2 k3)))) by (unfold kL; cbn [der val dmul dexp]; rewrite V0, D0; ring).
      rewrite DL. unfold Rdiv. rewrite ?Rmult_0_l, ?Rminus_0_r, ?Rmult_0_r, ?Rplus_0_r. ring. }
  rewrite (N db Vb), (N (db_upper k1 k2 k3) eq_refl), Db. cbn [der db_upper]. fold b. unfold lift. cbv zeta. fold b. unfold q, Rdiv. ring.
Qed.

Lemma lift_pos : forall p1 p2 N k1 k2 k3, 0 < k1 -> rising (model_at s P 0) p1 p2 N k1 ->
  In k2 (sym_grid p1 p2 N) -> In k3 (sym_grid p1 p2 N) -> 0 < lift k1 k2 k3.
Proof.
  intros p1 p2 N k1 k2 k3 Hk R I2 I3. destruct (R k2 k3 I2 I3) as (R1 & R2 & _). rewrite model_form in *.
  cbn [oe_L model_at] in R2. unfold moved in R2. rewrite Rmult_0_l, Rplus_0_r in R2.
  unfold lift. cbv zeta. set (b := beta_at 0 k1 k2 k3) in *.
  assert (PB : 0 < b) by (apply beta_gt0; lra).
  assert (K0 : 0 < kk0_of b k1 k2 k3).
  { unfold kk0_of. pose proof (sq_pos k1 ltac:(lra)). pose proof (pow2_ge_0 k2). pose proof (pow2_ge_0 (k30_of b k1 k3)). lra. }
  assert (S0 : 0 < sqrt (kk0_of b k1 k2 k3)) by (apply sqrt_lt_R0; exact K0).
  pose proof (exp_pos (val (pa_logL P))) as PL. pose proof PI_RGT_0. pose proof (kk_pos k1 k2 k3 ltac:(lra)) as PK.
  assert (PS : 0 < k1^2 + k2^2) by (pose proof (pow2_ge_0 k2); nra).
  assert (PV : let x := exp (val (pa_logL P)) * sqrt (kk0_of b k1 k2 k3) in 0 < vklike_energy x * (4 / x - 17/3 * (x / (1 + x^2)))).
  { apply vk_rise; [apply Rmult_lt_0_compat; assumption|]. rewrite Rpow_mult_distr, pow2_sqrt by lra. exact R2. }
  cbv zeta in PV. set (V := vklike_energy _ * _) in *.
  assert (P3 : 0 < k30_of b k1 k3) by exact R1.
  assert (PP : 0 < Rpower (exp (val (pa_logL P))) (5/3)) by apply exp_pos. pose proof (exp_pos (val (pa_logM P))) as PM.
  set (Q := Rpower _ _) in *.
  apply Rmult_lt_0_compat; [|lra]. apply Rmult_lt_0_compat.
  - apply Rmult_lt_0_compat; [|exact PV]. apply Rmult_lt_0_compat; [|exact PS].
    apply Rdiv_lt_0_compat; [|apply pow_lt; exact PK]. apply Rdiv_lt_0_compat; [|lra]. apply Rmult_lt_0_compat; assumption.
  - apply Rmult_lt_0_compat; [exact PL|]. apply Rmult_lt_0_compat; [exact Hk|]. apply Rdiv_lt_0_compat; assumption.
Qed.

Lemma delivered_le : forall t k1 k2 k3, 0 < k1 -> 0 <= t * dL ->
  0 < k3 + beta_at t k1 k2 k3 * k1 ->
  exp (moved t (pa_logL P)) ^ 2 * (k1^2 + k2^2 + (k3 + beta_at 0 k1 k2 k3 * exp (t * q) * k1)^2) < 12/5 ->
  delivered phi33 (model_at s P t) k1 k2 k3 <= delivered phi33 (upper t) k1 k2 k3.
Proof.
  intros t k1 k2 k3 Hk Ht R1 R2. unfold delivered. rewrite model_form. cbv zeta. cbn [oe_L oe_M oe_spec oe_beta model_at upper]. rewrite HV.
  pose proof (beta_bound t k1 k2 k3 ltac:(lra) Ht) as B. fold q in B.
  set (b := beta_at t k1 k2 k3) in *. set (c := beta_at 0 k1 k2 k3 * exp (t * q)) in *.
  set (L := exp (moved t (pa_logL P))) in *. assert (PL : 0 < L) by apply exp_pos.
  assert (K0 : 0 < kk0_of b k1 k2 k3).
  { unfold kk0_of. pose proof (sq_pos k1 ltac:(lra)). pose proof (pow2_ge_0 k2). pose proof (pow2_ge_0 (k30_of b k1 k3)). lra. }
  assert (KK : kk0_of b k1 k2 k3 <= kk0_of c k1 k2 k3) 
    by (unfold kk0_of, k30_of; assert (k3 + b * k1 <= k3 + c * k1) by nra; pose proof (pow_incr (k3 + b * k1) (k3 + c * k1) 2 ltac:(lra)); lra).
  assert (E : forward_energy vklike_energy (exp (moved t (pa_logM P))) L b k1 k2 k3 <= forward_energy vklike_energy (exp (moved t (pa_logM P))) L c k1 k2 k3).
  { unfold forward_energy. cbv zeta. apply Rmult_le_compat_l; [apply Rmult_le_pos; left; apply exp_pos|]. apply vk_mono.
    - apply Rmult_lt_0_compat; [exact PL|apply sqrt_lt_R0; exact K0].
    - apply Rmult_le_compat_l; [lra|]. apply sqrt_le_1_alt. exact KK.
    - rewrite Rpow_mult_distr, pow2_sqrt by lra. unfold kk0_of, k30_of. exact R2. }
  pose proof PI_RGT_0. pose proof (kk_pos k1 k2 k3 ltac:(lra)) as PK.
  unfold power_spectra, power_spectra_raw. cbv zeta. cbn [phi33].
  assert (G : forall x y, x <= y -> clip_low eps_ops x <= clip_low eps_ops y).
  { intros x y Hxy. unfold clip_low. destruct (Rlt_dec x eps_ops), (Rlt_dec y eps_ops); lra. }
  apply G. apply Rmult_le_compat_r; [unfold s_of; pose proof (pow2_ge_0 k1); pose proof (pow2_ge_0 k2); lra|].
  apply Rmult_le_compat_r; [left; apply Rinv_0_lt_compat, pow_lt; exact PK|].
  apply Rmult_le_compat_r; [left; apply Rinv_0_lt_compat; lra|]. exact E.
Qed.

Lemma beta_cont : forall k1 k2 k3, k1 <> 0 -> continuous (fun t => beta_at t k1 k2 k3) 0.
Proof.
  intros k1 k2 k3 Hk.
  destruct (mann_steady R_UniformSpace MANN (fun t => exp (moved t (pa_logL P))) (fun t => exp (moved t (pa_logT P)))
              (fun t => exp (moved t (pa_logM P))) (fun _ => 0) (fun _ => 0) (fun _ => 0) (fun _ => 0) (st_hyp s) (fun _ => Err RuntimeError)
              (fun t k1 k2 k3 => beta_at t k1 k2 k3) 0 k1) as [_ (_ & _ & _ & _ & C)]; try apply continuous_const.
  - discriminate.
  - apply exp_pos.
  - exact Hk.
  - apply (tracks_cont _ (dexp (pa_logL P))). apply tracks_exp, tracks_moved.
  - apply (tracks_cont _ (dexp (pa_logT P))). apply tracks_exp, tracks_moved.
  - apply (tracks_cont _ (dexp (pa_logM P))). apply tracks_exp, tracks_moved.
  - intros _ t Hneg. split.
    + apply continuity_pt_filterlim. apply (continuous_ext_loc _ euler_integral).
      * assert (Hp : 0 < - t) by lra. exists (mkposreal (- t) Hp). intros w Hw. symmetry. apply HH.
        unfold ball in Hw; simpl in Hw; unfold AbsRing_ball, abs, minus, plus, opp in Hw; simpl in Hw. apply Rabs_def2 in Hw. lra.
      * apply continuity_pt_filterlim. apply euler_continuous. assumption.
    + rewrite HH by assumption. apply euler_pos. lra.
  - intros t x y. reflexivity.
  - apply C.
Qed.

Lemma spectra_wrong : forall p1 p2 N k1, 0 < k1 -> p1 < p2 -> (1 <= N)%nat -> dL <> 0 -> rising (model_at s P 0) p1 p2 N k1 ->
  ~ is_derive (fun t => ops_forward phi33 (model_at s P t) p1 p2 N k1) 0 (der (ad_forward phi33 s P p1 p2 N k1)).
Proof.
  intros p1 p2 N k1 Hk Hp HN HL HR D. assert (Hk' : k1 <> 0) by lra.
  set (g := sym_grid p1 p2 N) in *.
  assert (Gs : increasing g) by (apply sym_grid_sorted; exact Hp).
  assert (Gl : (2 <= length g)%nat) by (unfold g; rewrite sym_grid_length; lia).
  assert (TU : tracks (fun t => ops_forward phi33 (upper t) p1 p2 N k1)
     (dmul (const k1) (Dual (quad23 g g (fun k2 k3 => val (node (db_upper k1 k2 k3) k1 k2 k3))) (quad23 g g (fun k2 k3 => der (node (db_upper k1 k2 k3) k1 k2 k3)))))).
  { unfold ops_forward. cbv zeta. apply tracks_mul; [apply tracks_const|].
    apply (quad_tracks g g (fun t k2 k3 => delivered phi33 (upper t) k1 k2 k3) (fun k2 k3 => node (db_upper k1 k2 k3) k1 k2 k3)).
    intros k2 k3 I2 I3. apply upper_tracks; [exact Hk'|]. destruct (HR k2 k3 I2 I3) as (_ & _ & B). exact B. }
  set (l := k1 * (dL * quad23 g g (fun k2 k3 => lift k1 k2 k3))).
  assert (G : is_derive (fun t => ops_forward phi33 (model_at s P t) p1 p2 N k1 - ops_forward phi33 (upper t) p1 p2 N k1) 0 l).
  { destruct TU as [_ DU]. evar_last; [apply @is_derive_minus; [exact D|exact DU]|].
    match goal with |- minus ?a ?b = _ => change (a + - b = l) end.
    unfold ad_forward. cbv zeta. cbn [der dmul const]. fold g. cbn [val der].
    assert (E : dL * quad23 g g (fun k2 k3 => lift k1 k2 k3)
      = 1 * quad23 g g (fun k2 k3 => der (ad_delivered phi33 s P k1 k2 k3)) + (-1) * quad23 g g (fun k2 k3 => der (node (db_upper k1 k2 k3) k1 k2 k3))).
    { rewrite <- quad23_linear, <- quad23_scal. apply quad23_ext. intros k2 k3 I2 I3. destruct (HR k2 k3 I2 I3) as (_ & _ & B). rewrite <- gap by assumption. ring. }
    unfold l. rewrite E. change (val (const k1)) with k1. ring. }
  assert (QP : 0 < quad23 g g (fun k2 k3 => lift k1 k2 k3)).
  { assert (LI : In (last_node g) g) by (apply last_in; intros Q; rewrite Q in Gl; cbn in Gl; lia).
    assert (IN : forall k2, In k2 g -> 0 < T g (fun k3 => lift k1 k2 k3)).
    { intros k2 I2. replace 0 with (T g (fun _ => 0)) by (rewrite T_const; ring).
      apply T_strict_last; [exact Gs|exact Gl| |].
      - intros k3 I3. left. apply (lift_pos p1 p2 N); assumption.
      - apply (lift_pos p1 p2 N); assumption. }
    rewrite quad23_T. replace 0 with (T g (fun _ => 0)) by (rewrite T_const; ring).
    apply T_strict_last; [exact Gs|exact Gl| |].
    - intros k2 I2. left. apply IN. exact I2.
    - apply IN. exact LI. }
  apply one_sided in G.
  - unfold l in G. apply Rmult_integral in G. destruct G as [G|G]; [lra|]. apply Rmult_integral in G. destruct G; lra.
  - unfold ops_forward. cbv zeta. fold g.
    rewrite (quad23_ext g g (fun k2 k3 => delivered phi33 (upper 0) k1 k2 k3) (fun k2 k3 => delivered phi33 (model_at s P 0) k1 k2 k3)); [ring|].
    intros k2 k3 I2 I3. unfold delivered. rewrite model_form. cbn [oe_L oe_M oe_spec oe_beta upper model_at]. cbv zeta. rewrite HV.
    rewrite Rmult_0_l, exp_0, Rmult_1_r. reflexivity.
  - assert (NE : locally 0 (fun t => forall a, In a (list_prod g g) ->
        0 < snd a + beta_at t k1 (fst a) (snd a) * k1
        /\ exp (moved t (pa_logL P)) ^ 2 * (k1^2 + fst a ^2 + (snd a + beta_at 0 k1 (fst a) (snd a) * exp (t * q) * k1)^2) < 12/5)).
    { apply (near_all _ _ (fun a t => 0 < snd a + beta_at t k1 (fst a) (snd a) * k1
        /\ exp (moved t (pa_logL P)) ^ 2 * (k1^2 + fst a ^2 + (snd a + beta_at 0 k1 (fst a) (snd a) * exp (t * q) * k1)^2) < 12/5)).
      intros [k2 k3] I. apply in_prod_iff in I. destruct I as [I2 I3]. cbn [fst snd].
      destruct (HR k2 k3 I2 I3) as (R1 & R2 & _). rewrite model_form in R1, R2. cbn [oe_L model_at] in R2.
      apply filter_and.
      - assert (C : continuous (fun t => k3 + beta_at t k1 k2 k3 * k1) 0).
        { apply (continuous_plus (fun _ => k3)); [apply continuous_const|].
          apply (continuous_mult (fun t => beta_at t k1 k2 k3) (fun _ => k1)); [apply beta_cont; exact Hk'|apply continuous_const]. }
        apply (C (fun u => 0 < u)). apply (open_gt 0). exact R1.
      - assert (C : tracks (fun t => exp (moved t (pa_logL P)) ^ 2 * (k1^2 + k2^2 + (k3 + beta_at 0 k1 k2 k3 * exp (t * q) * k1)^2))
            (dmul (dsq (dexp (pa_logL P))) (dadd (const (k1^2 + k2^2)) (dsq (dadd (const k3) (dmul (db_upper k1 k2 k3) (const k1))))))).
        { apply tracks_mul; [apply tracks_sq, tracks_exp, tracks_moved|]. apply tracks_add; [apply tracks_const|]. apply tracks_sq.
          apply tracks_add; [apply tracks_const|]. apply tracks_mul; [|apply tracks_const].
          split; [cbn [val db_upper]; rewrite Rmult_0_l, exp_0; ring|]. cbn [der db_upper]. auto_derive; [exact I|]. rewrite Rmult_0_l, exp_0. ring. }
        apply (near_lt _ _ _ C). destruct C as [V _]. rewrite <- V. rewrite Rmult_0_l, exp_0, Rmult_1_r. exact R2. }
    apply (filter_imp _ _) with (2 := NE). intros t Ht Hs.
    assert (Ht' : 0 <= t * dL).
    { unfold l in Hs. set (Q := quad23 g g (fun k2 k3 => lift k1 k2 k3)) in *. assert (0 < (t * dL) * (k1 * Q)) by lra.
      assert (0 < k1 * Q) by (apply Rmult_lt_0_compat; assumption). nra. }
    assert (ops_forward phi33 (model_at s P t) p1 p2 N k1 <= ops_forward phi33 (upper t) p1 p2 N k1); [|lra].
    unfold ops_forward. cbv zeta. fold g. apply Rmult_le_compat_l; [lra|]. apply quad23_mono; [exact Gs|exact Gs|].
    intros k2 k3 I2 I3. destruct (Ht (k2, k3)) as [C1 C2]; [apply in_prod; assumption|]. apply delivered_le; assumption.
Qed.

End Mann.
