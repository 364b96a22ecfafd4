(** Geometry, profiles, seams, low-frequency contribution, divergence. *)

From Coq Require Import String Reals Lra Lia List Arith ZArith Bool.
From Verif Require Import Prelude SpectraModel OpsProofs GenModel GenSpec GenProofs GenMore GenApi.
Import ListNotations.
Open Scope R_scope.

(** ** Geometry *)

Lemma Zceil_spec : forall x, x <= IZR (Zceil x) < x + 1.
Proof.
  intros x. unfold Zceil. rewrite opp_IZR. destruct (base_Int_part (- x)) as [A B]. lra.
Qed.

Lemma Zceil_pos : forall x, 0 < x -> (0 < Zceil x)%Z.
Proof. intros x H. apply lt_IZR. pose proof (Zceil_spec x). lra. Qed.

Lemma Zceil_0 : Zceil 0 = 0%Z.
Proof.
  pose proof (Zceil_spec 0) as [A B]. apply Z.le_antisymm.
  - apply Z.lt_succ_r. apply lt_IZR. rewrite succ_IZR. lra.
  - apply le_IZR. exact A.
Qed.

Lemma nodes_ge : forall l, (2 <= nodes l)%nat.
Proof. intros l. unfold nodes. pose proof (Nat.pow_nonzero 2 l). lia. Qed.

Lemma nodes_INR : forall l, 2 <= INR (nodes l).
Proof. intros l. replace 2 with (INR 2) by (simpl; lra). apply le_INR. apply nodes_ge. Qed.

Lemma geometry_sound : forall Lx Ly Lz lx ly lz L T blend, 0 < Lx -> 0 < Ly -> 0 < Lz -> 0 < L -> 0 < T ->
  exists g, make_geometry (Lx, Ly, Lz) (lx, ly, lz) L T blend = Ok g /\ sound g
  /\ g_Nx g = nodes lx /\ g_Ny g = nodes ly /\ g_Nz g = nodes lz /\ g_blend g = blend /\ g_dims g = (Lx, Ly, Lz)
  /\ (let dx := Lx / INR (nodes lx) in 3 * T * L <= IZR (g_nb g) * dx < 3 * T * L + dx)
  /\ (let dy := Ly / INR (nodes ly) in L <= IZR (g_my g) * dy < L + dy)
  /\ (let dz := Lz / INR (nodes lz) in L <= IZR (g_mz g) * dz < L + dz).
Proof.
  intros Lx Ly Lz lx ly lz L T blend Hx Hy Hz HL HT.
  pose proof (nodes_INR lx) as Nx. pose proof (nodes_INR ly) as Ny. pose proof (nodes_INR lz) as Nz.
  assert (Dx : 0 < Lx / INR (nodes lx)) by (apply Rdiv_lt_0_compat; lra).
  assert (Dy : 0 < Ly / INR (nodes ly)) by (apply Rdiv_lt_0_compat; lra).
  assert (Dz : 0 < Lz / INR (nodes lz)) by (apply Rdiv_lt_0_compat; lra).
  unfold make_geometry, Reqb. destruct (Req_EM_T (Lx / INR (nodes lx)) 0); [lra|].
  destruct (Req_EM_T (Ly / INR (nodes ly)) 0); [lra|]. destruct (Req_EM_T (Lz / INR (nodes lz)) 0); [lra|].
  eexists. split; [reflexivity|]. cbn [g_Nx g_Ny g_Nz g_blend g_dims g_nb g_my g_mz].
  assert (P : 0 < 3 * T * L) by (apply Rmult_lt_0_compat; lra).
  assert (CE : forall q d, 0 < d -> q <= IZR (Zceil (q / d)) * d < q + d).
  { intros q d Hd. destruct (Zceil_spec (q / d)) as [A B].
    apply (Rmult_le_compat_r d) in A; [|lra]. apply (Rmult_lt_compat_r d) in B; [|lra].
    replace (q / d * d) with q in A by (field; lra). replace ((q / d + 1) * d) with (q + d) in B by (field; lra). lra. }
  repeat split; cbn [g_Nx g_Ny g_Nz g_blend g_dims g_nb g_my g_mz g_lz]; try apply nodes_ge;
    try (apply Zceil_pos; apply Rdiv_lt_0_compat; assumption); try (apply CE; assumption).
Qed.

(** Zero time scale. *)
Lemma zero_time_geometry : forall Lx Ly Lz lx ly lz L blend, 0 < Lx -> 0 < Ly -> 0 < Lz -> 0 < L ->
  exists g, make_geometry (Lx, Ly, Lz) (lx, ly, lz) L 0 blend = Ok g /\ g_nb g = 0%Z.
Proof.
  intros Lx Ly Lz lx ly lz L blend Hx Hy Hz HL.
  pose proof (nodes_INR lx) as Nx. pose proof (nodes_INR ly) as Ny. pose proof (nodes_INR lz) as Nz.
  assert (Dx : 0 < Lx / INR (nodes lx)) by (apply Rdiv_lt_0_compat; lra).
  assert (Dy : 0 < Ly / INR (nodes ly)) by (apply Rdiv_lt_0_compat; lra).
  assert (Dz : 0 < Lz / INR (nodes lz)) by (apply Rdiv_lt_0_compat; lra).
  unfold make_geometry, Reqb. destruct (Req_EM_T (Lx / INR (nodes lx)) 0); [lra|].
  destruct (Req_EM_T (Ly / INR (nodes ly)) 0); [lra|]. destruct (Req_EM_T (Lz / INR (nodes lz)) 0); [lra|].
  eexists. split; [reflexivity|]. cbn [g_nb]. replace (3 * 0 * L / (Lx / INR (nodes lx))) with 0; [apply Zceil_0|].
  unfold Rdiv. ring.
Qed.

Lemma no_buffer_block : forall G gauss geo std correlate (s : gstate G) b s', g_nb geo = 0%Z ->
  generate_block gauss geo std correlate s = (Ok b, s') -> b = [].
Proof.
  intros G gauss geo std correlate s b s' Hb H. unfold generate_block in H.
  destruct (next_noise gauss geo std s) as [[n|e] g]; [|discriminate].
  assert (E : central_part geo (correlate n) = []) by (unfold central_part; rewrite Hb; reflexivity).
  rewrite E in H. injection H as <- _. unfold trim. destruct (1 <? g_blend geo)%Z; [|reflexivity].
  unfold pyslice. cbn [length]. rewrite skipn_nil, firstn_nil. reflexivity.
Qed.

Lemma no_buffer_generate : forall G gauss geo std correlate low n a (s : gstate G), g_nb geo = 0%Z -> (1 <= n)%Z ->
  exists e, fst (generate gauss geo std correlate low n a s) = Err e.
Proof.
  intros G gauss geo std correlate low n a s Hb Hn. unfold generate. destruct (Z.to_nat n) as [|m] eqn:E; [lia|].
  cbn [generate_loop]. unfold generate_one. destruct (generate_block gauss geo std correlate s) as [[b|e] s1] eqn:EB.
  - rewrite (no_buffer_block _ _ _ _ _ _ _ _ Hb EB). exists ValueError. reflexivity.
  - exists e. reflexivity.
Qed.

(** ** Profiles *)

Lemma log_law_value : forall z z0 zref uref, 0 < z0 -> 0 < zref -> zref <> z0 ->
  log_law z z0 zref uref = Fin (uref * ln (z / z0 + 1) / ln (zref / z0)).
Proof.
  intros z z0 zref uref H0 Hr Hne. unfold log_law. cbn [xdiv]. unfold Reqb. destruct (Req_EM_T (ln (zref / z0)) 0) as [E|E]; [|reflexivity].
  exfalso. apply Hne. rewrite <- ln_1 in E. apply ln_inv in E; [|apply Rdiv_lt_0_compat; assumption|lra].
  apply (Rmult_eq_compat_r z0) in E. unfold Rdiv in E. rewrite Rmult_assoc, Rinv_l in E by lra. lra.
Qed.

Lemma ln_ratio_pos : forall z0 zref, 0 < z0 -> z0 < zref -> 0 < ln (zref / z0).
Proof.
  intros z0 zref H0 H. rewrite <- ln_1. apply ln_increasing; [lra|]. apply (Rmult_lt_reg_r z0); [exact H0|].
  unfold Rdiv. rewrite Rmult_assoc, Rinv_l by lra. lra.
Qed.

Lemma log_law_reference : forall z0 zref uref, 0 < z0 -> z0 < zref -> 0 < uref ->
  exists v, log_law zref z0 zref uref = Fin v /\ uref < v /\ v <= uref + uref * ln 2 / ln (zref / z0).
Proof.
  intros z0 zref uref H0 Hr Hu. rewrite log_law_value by lra. eexists. split; [reflexivity|].
  pose proof (ln_ratio_pos z0 zref H0 Hr) as P. set (r := zref / z0) in *.
  assert (R1 : 1 < r). { unfold r. apply (Rmult_lt_reg_r z0); [exact H0|]. unfold Rdiv. rewrite Rmult_assoc, Rinv_l by lra. lra. }
  assert (A : ln r < ln (r + 1)) by (apply ln_increasing; lra).
  assert (B : ln (r + 1) <= ln 2 + ln r).
  { rewrite <- ln_mult by lra. destruct (Req_dec (r + 1) (2 * r)) as [E|E]; [rewrite E; lra|]. left. apply ln_increasing; lra. }
  split.
  - apply (Rmult_lt_reg_r (ln r)); [exact P|]. unfold Rdiv. rewrite Rmult_assoc, Rinv_l by lra. rewrite Rmult_1_r.
    apply Rmult_lt_compat_l; assumption.
  - apply (Rmult_le_reg_r (ln r)); [exact P|]. replace (uref * ln (r + 1) / ln r * ln r) with (uref * ln (r + 1)) by (field; lra).
    replace ((uref + uref * ln 2 / ln r) * ln r) with (uref * (ln 2 + ln r)) by (field; lra).
    apply Rmult_le_compat_l; lra.
Qed.

Lemma log_law_ground : forall z0 zref uref, 0 < z0 -> 0 < zref -> zref <> z0 -> log_law 0 z0 zref uref = Fin 0.
Proof.
  intros z0 zref uref H0 Hr Hne. rewrite log_law_value by assumption. f_equal. unfold Rdiv at 2. rewrite Rmult_0_l, Rplus_0_l, ln_1.
  unfold Rdiv. ring.
Qed.

Lemma log_law_increasing : forall z z' z0 zref uref, 0 < z0 -> z0 < zref -> 0 < uref -> 0 <= z -> z < z' ->
  exists v v', log_law z z0 zref uref = Fin v /\ log_law z' z0 zref uref = Fin v' /\ v < v'.
Proof.
  intros z z' z0 zref uref H0 Hr Hu Hz Hzz. rewrite !log_law_value by lra. eexists. eexists. split; [reflexivity|]. split; [reflexivity|].
  pose proof (ln_ratio_pos z0 zref H0 Hr) as P. apply Rmult_lt_compat_r; [apply Rinv_0_lt_compat; exact P|].
  apply Rmult_lt_compat_l; [exact Hu|]. apply ln_increasing.
  - assert (0 <= z / z0) by (apply Rmult_le_pos; [exact Hz|left; apply Rinv_0_lt_compat; exact H0]). lra.
  - apply Rplus_lt_compat_r. apply Rmult_lt_compat_r; [apply Rinv_0_lt_compat; exact H0|exact Hzz].
Qed.

(** Below the roughness length the accepted profile blows backwards. *)
Lemma log_law_negative : forall z z0 zref uref, 0 < zref -> zref < z0 -> 0 < uref -> 0 < z ->
  exists v, log_law z z0 zref uref = Fin v /\ v < 0.
Proof.
  intros z z0 zref uref Hr H0 Hu Hz. rewrite log_law_value by lra. eexists. split; [reflexivity|].
  assert (N : ln (zref / z0) < 0).
  { rewrite <- ln_1. apply ln_increasing; [apply Rdiv_lt_0_compat; lra|]. apply (Rmult_lt_reg_r z0); [lra|].
    unfold Rdiv. rewrite Rmult_assoc, Rinv_l by lra. lra. }
  assert (P : 0 < ln (z / z0 + 1)).
  { rewrite <- ln_1. apply ln_increasing; [lra|]. assert (0 < z / z0) by (apply Rdiv_lt_0_compat; lra). lra. }
  assert (Q : / ln (zref / z0) < 0) by (apply Rinv_lt_0_compat; exact N).
  assert (0 < uref * ln (z / z0 + 1)) by (apply Rmult_lt_0_compat; assumption).
  unfold Rdiv. rewrite <- (Rmult_0_r (uref * ln (z * / z0 + 1))). apply Rmult_lt_compat_l; assumption.
Qed.

Lemma power_law_pos : forall z zref uref a, 0 < z -> 0 < zref -> power_law z zref uref a = Fin (uref * Rpower (z / zref) a).
Proof.
  intros z zref uref a Hz Hr. unfold power_law, xpow. assert (0 < z / zref) by (apply Rdiv_lt_0_compat; assumption).
  destruct (Rlt_dec 0 (z / zref)); [reflexivity|contradiction].
Qed.

Lemma power_law_reference : forall zref uref a, 0 < zref -> power_law zref zref uref a = Fin uref.
Proof.
  intros zref uref a Hr. rewrite power_law_pos by assumption. f_equal. replace (zref / zref) with 1 by (field; lra).
  unfold Rpower. rewrite ln_1, Rmult_0_r, exp_0. ring.
Qed.

Lemma power_law_ground : forall zref uref a, 0 < a -> 0 < zref -> power_law 0 zref uref a = Fin 0.
Proof.
  intros zref uref a Ha Hr. unfold power_law, xpow. replace (0 / zref) with 0 by (unfold Rdiv; ring).
  destruct (Rlt_dec 0 0) as [?|?]; [lra|]. destruct (Rlt_dec 0 0) as [?|?]; [lra|]. destruct (Rlt_dec 0 a); [|lra].
  cbn [xmul]. f_equal. ring.
Qed.

Lemma power_law_increasing : forall z z' zref uref a, 0 < zref -> 0 < uref -> 0 < a -> 0 <= z -> z < z' ->
  exists v v', power_law z zref uref a = Fin v /\ power_law z' zref uref a = Fin v' /\ v < v'.
Proof.
  intros z z' zref uref a Hr Hu Ha Hz Hzz. rewrite (power_law_pos z') by lra.
  destruct (Rle_lt_or_eq_dec 0 z Hz) as [P| <-].
  - rewrite power_law_pos by lra. eexists. eexists. split; [reflexivity|]. split; [reflexivity|]. apply Rmult_lt_compat_l; [exact Hu|].
    unfold Rpower. apply exp_increasing. apply Rmult_lt_compat_l; [exact Ha|]. apply ln_increasing; [apply Rdiv_lt_0_compat; assumption|].
    apply Rmult_lt_compat_r; [apply Rinv_0_lt_compat; exact Hr|exact Hzz].
  - rewrite power_law_ground by assumption. eexists. eexists. split; [reflexivity|]. split; [reflexivity|].
    apply Rmult_lt_0_compat; [exact Hu|]. apply exp_pos.
Qed.


Lemma log_profile_nan : forall g a, p_type a = "LOG"%string -> p_zref a = p_z0 a -> 0 < p_z0 a ->
  exists prof, mean_profile g a = Ok (NaN :: prof).
Proof.
  intros g a Ht Hz H0. unfold mean_profile. rewrite Ht. cbn [String.eqb Ascii.eqb Bool.eqb]. unfold z_space, linspace.
  destruct (nodes (g_lz g)) as [|n] eqn:E; [pose proof (nodes_ge (g_lz g)); lia|]. cbn [seq map]. eexists. f_equal. f_equal.
  cbn [INR]. rewrite Rmult_0_l, Rplus_0_r. rewrite Hz. unfold log_law. replace (p_z0 a / p_z0 a) with 1 by (field; lra).
  replace (0 / p_z0 a + 1) with 1 by (unfold Rdiv; ring). rewrite ln_1, Rmult_0_r. unfold xdiv, Reqb.
  destruct (Req_EM_T 0 0); [reflexivity|contradiction].
Qed.

Lemma power_profile_inf : forall g a e, p_type a = "PL"%string -> p_exp a = Some e -> e < 0 -> 0 < p_zref a -> 0 < p_uref a ->
  exists prof, mean_profile g a = Ok (PInf :: prof).
Proof.
  intros g a e Ht He Hneg Hz Hu. unfold mean_profile. rewrite Ht, He. cbn [String.eqb Ascii.eqb Bool.eqb]. unfold z_space, linspace.
  destruct (nodes (g_lz g)) as [|n] eqn:E; [pose proof (nodes_ge (g_lz g)); lia|]. cbn [seq map]. eexists. f_equal. f_equal.
  cbn [INR]. rewrite Rmult_0_l, Rplus_0_r. unfold power_law, xpow. replace (0 / p_zref a) with 0 by (unfold Rdiv; ring).
  destruct (Rlt_dec 0 0) as [?|?]; [lra|]. destruct (Rlt_dec 0 0) as [?|?]; [lra|]. destruct (Rlt_dec 0 e); [lra|].
  destruct (Rlt_dec e 0); [|lra]. cbn [xmul xsign]. unfold Rltb. destruct (Rlt_dec 0 (p_uref a)); [reflexivity|contradiction].
Qed.

Lemma profile_finite : forall g a prof, ~ bad_profile a -> 0 <= snd (g_dims g) ->
  (p_type a = "LOG"%string -> p_zref a <> p_z0 a) ->
  (forall e, p_type a = "PL"%string -> p_exp a = Some e -> 0 <= e) ->
  mean_profile g a = Ok prof -> finite_profile prof.
Proof.
  intros g a prof Hb HL Hlog Hpl H. unfold mean_profile in H.
  assert (Hp : 0 < p_zref a /\ 0 < p_uref a /\ 0 < p_z0 a).
  { unfold bad_profile in Hb. destruct (Rlt_dec 0 (p_zref a)); [|exfalso; apply Hb; right; left; lra].
    destruct (Rlt_dec 0 (p_uref a)); [|exfalso; apply Hb; right; right; left; lra].
    destruct (Rlt_dec 0 (p_z0 a)); [|exfalso; apply Hb; right; right; right; left; lra]. tauto. }
  destruct Hp as (Hz & Hu & H0).
  assert (Hzs : forall z, In z (z_space g) -> 0 <= z).
  { intros z Hin. unfold z_space, linspace in Hin. apply in_map_iff in Hin. destruct Hin as (i & <- & _).
    rewrite Rplus_0_l, Rminus_0_r. apply Rmult_le_pos; [apply pos_INR|]. apply Rmult_le_pos; [exact HL|].
    left. apply Rinv_0_lt_compat. apply lt_0_INR. pose proof (nodes_ge (g_lz g)). lia. }
  destruct (String.eqb_spec (p_type a) "LOG") as [E|E].
  - injection H as <-. apply Forall_forall. intros m Hm. apply in_map_iff in Hm. destruct Hm as (z & <- & Hin).
    rewrite log_law_value by auto. eexists. reflexivity.
  - destruct (p_exp a) as [e|] eqn:Ee; [|discriminate]. injection H as <-.
    assert (Ep : p_type a = "PL"%string). { destruct (string_dec (p_type a) "PL") as [Q|Q]; [exact Q|]. exfalso. apply Hb. left. split; assumption. }
    apply Forall_forall. intros m Hm. apply in_map_iff in Hm. destruct Hm as (z & <- & Hin).
    destruct (Rle_lt_or_eq_dec 0 z (Hzs z Hin)) as [P| <-]; [rewrite power_law_pos by assumption; eexists; reflexivity|].
    specialize (Hpl e Ep eq_refl). destruct (Rle_lt_or_eq_dec 0 e Hpl) as [P| <-].
    + rewrite power_law_ground by assumption. eexists. reflexivity.
    + unfold power_law, xpow. replace (0 / p_zref a) with 0 by (unfold Rdiv; ring).
      destruct (Rlt_dec 0 0) as [?|?]; [lra|]. cbn [xmul]. eexists. reflexivity.
Qed.

(** Heights. *)
Lemma nodes_m1 : forall l, INR (nodes l - 1) = INR (nodes l) - 1.
Proof. intros l. pose proof (nodes_ge l). rewrite minus_INR by lia. simpl. lra. Qed.

Lemma z_space_height : forall g j, (j < nodes (g_lz g))%nat ->
  nth_error (z_space g) j = Some (INR j * (snd (g_dims g) / INR (2 ^ g_lz g))).
Proof.
  intros g j H. unfold z_space, linspace. rewrite nth_error_map. rewrite nth_error_nth' with (d := 0%nat) by (rewrite seq_length; lia).
  rewrite seq_nth by lia. cbn [option_map Nat.add]. rewrite Rplus_0_l, Rminus_0_r. unfold nodes. rewrite Nat.add_sub. reflexivity.
Qed.

Lemma heights_disagree : forall g Lx Ly Lz lx ly j, g_dims g = (Lx, Ly, Lz) -> 0 < Lz -> (1 <= j < nodes (g_lz g))%nat ->
  exists z, nth_error (z_space g) j = Some z /\ z <> INR j * snd (vtk_spacing (Lx, Ly, Lz) (lx, ly, g_lz g)).
Proof.
  intros g Lx Ly Lz lx ly j Hd HL Hj. exists (INR j * (Lz / INR (2 ^ g_lz g))). split.
  - rewrite z_space_height by lia. rewrite Hd. reflexivity.
  - cbn [vtk_spacing snd]. unfold nodes. rewrite plus_INR. change (INR 1) with 1.
    assert (P : 0 < INR (2 ^ g_lz g)) by (apply lt_0_INR; pose proof (Nat.pow_nonzero 2 (g_lz g)); lia).
    assert (J : 0 < INR j) by (apply lt_0_INR; lia).
    intros E. apply Rmult_eq_reg_l in E; [|lra]. apply (Rmult_eq_compat_r (INR (2 ^ g_lz g) * (INR (2 ^ g_lz g) + 1))) in E.
    replace (Lz / INR (2 ^ g_lz g) * (INR (2 ^ g_lz g) * (INR (2 ^ g_lz g) + 1))) with (Lz * (INR (2 ^ g_lz g) + 1)) in E by (field; lra).
    replace (Lz / (INR (2 ^ g_lz g) + 1) * (INR (2 ^ g_lz g) * (INR (2 ^ g_lz g) + 1))) with (Lz * INR (2 ^ g_lz g)) in E by (field; lra).
    lra.
Qed.

Lemma heights_ratio : forall g Lx Ly Lz lx ly j, g_dims g = (Lx, Ly, Lz) -> (j < nodes (g_lz g))%nat ->
  exists z, nth_error (z_space g) j = Some z
  /\ z = (1 + / 2 ^ g_lz g) * (INR j * snd (vtk_spacing (Lx, Ly, Lz) (lx, ly, g_lz g))).
Proof.
  intros g Lx Ly Lz lx ly j Hd Hj. eexists. split; [apply z_space_height; exact Hj|]. rewrite Hd. cbn [vtk_spacing snd].
  unfold nodes. rewrite plus_INR, pow_INR. change (INR 1) with 1. replace (INR 2) with 2 by (simpl; lra).
  assert (0 < 2 ^ g_lz g) by (apply pow_lt; lra). field. lra.
Qed.
