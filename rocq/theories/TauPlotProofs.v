(** Lemmas about the eddy-lifetime figure. *)

From Coq Require Import Reals List Arith Lia Lra.
From Verif Require Import Prelude RdtModel SpectraModel SpectraSpec TauPlotModel TauPlotSpec.
Import ListNotations.
Open Scope R_scope.

Lemma tau_ks_nth : forall n, (n < 50)%nat -> nth_error tau_wave_numbers n = Some (wave_number n).
Proof.
  intros n Hn. unfold tau_wave_numbers, logspace, linspace. rewrite map_map.
  rewrite (map_nth_error _ n (seq 0 50) (d := n)).
  - f_equal. unfold wave_number. f_equal. replace (INR (50 - 1)) with 49 by (cbn; lra). field.
  - erewrite nth_error_nth' with (d := 0%nat) by (rewrite seq_length; exact Hn). rewrite seq_nth by exact Hn. reflexivity.
Qed.

Lemma wave_number_pos : forall n, 0 < wave_number n.
Proof. intros n. apply exp_pos. Qed.

Lemma lifetimes_nth : forall env ks ts n k1 k2 k3, lifetimes env ks = Ok ts -> nth_error ks n = Some (k1, k2, k3) ->
  exists t, eddy_lifetime env k1 k2 k3 = Ok t /\ nth_error ts n = Some t.
Proof.
  intros env ks. induction ks as [|[[a b] c] ks IH]; intros ts n k1 k2 k3 H Hn; [destruct n; discriminate|].
  cbn [lifetimes] in H. destruct (eddy_lifetime env a b c) as [t|x] eqn:E; [|discriminate]. cbn [bind] in H.
  destruct (lifetimes env ks) as [ts'|x] eqn:E2; [|discriminate]. cbn [bind] in H. injection H as <-.
  destruct n as [|n].
  - cbn in Hn. injection Hn as -> -> ->. exists t. auto.
  - cbn in Hn. cbn [nth_error]. exact (IH ts' n k1 k2 k3 eq_refl Hn).
Qed.

Lemma lifetimes_ok : forall env ks, (forall k1 k2 k3, is_ok (eddy_lifetime env k1 k2 k3)) -> is_ok (lifetimes env ks).
Proof.
  intros env ks H. induction ks as [|[[a b] c] ks IH]; [eexists; reflexivity|].
  destruct (H a b c) as [t Ht]. destruct IH as [ts Hts]. cbn [lifetimes]. rewrite Ht, Hts. eexists. reflexivity.
Qed.

Lemma closed_form_ok : forall env k1 k2 k3, closed_form env -> is_ok (eddy_lifetime env k1 k2 k3).
Proof.
  intros env k1 k2 k3 H. unfold eddy_lifetime. unfold closed_form in H. destruct (le_type env); try (eexists; reflexivity). contradiction.
Qed.

Lemma figure_exists : forall env L0 G0, closed_form env -> is_ok (plot_tau env L0 G0).
Proof.
  intros env L0 G0 H. unfold plot_tau.
  assert (A : forall ks, is_ok (lifetimes env ks)) by (intros ks; apply lifetimes_ok; intros; apply closed_form_ok; exact H).
  destruct (A (map (tau_vector 0) tau_wave_numbers)) as [c1 ->]. destruct (A (map (tau_vector 1) tau_wave_numbers)) as [c2 ->].
  destruct (A (map (tau_vector 2) tau_wave_numbers)) as [c3 ->]. destruct (A (map (tau_vector 3) tau_wave_numbers)) as [c4 ->]. eexists. reflexivity.
Qed.

Lemma sqrt3_pos : 0 < sqrt 3.
Proof. apply sqrt_lt_R0. lra. Qed.

Lemma tau_vector_direction : forall j k, tau_vector j k = match direction j with (a, b, c) => (k * a, k * b, k * c) end.
Proof.
  intros j k. destruct j as [|[|[|j]]]; cbn [tau_vector direction]; try (rewrite Rmult_1_r, (Rmult_comm 0 k); reflexivity). reflexivity.
Qed.

Lemma direction_unit : forall j k, 0 < k -> match direction j with (a, b, c) => sqrt (kk_of (k * a) (k * b) (k * c)) end = k.
Proof.
  intros j k Hk.
  assert (S3 : / sqrt 3 * / sqrt 3 = / 3) by (rewrite <- Rinv_mult; rewrite sqrt_sqrt by lra; reflexivity).
  assert (G : forall x, x = k * k -> sqrt x = k) by (intros x ->; apply sqrt_square; lra).
  destruct j as [|[|[|j]]]; cbn [direction]; apply G; unfold kk_of; try ring.
  replace ((k * / sqrt 3) ^ 2 + (k * / sqrt 3) ^ 2 + (k * / sqrt 3) ^ 2) with (3 * (k * k) * (/ sqrt 3 * / sqrt 3)) by ring. rewrite S3. field.
Qed.

(** The drawn points. *)
Lemma figure_points : forall env L0 G0 f j n, plot_tau env L0 G0 = Ok f -> (j < 4)%nat -> (n < 50)%nat ->
  let k := wave_number n in
  (exists t, match direction j with (a, b, c) => eddy_lifetime env (k * a) (k * b) (k * c) end = Ok t /\ drawn_lifetime f j n = Some (k * L0, t))
  /\ drawn_reference f n = Some (k * L0, G0 * mann_lifetime (le_hyp env) (L0 * k))
  /\ drawn_lifetime f j 50 = None.
Proof.
  intros env L0 G0 f j n H Hj Hn k. unfold plot_tau in H.
  destruct (lifetimes env (map (tau_vector 0) tau_wave_numbers)) as [c1|] eqn:E1; [|discriminate]. cbn [bind] in H.
  destruct (lifetimes env (map (tau_vector 1) tau_wave_numbers)) as [c2|] eqn:E2; [|discriminate]. cbn [bind] in H.
  destruct (lifetimes env (map (tau_vector 2) tau_wave_numbers)) as [c3|] eqn:E3; [|discriminate]. cbn [bind] in H.
  destruct (lifetimes env (map (tau_vector 3) tau_wave_numbers)) as [c4|] eqn:E4; [|discriminate]. cbv beta iota delta [bind] in H.
  pose proof (f_equal (fun r => match r with Ok x => x | Err _ => f end) H) as HF. cbv beta iota in HF. clear H. subst f.
  pose proof (tau_ks_nth n Hn) as K. fold k in K.
  assert (L50 : length tau_wave_numbers = 50%nat) by (unfold tau_wave_numbers, logspace, linspace; rewrite !map_length, seq_length; reflexivity).
  assert (X : nth_error (map (fun u => u * L0) tau_wave_numbers) n = Some (k * L0)) by (rewrite (map_nth_error _ n _ K); reflexivity).
  assert (X50 : nth_error (map (fun u => u * L0) tau_wave_numbers) 50 = None) by (apply nth_error_None; rewrite map_length, L50; lia).
  assert (C : forall i c, lifetimes env (map (tau_vector i) tau_wave_numbers) = Ok c ->
     exists t, match direction i with (a, b, d) => eddy_lifetime env (k * a) (k * b) (k * d) end = Ok t /\ nth_error c n = Some t).
  { intros i c Hc. pose proof (map_nth_error (tau_vector i) n _ K) as V. rewrite tau_vector_direction in V. destruct (direction i) as [[a b] d].
    exact (lifetimes_nth env _ c n _ _ _ Hc V). }
  unfold drawn_lifetime, drawn_reference. cbn [tf_x tf_model tf_ref]. rewrite X, X50. split; [|split; [|reflexivity]].
  - destruct j as [|[|[|[|j]]]]; [| | | |lia]; cbn [nth].
    + destruct (C 0%nat c1 E1) as (t & T1 & T2). exists t. rewrite T2. auto.
    + destruct (C 1%nat c2 E2) as (t & T1 & T2). exists t. rewrite T2. auto.
    + destruct (C 2%nat c3 E3) as (t & T1 & T2). exists t. rewrite T2. auto.
    + destruct (C 3%nat c4 E4) as (t & T1 & T2). exists t. rewrite T2. auto.
  - rewrite (map_nth_error _ n _ K). reflexivity.
Qed.

(** Lifetime of the closed forms as a function of the length of the wave vector. *)
Lemma closed_form_radial : forall env k1 k2 k3 k1' k2' k3', closed_form env -> sqrt (kk_of k1 k2 k3) = sqrt (kk_of k1' k2' k3') ->
  eddy_lifetime env k1 k2 k3 = eddy_lifetime env k1' k2' k3'.
Proof. intros env k1 k2 k3 k1' k2' k3' H E. unfold eddy_lifetime. rewrite E. unfold closed_form in H. destruct (le_type env); try reflexivity. contradiction. Qed.

Lemma curves_coincide : forall env L0 G0 f i j n, closed_form env -> plot_tau env L0 G0 = Ok f -> (i < 4)%nat -> (j < 4)%nat -> (n < 50)%nat ->
  drawn_lifetime f i n = drawn_lifetime f j n.
Proof.
  intros env L0 G0 f i j n HC HF Hi Hj Hn.
  destruct (figure_points env L0 G0 f i n HF Hi Hn) as ((t & T1 & T2) & _ & _). destruct (figure_points env L0 G0 f j n HF Hj Hn) as ((u & U1 & U2) & _ & _).
  rewrite T2, U2. do 2 f_equal.
  pose proof (direction_unit i (wave_number n) (wave_number_pos n)) as Di. pose proof (direction_unit j (wave_number n) (wave_number_pos n)) as Dj.
  destruct (direction i) as [[a b] c], (direction j) as [[a' b'] c'].
  rewrite (closed_form_radial env _ _ _ (wave_number n * a') (wave_number n * b') (wave_number n * c') HC) in T1 by congruence. congruence.
Qed.

Lemma radial_value : forall env L0 G0 f j n, closed_form env -> plot_tau env L0 G0 = Ok f -> (j < 4)%nat -> (n < 50)%nat ->
  exists t, eddy_lifetime env (wave_number n) 0 0 = Ok t /\ drawn_lifetime f j n = Some (wave_number n * L0, t).
Proof.
  intros env L0 G0 f j n HC HF Hj Hn. rewrite (curves_coincide env L0 G0 f j 0 n HC HF Hj ltac:(lia) Hn).
  destruct (figure_points env L0 G0 f 0 n HF ltac:(lia) Hn) as ((t & T1 & T2) & _ & _). exists t. split; [|exact T2].
  cbn [direction] in T1. rewrite Rmult_1_r, Rmult_0_r in T1. exact T1.
Qed.

Lemma axis_norm : forall k, 0 < k -> sqrt (kk_of k 0 0) = k.
Proof. intros k Hk. replace (kk_of k 0 0) with (k * k) by (unfold kk_of; ring). apply sqrt_square. lra. Qed.

(** Mann model before calibration: on the reference. *)
Lemma mann_on_reference : forall env L0 G0 f j n, le_type env = MANN -> le_L env = L0 -> le_T env = G0 -> plot_tau env L0 G0 = Ok f -> (j < 4)%nat -> (n < 50)%nat ->
  drawn_lifetime f j n = drawn_reference f n.
Proof.
  intros env L0 G0 f j n HT HL HG HF Hj Hn. assert (HC : closed_form env) by (unfold closed_form; rewrite HT; discriminate).
  destruct (radial_value env L0 G0 f j n HC HF Hj Hn) as (t & T1 & ->). destruct (figure_points env L0 G0 f 0 n HF ltac:(lia) Hn) as (_ & -> & _).
  do 2 f_equal. unfold eddy_lifetime in T1. rewrite HT, HL, HG, axis_norm in T1 by apply wave_number_pos. cbn [bind] in T1. congruence.
Qed.

(** The abscissa and the calibrated length scale. *)
Lemma abscissa_exact : forall env L0 G0 f j n x y, le_type env = TWOTHIRD -> 0 < le_L env -> 0 < le_T env -> 0 < L0 ->
  plot_tau env L0 G0 = Ok f -> (j < 4)%nat -> (n < 50)%nat -> drawn_lifetime f j n = Some (x, y) ->
  (y = le_T env * Rpower x (-2/3) <-> le_L env = L0).
Proof.
  intros env L0 G0 f j n x y HT HL HTT H0 HF Hj Hn HD. assert (HC : closed_form env) by (unfold closed_form; rewrite HT; discriminate).
  destruct (radial_value env L0 G0 f j n HC HF Hj Hn) as (t & T1 & T2). rewrite T2 in HD. injection HD as <- <-.
  unfold eddy_lifetime in T1. rewrite HT, axis_norm in T1 by apply wave_number_pos. cbn [bind] in T1. injection T1 as <-.
  pose proof (wave_number_pos n) as Hk. set (k := wave_number n) in *. split.
  - intros E. apply Rmult_eq_reg_l in E; [|lra]. unfold Rpower in E. apply exp_inv in E.
    assert (E2 : ln (le_L env * k) = ln (k * L0)) by lra. apply ln_inv in E2; [|nra|nra]. apply Rmult_eq_reg_r with k; lra.
  - intros ->. f_equal. f_equal. ring.
Qed.

Lemma abscissa_false : ~ (forall env L0 G0 f j n x y, le_type env = TWOTHIRD -> 0 < le_L env -> 0 < le_T env -> 0 < L0 ->
  plot_tau env L0 G0 = Ok f -> (j < 4)%nat -> (n < 50)%nat -> drawn_lifetime f j n = Some (x, y) ->
  y = le_T env * Rpower x (-2/3)).
Proof.
  intros H. set (env := LEnv TWOTHIRD 2 3 (fun x => x) 0 0 (fun _ => Err RuntimeError)).
  destruct (figure_exists env 1 1 ltac:(discriminate)) as [f Hf].
  destruct (figure_points env 1 1 f 0 0 Hf ltac:(lia) ltac:(lia)) as ((t & _ & Ht) & _).
  specialize (H env 1 1 f 0%nat 0%nat _ _ eq_refl ltac:(cbn; lra) ltac:(cbn; lra) ltac:(lra) Hf ltac:(lia) ltac:(lia) Ht).
  apply (abscissa_exact env 1 1 f 0 0 _ _ eq_refl ltac:(cbn; lra) ltac:(cbn; lra) ltac:(lra) Hf ltac:(lia) ltac:(lia) Ht) in H. cbn in H. lra.
Qed.
