(** Property theorems relating the generated von Karman data to the spectra of the
    model without shear. *)

From Coq Require Import Reals List Lra Lia.
From Coquelicot Require Import Coquelicot.
From Verif Require Import Prelude RdtModel SpectraModel OpsModel DataModel RdtSpec OpsSpec QuadSpec DataSpec VkSpec
  DataProofs VkFinal.
Open Scope R_scope.

(** C156: over a square of half-width B of cross-stream wave numbers the exact integral of
    every entry of the shear-free tensor is the generated value, up to an explicit
    bound on the part outside the square. *)
Theorem C156_exact_integral : forall e L C k1 B m f i j,
  shear_free_model e L C k1 -> 0 < L -> k1 <> 0 -> 0 < B ->
  von_karman_at L C k1 = Ok m -> finite_matrix m f ->
  Rabs (k1 * box_integral (undelivered (fun t => entry t i j) e k1) B - f i j)
  <= 3/10 * Rabs (k1 * C) * Rpower (/ L^2 + k1^2 + B^2) (- (5/6)).
Proof. exact exact_near_data. Qed.
Print Assumptions C156_exact_integral.

(** C156: hence the quadrature of the unclipped entries comes arbitrarily close to
    the data on wide and fine grids. *)
Theorem C156_quadrature : forall e L C k1 m f i j,
  shear_free_model e L C k1 -> 0 < L -> k1 <> 0 ->
  von_karman_at L C k1 = Ok m -> finite_matrix m f ->
  forall eps, 0 < eps -> exists P2, forall p2, P2 <= p2 ->
  exists P1, forall p1, p1 <= P1 -> exists N0, forall N, (N0 <= N)%nat ->
  Rabs (ops_forward_raw (fun t => entry t i j) e p1 p2 N k1 - f i j) <= eps.
Proof. exact raw_reaches_data. Qed.
Print Assumptions C156_quadrature.

(** C156: the delivered rows uu, vv, ww and uw meet the data on fine grids up to the
    part outside the square and the clipping constant times the area. *)
Theorem C156_output : forall e L C k1 p2 m f i j,
  shear_free_model e L C k1 -> 0 < L -> 0 <= C -> 0 < k1 ->
  i = j \/ (i = X1 /\ j = X3) ->
  von_karman_at L C k1 = Ok m -> finite_matrix m f ->
  forall eps, 0 < eps -> exists P1, forall p1, p1 <= P1 -> exists N0, forall N, (N0 <= N)%nat ->
  Rabs (ops_forward (fun t => entry t i j) e p1 p2 N k1 - f i j)
  <= eps + k1 * (/ 10^12 * (2 * Rpower 10 p2)^2)
     + 3/10 * (k1 * C) * Rpower (/ L^2 + k1^2 + Rpower 10 p2 ^ 2) (- (5/6)).
Proof. exact output_near_data. Qed.
Print Assumptions C156_output.

(** C156: two sets of data whose uu values agree at two wave numbers were generated
    with the same length scale and magnitude. *)
Theorem C156_identify : forall L C L' C' k1 k1' m f m' f' n g n' g',
  0 < L -> 0 < L' -> C <> 0 -> 0 < k1 -> 0 < k1' -> k1 <> k1' ->
  von_karman_at L C k1 = Ok m -> finite_matrix m f -> von_karman_at L' C' k1 = Ok m' -> finite_matrix m' f' ->
  von_karman_at L C k1' = Ok n -> finite_matrix n g -> von_karman_at L' C' k1' = Ok n' -> finite_matrix n' g' ->
  f X1 X1 = f' X1 X1 -> g X1 X1 = g' X1 X1 -> L = L' /\ C = C'.
Proof. exact data_identify. Qed.
Print Assumptions C156_identify.

(** A model with unit length and magnitude: over the square of the default upper
    exponent 3 the uu integral is within 3e-6 of the data value. *)
Example C156_case :
  let e := OpsEnv 1 1 vklike_energy (fun _ _ _ => 0) in
  shear_free_model e 1 1 1 /\
  Rabs (1 * box_integral (undelivered (fun t => entry t X1 X1) e 1) 1000 - 9/55 / Rpower 2 (5/6)) <= 3 / 10^6.
Proof.
  intros e.
  assert (He : shear_free_model e 1 1 1) by (repeat split).
  split; [exact He|].
  destruct (vk_published 1 1 1 ltac:(lra)) as (m & Hm & Hf).
  assert (H := C156_exact_integral e 1 1 1 1000 m _ X1 X1 He ltac:(lra) ltac:(lra) ltac:(lra) Hm Hf).
  cbv beta iota in H. replace (/ 1^2 + 1^2) with 2 in H by field. rewrite !Rmult_1_r, Rabs_R1 in H.
  rewrite !Rmult_1_l in H. rewrite Rmult_1_l.
  eapply Rle_trans; [exact H|].
  assert (Hp : Rpower (2 + 1000^2) (- (5/6)) <= / 10^5).
  { rewrite Rpower_Ropp. apply Rinv_le_contravar; [apply pow_lt; lra|].
    apply Rle_trans with (Rpower (10^6) (5/6)).
    - right. rewrite <- (Rpower_pow 6 10) by lra. rewrite Rpower_mult.
      rewrite <- (Rpower_pow 5 10) by lra. f_equal. simpl. field.
    - apply Rle_Rpower_l; [lra|]. split; [apply pow_lt; lra | lra]. }
  apply Rle_trans with (3/10 * 1 * / 10^5); [|right; field].
  rewrite Rmult_1_r. apply Rmult_le_compat_l; [lra | exact Hp].
Qed.
