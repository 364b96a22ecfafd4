(** Wave numbers given as integers (C190). *)

From Coq Require Import String Reals List ZArith Bool Lia Lra.
From Coquelicot Require Import Coquelicot.
From Coq Require Import List.
From Verif Require Import Prelude DataModel DataSpec LowModel LowSpec LowMore LowDemo EstSpec AnaFinal IntModel IntProofs.
Import ListNotations.
Open Scope R_scope.

(** C190, refuted: neither the Kaimal data nor the analytical low-frequency spectra are
    determined by the wave numbers. *)
Theorem C190_refuted : (exists odd zref ustar ks ks', values ks = values ks' /\ kaimal_data odd zref ustar ks <> kaimal_data odd zref ustar ks')
  /\ exists odd w B ks ks', values ks = values ks' /\ analytical_data odd exact_quad w B ks <> analytical_data odd exact_quad w B ks'.
Proof. exact typed_refuted. Qed.
Print Assumptions C190_refuted.

(** C190: Kaimal data for integers, none negative, are zero throughout, whatever the height and
    the friction velocity. *)
Theorem C190_kaimal_partial : forall odd zref ustar ns, 0 < zref -> List.Forall (fun n => (0 <= n)%Z) ns ->
  length (kaimal_data odd zref ustar (Ints ns)) = length ns
  /\ forall m, In m (kaimal_data odd zref ustar (Ints ns)) -> finite_matrix m (fun _ _ => 0).
Proof. exact int_kaimal. Qed.
Print Assumptions C190_kaimal_partial.

(** C190: for floating-point numbers the row of each wave number is the documented one. *)
Theorem C190_floats_partial : forall odd zref ustar l, 0 < zref -> List.Forall (fun k => 0 <= k) l ->
  forall i m, nth_error (kaimal_data odd zref ustar (Floats l)) i = Some m ->
  exists k, nth_error l i = Some k /\ forall a b, m a b = kaimal_at zref ustar k a b.
Proof. exact float_kaimal. Qed.
Print Assumptions C190_floats_partial.

(** C190: at integers the analytical spectra lose their fractions. *)
Theorem C190_fractions_partial : forall odd quad w B ns i n, nth_error ns i = Some n ->
  exists z1 z2, nth_error (fst (analytical_data odd quad w B (Ints ns))) i = Some (Fin (IZR z1))
  /\ nth_error (snd (analytical_data odd quad w B (Ints ns))) i = Some (Fin (IZR z2))
  /\ let F := analytical quad w B (IZR n) in
     (0 <= fst F -> IZR z1 <= fst F < IZR z1 + 1) /\ (fst F <= 0 -> IZR z1 - 1 < fst F <= IZR z1)
     /\ (0 <= snd F -> IZR z2 <= snd F < IZR z2 + 1) /\ (snd F <= 0 -> IZR z2 - 1 < snd F <= IZR z2).
Proof. exact int_analytical_at. Qed.
Print Assumptions C190_fractions_partial.

(** C190: beyond a wave number which grows with the limit and the scale of the spectrum,
    integers give zero where floating-point numbers give a positive value. *)
Theorem C190_analytical_partial : forall quad cfg w odd n B, low_construct quad cfg = Ok w -> positive_lengths cfg -> 0 < lc_sigma2 cfg -> lc_L cfg <= 10^6 -> 0 < B ->
  n <> 0%Z -> 1 <= sqrt 2 * Rabs (cos (lc_psi cfg)) * Rabs (IZR n) -> 2 * B * lw_c w < PI * Rabs (IZR n) ->
  analytical_data odd exact_quad w B (Ints [n]) = ([Fin 0], [Fin 0])
  /\ exists F1 F2, analytical_data odd exact_quad w B (Floats [IZR n]) = ([Fin F1], [Fin F2]) /\ 0 < F1 < 1 /\ 0 < F2 < 1.
Proof. exact int_analytical. Qed.
Print Assumptions C190_analytical_partial.

(** At the wave numbers 1, 2, 3, height 10 and friction velocity 2, against positive values for
    floating-point numbers. *)
Example C190_kaimal_case :
  (forall m, In m (kaimal_data 0 10 2 (Ints [1; 2; 3]%Z)) -> finite_matrix m (fun _ _ => 0))
  /\ exists f, (exists m, nth_error (kaimal_data 0 10 2 (Floats [1; 2; 3])) 1 = Some m /\ finite_matrix m f) /\ 0 < f X1 X1 /\ 0 < f X2 X2 /\ 0 < f X3 X3 /\ f X1 X3 < 0.
Proof.
  split.
  - apply C190_kaimal_partial; [lra|]. repeat constructor; lia.
  - destruct (DataProofs.kaimal_signs 10 2 2 ltac:(lra) ltac:(lra) ltac:(lra)) as (f & F & P1 & P2 & P3 & N & _).
    exists f. split; [|auto]. eexists. split; [reflexivity|].
    destruct (C190_floats_partial 0 10 2 [1; 2; 3] ltac:(lra) ltac:(repeat constructor; lra) 1%nat _ eq_refl) as (k & Hk & M).
    cbn in Hk. injection Hk as <-. intros a b. rewrite M. apply F.
Qed.

(** The default limit 5, at 45 degrees. *)
Example C190_analytical_case : exists w n, low_construct unit_quad plane_cfg = Ok w
  /\ analytical_data 0 exact_quad w 5 (Ints [n]) = ([Fin 0], [Fin 0])
  /\ exists F1 F2, analytical_data 0 exact_quad w 5 (Floats [IZR n]) = ([Fin F1], [Fin F2]) /\ 0 < F1 < 1 /\ 0 < F2 < 1.
Proof.
  destruct plane_exists as (w & HC). pose proof PI_RGT_0 as HPI.
  destruct (archimed (10 * lw_c w / PI)) as [A _]. set (n := Z.max 1 (up (10 * lw_c w / PI))).
  assert (N1 : 1 <= IZR n) by (apply (IZR_le 1); unfold n; lia).
  assert (N2 : 10 * lw_c w / PI < IZR n) by (apply Rlt_le_trans with (IZR (up (10 * lw_c w / PI))); [lra | apply IZR_le; unfold n; lia]).
  exists w, n. split; [exact HC|]. apply (C190_analytical_partial unit_quad plane_cfg w 0 n 5 HC plane_positive).
  - cbn; lra.
  - cbn; lra.
  - lra.
  - unfold n; lia.
  - cbn [plane_cfg lc_psi]. rewrite cos_PI4. assert (0 < sqrt 2) by (apply sqrt_lt_R0; lra).
    rewrite !Rabs_pos_eq; [|lra|left; apply Rdiv_lt_0_compat; lra]. replace (sqrt 2 * (1 / sqrt 2)) with 1 by (field; lra). lra.
  - rewrite (Rabs_pos_eq (IZR n)) by lra. apply Rmult_lt_reg_r with (/ PI); [apply Rinv_0_lt_compat; exact HPI|].
    replace (PI * IZR n * / PI) with (IZR n) by (field; lra). unfold Rdiv in N2. lra.
Qed.
