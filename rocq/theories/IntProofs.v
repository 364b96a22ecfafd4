(** Lemmas about arrays of integers (C190). *)

From Coq Require Import String Reals List ZArith Bool Lia Lra.
From Coquelicot Require Import Coquelicot.
From Coq Require Import List.
From Verif Require Import Prelude DataModel DataSpec LowModel LowSpec LowMore LowDemo EstSpec EstProofs QuadTensor AnisoProofs AnaProofs AnaFinal IntModel.
From Verif Require DataProofs.
Import ListNotations.
Open Scope R_scope.

Lemma Rpower_gt : forall x p, 0 < Rpower x p.
Proof. intros x p. unfold Rpower. apply exp_pos. Qed.

Lemma truncate_towards : forall x, (0 <= x -> IZR (truncate x) <= x < IZR (truncate x) + 1) /\ (x <= 0 -> IZR (truncate x) - 1 < x <= IZR (truncate x)).
Proof.
  intros x. unfold truncate, Rleb. destruct (Rle_dec 0 x) as [H|H]; split; intros H'.
  - pose proof (base_Int_part x). lra.
  - assert (x = 0) by lra. subst x. pose proof (base_Int_part 0) as [A B].
    assert (Int_part 0 = 0)%Z as ->; [|lra]. apply le_IZR in A.
    assert (-1 < Int_part 0)%Z by (apply lt_IZR; lra). lia.
  - lra.
  - rewrite opp_IZR. pose proof (base_Int_part (- x)). lra.
Qed.

Lemma truncate_small : forall x, -1 < x < 1 -> truncate x = 0%Z.
Proof.
  intros x Hx. destruct (truncate_towards x) as [A B]. destruct (Rle_dec 0 x) as [H|H].
  - specialize (A H). assert (truncate x < 1)%Z by (apply lt_IZR; lra). assert (-1 < truncate x)%Z by (apply lt_IZR; lra). lia.
  - assert (H' : x <= 0) by lra. specialize (B H').
    assert (truncate x < 1)%Z by (apply lt_IZR; lra). assert (-1 < truncate x)%Z by (apply lt_IZR; lra). lia.
Qed.

(** ** Kaimal *)

Lemma power_above : forall x p, 1 <= p -> 0 <= x -> 1 + p * x <= Rpower (1 + x) p.
Proof.
  intros x p Hp Hx. destruct Hx as [Hx|<-].
  2: { rewrite Rmult_0_r, Rplus_0_r. unfold Rpower. rewrite ln_1, Rmult_0_r, exp_0. lra. }
  assert (M := MVT_gen (fun y => Rpower (1 + y) p) 0 x (fun y => p * Rpower (1 + y) (p - 1))).
  rewrite Rmin_left, Rmax_right in M by lra. destruct M as (c & Hc & E).
  - intros y Hy. unfold Rpower. auto_derive; [lra|].
    replace (exp (p * ln (1 + y))) with (exp ((p - 1) * ln (1 + y)) * (1 + y)).
    + field. lra.
    + rewrite <- (exp_ln (1 + y)) at 2 by lra. rewrite <- exp_plus. f_equal. ring.
  - intros y Hy. apply continuity_pt_filterlim. apply (ex_derive_continuous (fun y => Rpower (1 + y) p)).
    unfold Rpower. auto_derive. lra.
  - rewrite Rplus_0_r in E. assert (E1 : Rpower 1 p = 1) by (unfold Rpower; rewrite ln_1, Rmult_0_r, exp_0; reflexivity).
    rewrite E1, Rminus_0_r in E.
    assert (G : 1 <= Rpower (1 + c) (p - 1)).
    { pose proof (Rle_Rpower (1 + c) 0 (p - 1) ltac:(lra) ltac:(lra)) as G. rewrite Rpower_O in G by lra. exact G. }
    assert (p * 1 <= p * Rpower (1 + c) (p - 1)) by (apply Rmult_le_compat_l; lra).
    assert (p * 1 * x <= p * Rpower (1 + c) (p - 1) * x) by (apply Rmult_le_compat_r; lra). lra.
Qed.

Lemma kmat_small : forall n, 0 < n -> forall i j, -1 < DataProofs.kmat n i j < 1.
Proof.
  intros n Hn.
  assert (Q : forall a A, 0 < A -> 0 < a -> a < A -> 0 < a / A < 1).
  { intros a A HA Ha HaA. split; [apply Rdiv_lt_0_compat; assumption|].
    apply Rmult_lt_reg_r with A; [exact HA|]. unfold Rdiv. rewrite Rmult_assoc, Rinv_l by lra. lra. }
  pose proof (power_above (33 * n) (5/3) ltac:(lra) ltac:(lra)) as P1.
  pose proof (power_above (95/10 * n) (5/3) ltac:(lra) ltac:(lra)) as P2.
  pose proof (power_above (96/10 * n) (12/5) ltac:(lra) ltac:(lra)) as P4.
  assert (P3 : 105 / 100 * n < 1 + 53 / 10 * Rpower n (5/3)).
  { destruct (Rlt_dec n (9/10)) as [H|H]; [pose proof (Rpower_gt n (5/3)); lra|].
    destruct (Rle_dec 1 n) as [H1|H1].
    - assert (n <= Rpower n (5/3)); [|lra]. rewrite <- (Rpower_1 n) at 1 by lra. apply Rle_Rpower; lra.
    - assert (/ n = 1 + (/ n - 1)) as En by ring.
      assert (X : Rpower n 2 <= Rpower n (5/3)).
      { unfold Rpower. assert (ln n < 0) by (pose proof (ln_increasing n 1 ltac:(lra) ltac:(lra)) as G; rewrite ln_1 in G; exact G).
        left. apply exp_increasing. lra. }
      rewrite (Rpower_pow 2) in X by exact Hn. nra. }
  pose proof (Q _ _ (Rpower_gt (1 + 33 * n) (5/3)) (ltac:(lra) : 0 < 525/10 * n) ltac:(lra)).
  pose proof (Q _ _ (Rpower_gt (1 + 95/10 * n) (5/3)) (ltac:(lra) : 0 < 85/10 * n) ltac:(lra)).
  pose proof (Q _ _ (ltac:(lra) : 0 < 1 + 53 / 10 * Rpower n (5/3)) (ltac:(lra) : 0 < 105/100 * n) ltac:(lra)).
  pose proof (Q _ _ (Rpower_gt (1 + 96/10 * n) (12/5)) (ltac:(lra) : 0 < 7 * n) ltac:(lra)).
  assert (E : DataProofs.kuw n = - (7 * n / Rpower (1 + 96/10 * n) (12/5))).
  { unfold DataProofs.kuw. field. pose proof (Rpower_gt (1 + 96/10 * n) (12/5)). lra. }
  intros i j; destruct i, j; cbn [DataProofs.kmat]; try rewrite E; unfold DataProofs.kuu, DataProofs.kvv, DataProofs.kww; lra.
Qed.

Lemma kaimal_zero : forall zref ustar i j, kaimal_at zref ustar 0 i j = Fin 0.
Proof.
  intros zref ustar i j. unfold kaimal_at. cbv zeta. replace (1 / (2 * PI) * 0 * zref) with 0 by ring.
  assert (P0 : xpow 0 (5/3) = Fin 0).
  { unfold xpow. destruct (Rlt_dec 0 0); [lra|]. destruct (Rlt_dec 0 0); [lra|]. destruct (Rlt_dec 0 (5/3)); [reflexivity | lra]. }
  rewrite P0, !Rmult_0_r, Rplus_0_r. rewrite !DataProofs.xpow_pos_base by lra. cbn [xmul xadd].
  assert (P1 : forall p, Rpower 1 p = 1) by (intros p; unfold Rpower; rewrite ln_1, Rmult_0_r, exp_0; reflexivity).
  rewrite !P1, Rmult_0_r, Rplus_0_r, !DataProofs.xdiv_fin by lra.
  destruct i, j; cbn [xmul]; f_equal; field.
Qed.

Lemma kaimal_scaled : forall zref ustar k1, 0 <= k1 -> 0 < zref ->
  exists f, finite_matrix (kaimal_at zref 1 k1) f /\ (forall i j, -1 < f i j < 1) /\ finite_matrix (kaimal_at zref ustar k1) (fun i j => f i j * ustar^2).
Proof.
  intros zref ustar k1 [Hk|<-] Hz.
  - exists (fun i j => DataProofs.kmat (1 / (2 * PI) * k1 * zref) i j). repeat split.
    + intros i j. rewrite DataProofs.kaimal_form by assumption. f_equal. ring.
    + apply kmat_small, DataProofs.kaimal_n_pos; assumption.
    + apply kmat_small, DataProofs.kaimal_n_pos; assumption.
    + intros i j. apply DataProofs.kaimal_form; assumption.
  - exists (fun _ _ => 0). repeat split; try (intros; lra).
    + intros i j. apply kaimal_zero.
    + intros i j. rewrite kaimal_zero. f_equal. ring.
Qed.

Lemma int_kaimal : forall odd zref ustar ns, 0 < zref -> List.Forall (fun n => (0 <= n)%Z) ns ->
  length (kaimal_data odd zref ustar (Ints ns)) = length ns
  /\ forall m, In m (kaimal_data odd zref ustar (Ints ns)) -> finite_matrix m (fun _ _ => 0).
Proof.
  intros odd zref ustar ns Hz Hn. unfold kaimal_data. cbn [values]. split; [rewrite !map_length; reflexivity|].
  intros m Hm. apply in_map_iff in Hm. destruct Hm as (k & <- & Hk). apply in_map_iff in Hk. destruct Hk as (n & <- & Hin).
  rewrite List.Forall_forall in Hn. specialize (Hn n Hin).
  destruct (kaimal_scaled zref ustar (IZR n) (IZR_le _ _ Hn) Hz) as (f & F & B & _).
  intros i j. unfold kaimal_row. rewrite (F i j). cbn [stored xmul]. rewrite truncate_small by apply B. f_equal. ring.
Qed.

Lemma float_kaimal : forall odd zref ustar l, 0 < zref -> List.Forall (fun k => 0 <= k) l ->
  forall i m, nth_error (kaimal_data odd zref ustar (Floats l)) i = Some m -> exists k, nth_error l i = Some k /\ forall a b, m a b = kaimal_at zref ustar k a b.
Proof.
  intros odd zref ustar l Hz Hl i m Hm. unfold kaimal_data in Hm. cbn [values] in Hm.
  rewrite nth_error_map in Hm. destruct (nth_error l i) as [k|] eqn:Ek; [|discriminate]. cbn in Hm. injection Hm as <-.
  exists k. split; [reflexivity|]. rewrite List.Forall_forall in Hl. specialize (Hl k (nth_error_In _ _ Ek)).
  destruct (kaimal_scaled zref ustar k Hl Hz) as (f & F & _ & G). intros a b. unfold kaimal_row. cbn [stored]. rewrite (F a b), (G a b). reflexivity.
Qed.

(** ** The analytical spectra *)

Lemma ana_bound : forall quad cfg w k1 B, low_construct quad cfg = Ok w -> positive_lengths cfg -> 0 < lc_sigma2 cfg -> lc_L cfg <= 10^6 ->
  1 <= sqrt 2 * Rabs (cos (lc_psi cfg)) * Rabs k1 -> 1 <= Rabs k1 -> 0 < B ->
  let F := analytical exact_quad w B k1 in
  0 < fst F <= 2 * B * lw_c w / (PI * Rabs k1) /\ 0 < snd F <= 2 * B * lw_c w / (PI * Rabs k1).
Proof.
  intros quad cfg w k1 B HC HP Hs HL6 Hb Hk1 HB F.
  destruct (c_nonneg quad cfg w HC HP ltac:(lra)) as (Hc0 & Hc & Ew). specialize (Hc Hs). destruct HP as (HL & _).
  pose proof PI_RGT_0 as HPI.
  assert (I10 : / 10^10 <= / 2) by (apply Rinv_le_contravar; lra).
  assert (HS : 0 < sqrt 2) by (apply sqrt_lt_R0; lra).
  assert (HS2 : sqrt 2 <= 2). { rewrite <- (sqrt_square 2) at 2 by lra. apply sqrt_le_1; lra. }
  assert (Hk : / 10^10 <= Rabs k1) by lra.
  assert (Hkc : / 10^10 <= Rabs (k1 * cos (lc_psi cfg))).
  { rewrite Rabs_mult. apply Rle_trans with (/ 2); [exact I10|].
    pose proof (Rabs_pos k1). pose proof (Rabs_pos (cos (lc_psi cfg))).
    assert (0 <= Rabs k1 * Rabs (cos (lc_psi cfg))) by (apply Rmult_le_pos; assumption).
    assert (sqrt 2 * (Rabs k1 * Rabs (cos (lc_psi cfg))) <= 2 * (Rabs k1 * Rabs (cos (lc_psi cfg)))) by (apply Rmult_le_compat_r; assumption). lra. }
  unfold F. rewrite analytical_here by (try exact Hk; lra). cbn [fst snd]. rewrite Ew.
  set (f1 := integrand11 _ _ _ _ _). set (f2 := integrand22 _ _ _ _ _).
  pose proof (here_continuous (lw_c w) (lc_L cfg) (lc_psi cfg) (lc_zi cfg) k1 HL HL6 Hk Hkc) as HCt. fold f1 f2 in HCt.
  pose proof (here_planar (lw_c w) (lc_L cfg) (lc_psi cfg) (lc_zi cfg) k1 HL HL6 Hk Hkc) as HPl. fold f1 f2 in HPl.
  pose proof (here_nonneg (lw_c w) (lc_L cfg) (lc_psi cfg) (lc_zi cfg) k1 Hc0 HL HL6 Hk Hkc) as HNn. fold f1 f2 in HNn.
  assert (Kp : forall x, 0 < planar (lw_c w) (lc_L cfg) (lc_psi cfg) (lc_zi cfg) k1 x <= lw_c w / (PI * Rabs k1)).
  { intros x. pose proof (here_kappa (lc_psi cfg) k1 Hk Hkc x) as K0. pose proof (here_ks (lc_psi cfg) k1 Hk Hkc x) as S0.
    assert (Ks : 1 <= kappa_of (lc_psi cfg) k1 x).
    { eapply Rle_trans; [exact Hb|]. unfold kappa_of. rewrite Rmult_assoc, <- Rabs_mult, <- (sqrt_Rsqr_abs (cos _ * k1)), <- sqrt_mult_alt by lra.
      apply sqrt_le_1_alt. unfold Rsqr. pose proof (pow2_ge_0 (x * sin (lc_psi cfg))). nra. }
    assert (Ss : Rabs k1 <= sqrt (k1^2 + x^2)).
    { rewrite <- sqrt_Rsqr_abs. apply sqrt_le_1_alt. unfold Rsqr. pose proof (pow2_ge_0 x). nra. }
    destruct (E_bound (lw_c w) (lc_L cfg) (lc_zi cfg) _ Hc0 HL K0) as [_ E1].
    pose proof (E_pos (lw_c w) (lc_L cfg) (lc_zi cfg) _ Hc K0) as E0.
    assert (E2 : Rpower (kappa_of (lc_psi cfg) k1 x) (-5/3) <= 1).
    { pose proof (Rle_Rpower (kappa_of (lc_psi cfg) k1 x) (-5/3) 0 Ks ltac:(lra)) as G. rewrite Rpower_O in G by exact K0. exact G. }
    assert (E3 : lw_c w * Rpower (kappa_of (lc_psi cfg) k1 x) (-5/3) <= lw_c w) by (rewrite <- (Rmult_1_r (lw_c w)) at 2; apply Rmult_le_compat_l; lra).
    unfold planar. split.
    - apply Rdiv_lt_0_compat; [exact E0 | apply Rmult_lt_0_compat; lra].
    - unfold Rdiv. apply Rmult_le_compat; [lra | | lra |].
      + left. apply Rinv_0_lt_compat, Rmult_lt_0_compat; lra.
      + apply Rinv_le_contravar; [apply Rmult_lt_0_compat; lra | apply Rmult_le_compat_l; lra]. }
  assert (W : forall x, 0 <= x^2 / (k1^2 + x^2) <= 1 /\ 0 < k1^2 / (k1^2 + x^2) <= 1 /\ (x <> 0 -> 0 < x^2 / (k1^2 + x^2))).
  { intros x. pose proof (here_ks (lc_psi cfg) k1 Hk Hkc x) as S0. pose proof (Rinv_0_lt_compat _ S0) as I0.
    assert (K2 : 0 < k1^2). { rewrite <- pow2_abs. apply pow_lt. lra. }
    pose proof (pow2_ge_0 x). unfold Rdiv.
    assert (Id : (k1^2 + x^2) * / (k1^2 + x^2) = 1) by (apply Rinv_r; lra).
    repeat split.
    - apply Rmult_le_pos; lra.
    - rewrite <- Id. apply Rmult_le_compat_r; lra.
    - apply Rmult_lt_0_compat; lra.
    - rewrite <- Id. apply Rmult_le_compat_r; lra.
    - intros Hx. apply Rmult_lt_0_compat; [apply pow2_gt_0; exact Hx | exact I0]. }
  assert (Up : forall f, (forall x, continuous f x) -> (forall x, f x <= lw_c w / (PI * Rabs k1)) -> RInt f (- B) B <= 2 * B * lw_c w / (PI * Rabs k1)).
  { intros f Cf Hf. set (M := lw_c w / (PI * Rabs k1)) in *.
    replace (2 * B * lw_c w / (PI * Rabs k1)) with ((B - - B) * M) by (unfold M; field; lra).
    assert (HI : is_RInt (fun _ => M) (- B) B ((B - - B) * M)) by (apply (is_RInt_const (- B) B M)).
    rewrite <- (is_RInt_unique _ _ _ _ HI). apply RInt_le; [lra | | eexists; exact HI | intros x _; apply Hf].
    apply (@ex_RInt_continuous R_CompleteNormedModule). intros z _. apply Cf. }
  assert (Dn : forall f, (forall x, continuous f x) -> (forall x, 0 <= f x) -> (forall x, 0 < x -> 0 < f x) -> 0 < RInt f (- B) B).
  { intros f Cf Hf Hf0. assert (Ex : forall a b, ex_RInt f a b).
    { intros a b. apply (@ex_RInt_continuous R_CompleteNormedModule). intros z _. apply Cf. }
    rewrite <- (RInt_Chasles f (- B) 0 B (Ex _ _) (Ex _ _)). change plus with Rplus.
    assert (0 <= RInt f (- B) 0) by (apply RInt_ge_0; [lra | apply Ex | intros x _; apply Hf]).
    assert (0 < RInt f 0 B) by (apply RInt_gt_0; [lra | intros x Hx; apply Hf0; lra | intros x _; apply Cf]). 
    change (0 < RInt f (- B) 0 + RInt f 0 B). lra. }
  split; split.
  - apply Dn; [intros x; apply HCt | intros x; apply HNn |]. intros x Hx. destruct (HPl x) as [-> _].
    apply Rmult_lt_0_compat; [apply Kp | apply W; lra].
  - apply Up; [intros x; apply HCt|]. intros x. destruct (HPl x) as [-> _]. destruct (Kp x) as [K0 K1]. destruct (W x) as ([W0 W1] & _ & _).
    apply Rle_trans with (planar (lw_c w) (lc_L cfg) (lc_psi cfg) (lc_zi cfg) k1 x * 1); [apply Rmult_le_compat_l; lra | lra].
  - apply Dn; [intros x; apply HCt | intros x; apply HNn |]. intros x Hx. destruct (HPl x) as [_ ->].
    apply Rmult_lt_0_compat; [apply Kp | apply W].
  - apply Up; [intros x; apply HCt|]. intros x. destruct (HPl x) as [_ ->]. destruct (Kp x) as [K0 K1]. destruct (W x) as (_ & [W0 W1] & _).
    apply Rle_trans with (planar (lw_c w) (lc_L cfg) (lc_psi cfg) (lc_zi cfg) k1 x * 1); [apply Rmult_le_compat_l; lra | lra].
Qed.

Lemma int_analytical : forall quad cfg w odd n B, low_construct quad cfg = Ok w -> positive_lengths cfg -> 0 < lc_sigma2 cfg -> lc_L cfg <= 10^6 -> 0 < B ->
  n <> 0%Z -> 1 <= sqrt 2 * Rabs (cos (lc_psi cfg)) * Rabs (IZR n) -> 2 * B * lw_c w < PI * Rabs (IZR n) ->
  analytical_data odd exact_quad w B (Ints [n]) = ([Fin 0], [Fin 0])
  /\ exists F1 F2, analytical_data odd exact_quad w B (Floats [IZR n]) = ([Fin F1], [Fin F2]) /\ 0 < F1 < 1 /\ 0 < F2 < 1.
Proof.
  intros quad cfg w odd n B HC HP Hs HL6 HB Hn Hb Hc.
  assert (H1 : 1 <= Rabs (IZR n)) by (rewrite <- abs_IZR; apply IZR_le; lia).
  destruct (ana_bound quad cfg w (IZR n) B HC HP Hs HL6 Hb H1 HB) as [[A1 A2] [A3 A4]].
  pose proof PI_RGT_0 as HPI.
  assert (U : 2 * B * lw_c w / (PI * Rabs (IZR n)) < 1).
  { assert (D : 0 < PI * Rabs (IZR n)) by (apply Rmult_lt_0_compat; lra).
    apply Rmult_lt_reg_r with (PI * Rabs (IZR n)); [exact D|]. unfold Rdiv. rewrite Rmult_assoc, Rinv_l by lra. lra. }
  unfold analytical_data. cbn [values map stored]. split.
  - rewrite !truncate_small by lra. reflexivity.
  - do 2 eexists. split; [reflexivity | lra].
Qed.

(** Positions of the returned spectra. *)
Lemma int_analytical_at : forall odd quad w B ns i n, nth_error ns i = Some n ->
  exists z1 z2, nth_error (fst (analytical_data odd quad w B (Ints ns))) i = Some (Fin (IZR z1))
  /\ nth_error (snd (analytical_data odd quad w B (Ints ns))) i = Some (Fin (IZR z2))
  /\ let F := analytical quad w B (IZR n) in
     (0 <= fst F -> IZR z1 <= fst F < IZR z1 + 1) /\ (fst F <= 0 -> IZR z1 - 1 < fst F <= IZR z1)
     /\ (0 <= snd F -> IZR z2 <= snd F < IZR z2 + 1) /\ (snd F <= 0 -> IZR z2 - 1 < snd F <= IZR z2).
Proof.
  intros odd quad w B ns i n Hn. unfold analytical_data. cbn [fst snd values stored].
  exists (truncate (fst (analytical quad w B (IZR n)))), (truncate (snd (analytical quad w B (IZR n)))).
  rewrite !map_map, !nth_error_map, Hn. cbn [option_map]. split; [reflexivity|]. split; [reflexivity|].
  destruct (truncate_towards (fst (analytical quad w B (IZR n)))). destruct (truncate_towards (snd (analytical quad w B (IZR n)))).
  cbv zeta. tauto.
Qed.

Lemma typed_refuted : (exists odd zref ustar ks ks', values ks = values ks' /\ kaimal_data odd zref ustar ks <> kaimal_data odd zref ustar ks')
  /\ exists odd w B ks ks', values ks = values ks' /\ analytical_data odd exact_quad w B ks <> analytical_data odd exact_quad w B ks'.
Proof.
  split.
  - exists 0%Z, 1, 1, (Ints [1%Z]), (Floats [1]). split; [reflexivity|]. intros E.
    destruct (int_kaimal 0 1 1 [1%Z] ltac:(lra) ltac:(repeat constructor; lia)) as [_ Z].
    destruct (float_kaimal 0 1 1 [1] ltac:(lra) ltac:(repeat constructor; lra) 0%nat _ eq_refl) as (k & Hk & M).
    cbn in Hk. injection Hk as <-.
    destruct (DataProofs.kaimal_signs 1 1 1 ltac:(lra) ltac:(lra) ltac:(lra)) as (f & F & P & _).
    assert (I : In (kaimal_row 0 (Floats [1]) 1 1 1) (kaimal_data 0 1 1 (Ints [1%Z]))) by (rewrite E; left; reflexivity).
    pose proof (Z _ I X1 X1) as Z1. rewrite (M X1 X1), (F X1 X1) in Z1. apply DataProofs.Fin_inj in Z1. lra.
  - destruct plane_exists as (w & HC). pose proof PI_RGT_0 as HPI.
    destruct (c_nonneg unit_quad plane_cfg w HC plane_positive) as (Hc0 & _ & _); [cbn; lra|].
    destruct (archimed (2 * lw_c w / PI)) as [A _]. set (n := Z.max 1 (up (2 * lw_c w / PI))).
    assert (N1 : 1 <= IZR n) by (apply (IZR_le 1); unfold n; lia).
    assert (N2 : 2 * lw_c w / PI < IZR n) by (apply Rlt_le_trans with (IZR (up (2 * lw_c w / PI))); [lra | apply IZR_le; unfold n; lia]).
    destruct (int_analytical unit_quad plane_cfg w 0 n 1 HC plane_positive) as (E & F1 & F2 & E' & HF & _).
    + cbn; lra.
    + cbn; lra.
    + lra.
    + unfold n; lia.
    + cbn [plane_cfg lc_psi]. rewrite cos_PI4. assert (0 < sqrt 2) by (apply sqrt_lt_R0; lra).
      rewrite !Rabs_pos_eq; [|lra|left; apply Rdiv_lt_0_compat; lra]. replace (sqrt 2 * (1 / sqrt 2)) with 1 by (field; lra). lra.
    + rewrite (Rabs_pos_eq (IZR n)) by lra. apply Rmult_lt_reg_r with (/ PI); [apply Rinv_0_lt_compat; exact HPI|].
      replace (PI * IZR n * / PI) with (IZR n) by (field; lra). unfold Rdiv in N2. lra.
    + exists 0%Z, w, 1, (Ints [n]), (Floats [IZR n]). split; [reflexivity|]. rewrite E, E'. intros Q. injection Q. lra.
Qed.
