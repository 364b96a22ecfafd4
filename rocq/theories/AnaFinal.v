(** The analytical low-frequency spectra and their limits (C165). *)

From Coq Require Import String Reals List ZArith Bool Lia Lra.
From Coquelicot Require Import Coquelicot.
From Verif Require Import Prelude GenModel GenSpec DftModel DftSpec LowModel LowSpec LowProofs LowMore LowSpectrum LowCov LowDemo QuadTensor AnisoProofs EstSpec EstProofs EstRiemann EstLimit AnaProofs.
Import ListNotations.
Open Scope R_scope.

Lemma analytical_here : forall w B k1, 0 <= B -> / 10^10 <= Rabs k1 ->
  analytical exact_quad w B k1 =
    (RInt (integrand11 (lw_c w) (lc_L (lw_cfg w)) (lc_psi (lw_cfg w)) (lc_zi (lw_cfg w)) k1) (- B) B,
     RInt (integrand22 (lw_c w) (lc_L (lw_cfg w)) (lc_psi (lw_cfg w)) (lc_zi (lw_cfg w)) k1) (- B) B).
Proof.
  intros w B k1 HB Hk. unfold analytical, exact_quad. rewrite (Rabs_pos_eq B) by exact HB.
  assert (T15 : / 10^15 <= / 10^10) by (apply Rinv_le_contravar; lra).
  rewrite (proj2 (Rltb_false (Rabs k1) (/ 10^15))) by lra. reflexivity.
Qed.

Lemma c_nonneg : forall quad cfg w, low_construct quad cfg = Ok w -> positive_lengths cfg -> 0 <= lc_sigma2 cfg ->
  0 <= lw_c w /\ (0 < lc_sigma2 cfg -> 0 < lw_c w) /\ lw_cfg w = cfg.
Proof.
  intros quad cfg w HC HP Hs. destruct (low_constructed quad cfg w HC HP) as (E & _ & HQ & Ec & _).
  assert (P : 0 < / 10^16) by (apply Rinv_0_lt_compat; lra).
  rewrite Ec. split; [|split; [|exact E]].
  - apply Rmult_le_pos; [exact Hs | left; apply Rinv_0_lt_compat; lra].
  - intros H0. apply Rdiv_lt_0_compat; lra.
Qed.

Lemma ana_truncation : forall quad cfg w k1 B B', low_construct quad cfg = Ok w -> positive_lengths cfg -> 0 <= lc_sigma2 cfg -> lc_L cfg <= 10^6 ->
  / 10^10 <= Rabs k1 -> / 10^10 <= Rabs (k1 * cos (lc_psi cfg)) -> sin (lc_psi cfg) <> 0 -> 0 < B -> B <= B' ->
  let F l := analytical exact_quad w l k1 in
  let a := sqrt 2 * Rabs (sin (lc_psi cfg)) in
  fst (F B) <= fst (F B') <= fst (F B) + 6 / (5 * PI) * lw_c w * Rpower (a * B) (-5/3)
  /\ snd (F B) <= snd (F B') <= snd (F B) + 6 / (11 * PI) * lw_c w * (k1 / B)^2 * Rpower (a * B) (-5/3).
Proof.
  intros quad cfg w k1 B B' HC HP Hs HL6 Hk Hkc Hsin HB HBB F a.
  destruct (c_nonneg quad cfg w HC HP Hs) as (Hc & _ & Ew). destruct HP as (HL & _).
  unfold F. rewrite !analytical_here by (try exact Hk; lra). cbn [fst snd]. rewrite Ew.
  apply (truncated (lw_c w) (lc_L cfg) (lc_psi cfg) (lc_zi cfg) k1 Hc HL HL6 Hk Hkc Hsin B B' HB HBB).
Qed.

(** A function which grows, by at most a bound that vanishes, has a limit. *)
Lemma bounded_limit : forall (F : R -> R) (e : R -> R), (forall B B', 0 < B -> B <= B' -> F B <= F B' <= F B + e B) ->
  exists l, is_lim F p_infty l /\ forall B, 0 < B -> F B <= l <= F B + e B.
Proof.
  intros F e HF.
  destruct (completeness (fun y => exists B, 1 <= B /\ y = F B)) as (l & Hub & Hlub).
  - exists (F 1 + e 1). intros y (B & HB & ->). destruct (HF 1 B); lra.
  - exists (F 1), 1. split; [lra | reflexivity].
  - assert (Hle : forall B, 0 < B -> F B <= l).
    { intros B HB. destruct (Rle_dec 1 B) as [H1|H1].
      - apply Hub. exists B. split; [exact H1 | reflexivity].
      - apply Rle_trans with (F 1); [apply HF; lra | apply Hub; exists 1; split; [lra | reflexivity]]. }
    exists l. split.
    + apply is_lim_spec. intros eps.
      assert (Hex : exists B0, 1 <= B0 /\ l - eps < F B0).
      { apply Classical_Prop.NNPP. intros Hn.
        assert (l <= l - eps); [|destruct eps as [ee Hee]; cbn in *; lra].
        apply Hlub. intros y (B & HB & ->). apply Rnot_lt_le. intros Hlt. apply Hn. exists B. split; assumption. }
      destruct Hex as (B0 & H1 & H2). exists B0. intros x Hx.
      assert (F B0 <= F x) by (apply HF; lra). assert (F x <= l) by (apply Hle; lra).
      apply Rabs_def1; lra.
    + intros B HB. split; [apply Hle, HB|]. apply Hlub. intros y (B' & HB' & ->).
      destruct (Rle_dec B B') as [H1|H1]; [apply HF; lra|].
      apply Rle_trans with (F B); [apply HF; lra|].
      assert (F B <= F B <= F B + e B) by (apply HF; lra). lra.
Qed.

Lemma ana_limit : forall quad cfg w k1, low_construct quad cfg = Ok w -> positive_lengths cfg -> 0 <= lc_sigma2 cfg -> lc_L cfg <= 10^6 ->
  / 10^10 <= Rabs k1 -> / 10^10 <= Rabs (k1 * cos (lc_psi cfg)) -> sin (lc_psi cfg) <> 0 ->
  let F l := analytical exact_quad w l k1 in
  let a := sqrt 2 * Rabs (sin (lc_psi cfg)) in
  exists F1 F2, is_lim (fun l => fst (F l)) p_infty F1 /\ is_lim (fun l => snd (F l)) p_infty F2
  /\ forall B, 0 < B ->
     fst (F B) <= F1 <= fst (F B) + 6 / (5 * PI) * lw_c w * Rpower (a * B) (-5/3)
     /\ snd (F B) <= F2 <= snd (F B) + 6 / (11 * PI) * lw_c w * (k1 / B)^2 * Rpower (a * B) (-5/3).
Proof.
  intros quad cfg w k1 HC HP Hs HL6 Hk Hkc Hsin F a.
  assert (T : forall B B', 0 < B -> B <= B' -> _) by (intros B B' HB HBB; exact (ana_truncation quad cfg w k1 B B' HC HP Hs HL6 Hk Hkc Hsin HB HBB)).
  cbv zeta in T. fold a in T.
  destruct (bounded_limit (fun l => fst (F l)) _ (fun B B' HB HBB => proj1 (T B B' HB HBB))) as (l1 & L1 & M1).
  destruct (bounded_limit (fun l => snd (F l)) _ (fun B B' HB HBB => proj2 (T B B' HB HBB))) as (l2 & L2 & M2).
  exists l1, l2. split; [exact L1|]. split; [exact L2|]. intros B HB. split; [apply M1, HB | apply M2, HB].
Qed.

(** ** Small wave numbers *)

Lemma E_small : forall c L zi x, 0 <= c -> 0 < L -> 0 < x -> E_exact c L zi x <= c * Rpower L (14/3) * x^3.
Proof.
  intros c L zi x Hc HL Hx. unfold E_exact.
  assert (HL2 : 0 < / L^2) by (apply Rinv_0_lt_compat, pow_lt; exact HL).
  assert (Hx2 : 0 < x^2) by (apply pow_lt; exact Hx). assert (Hx3 : 0 < x^3) by (apply pow_lt; exact Hx).
  assert (HP : 0 < Rpower L (14/3)) by (unfold Rpower; apply exp_pos).
  assert (HD1 : / Rpower L (14/3) <= Rpower (/ L^2 + x^2) (7/3)).
  { replace (/ Rpower L (14/3)) with (Rpower (/ L^2) (7/3)).
    - apply Rle_Rpower_l; lra.
    - replace (/ L^2) with (Rpower L (Ropp 2)).
      + rewrite Rpower_mult, <- Rpower_Ropp. f_equal. lra.
      + rewrite Rpower_Ropp. f_equal. replace 2 with (INR 2) by reflexivity. rewrite Rpower_pow by exact HL. reflexivity. }
  assert (Hz : 1 <= 1 + x^2 * zi^2) by (pose proof (pow2_ge_0 zi); nra).
  assert (HPi : 0 < / Rpower L (14/3)) by (apply Rinv_0_lt_compat; exact HP).
  assert (HD : / Rpower L (14/3) <= Rpower (/ L^2 + x^2) (7/3) * (1 + x^2 * zi^2)).
  { rewrite <- (Rmult_1_r (/ Rpower L (14/3))). apply Rmult_le_compat; lra. }
  unfold Rdiv at 1. replace (c * Rpower L (14/3) * x^3) with (c * x^3 * / / Rpower L (14/3)) by (rewrite Rinv_inv; ring).
  apply Rmult_le_compat_l; [apply Rmult_le_pos; lra|]. apply Rinv_le_contravar; assumption.
Qed.

Lemma kappa_le : forall psi k1 x, kappa_of psi k1 x <= sqrt 2 * sqrt (k1^2 + x^2).
Proof.
  intros psi k1 x. unfold kappa_of. rewrite <- sqrt_mult by (try lra; pose proof (pow2_ge_0 k1); pose proof (pow2_ge_0 x); lra).
  apply sqrt_le_1_alt. pose proof (sin2_cos2 psi) as Q. unfold Rsqr in Q. pose proof (pow2_ge_0 k1). pose proof (pow2_ge_0 x).
  apply Rmult_le_compat_l; [lra|].
  assert (C : (k1 * cos psi)^2 <= k1^2) by (replace ((k1 * cos psi)^2) with (k1^2 * (cos psi * cos psi)) by ring; pose proof (pow2_ge_0 (sin psi)); nra).
  assert (S : (x * sin psi)^2 <= x^2) by (replace ((x * sin psi)^2) with (x^2 * (sin psi * sin psi)) by ring; pose proof (pow2_ge_0 (cos psi)); nra).
  lra.
Qed.

Lemma ana_small : forall quad cfg w k1 B, low_construct quad cfg = Ok w -> positive_lengths cfg -> 0 <= lc_sigma2 cfg -> lc_L cfg <= 10^6 ->
  / 10^10 <= Rabs k1 -> / 10^10 <= Rabs (k1 * cos (lc_psi cfg)) -> 0 < B ->
  0 <= snd (analytical exact_quad w B k1) <= 2 * sqrt 2 ^ 3 / PI * lw_c w * Rpower (lc_L cfg) (14/3) * B * k1^2.
Proof.
  intros quad cfg w k1 B HC HP Hs HL6 Hk Hkc HB.
  destruct (c_nonneg quad cfg w HC HP Hs) as (Hc & _ & Ew). destruct HP as (HL & _).
  rewrite analytical_here by (try exact Hk; lra). cbn [snd]. rewrite Ew.
  set (f := integrand22 _ _ _ _ _). pose proof PI_RGT_0 as HPI.
  assert (Hx : ex_RInt f (- B) B).
  { apply (@ex_RInt_continuous R_CompleteNormedModule). intros z _.
    apply (here_continuous (lw_c w) (lc_L cfg) (lc_psi cfg) (lc_zi cfg) k1 HL HL6 Hk Hkc z). }
  split.
  - apply RInt_ge_0; [lra | exact Hx |]. intros x _.
    apply (here_nonneg (lw_c w) (lc_L cfg) (lc_psi cfg) (lc_zi cfg) k1 Hc HL HL6 Hk Hkc x).
  - set (M := sqrt 2 ^ 3 / PI * lw_c w * Rpower (lc_L cfg) (14/3) * k1^2).
    replace (2 * sqrt 2 ^ 3 / PI * lw_c w * Rpower (lc_L cfg) (14/3) * B * k1^2) with ((B - - B) * M) by (unfold M; field; lra).
    assert (HI : is_RInt (fun _ => M) (- B) B ((B - - B) * M)) by (apply (is_RInt_const (- B) B M)).
    rewrite <- (is_RInt_unique _ _ _ _ HI). apply RInt_le; [lra | exact Hx | eexists; exact HI |].
    intros x _. unfold f.
    destruct (here_planar (lw_c w) (lc_L cfg) (lc_psi cfg) (lc_zi cfg) k1 HL HL6 Hk Hkc x) as [_ ->].
    pose proof (here_kappa (lc_psi cfg) k1 Hk Hkc x) as Kp. pose proof (here_ks (lc_psi cfg) k1 Hk Hkc x) as Ks.
    set (s := sqrt (k1^2 + x^2)) in *. assert (Hsp : 0 < s) by (apply sqrt_lt_R0; exact Ks).
    assert (Es : k1^2 + x^2 = s^2) by (unfold s; rewrite pow2_sqrt by lra; reflexivity).
    unfold planar. fold s. rewrite Es.
    pose proof (E_small (lw_c w) (lc_L cfg) (lc_zi cfg) _ Hc HL Kp) as E1.
    assert (E2 : kappa_of (lc_psi cfg) k1 x ^ 3 <= (sqrt 2 * s)^3) by (apply pow_incr; split; [lra | apply kappa_le]).
    assert (HLp : 0 < Rpower (lc_L cfg) (14/3)) by (unfold Rpower; apply exp_pos).
    assert (E3 : E_exact (lw_c w) (lc_L cfg) (lc_zi cfg) (kappa_of (lc_psi cfg) k1 x) <= lw_c w * Rpower (lc_L cfg) (14/3) * (sqrt 2 * s)^3).
    { eapply Rle_trans; [exact E1|]. apply Rmult_le_compat_l; [apply Rmult_le_pos; lra | exact E2]. }
    apply Rle_trans with (lw_c w * Rpower (lc_L cfg) (14/3) * (sqrt 2 * s)^3 / (PI * s) * (k1^2 / s^2)).
    + apply Rmult_le_compat_r; [apply Rmult_le_pos; [apply pow2_ge_0 | left; apply Rinv_0_lt_compat, pow_lt; exact Hsp]|].
      apply Rmult_le_compat_r; [left; apply Rinv_0_lt_compat, Rmult_lt_0_compat; assumption | exact E3].
    + right. unfold M. field. lra.
Qed.

(** ** The degenerate angle *)

Lemma inv_int : forall B B', 0 < B -> B <= B' -> is_RInt (fun x => / x) B B' (ln B' - ln B).
Proof.
  intros B B' HB HBB. apply (is_RInt_derive ln).
  - intros x Hx. rewrite Rmin_left, Rmax_right in Hx by lra. auto_derive; [lra | field; lra].
  - intros x Hx. rewrite Rmin_left, Rmax_right in Hx by lra.
    apply continuous_Rinv. lra.
Qed.

Lemma ana_degenerate : forall quad cfg w k1 B, low_construct quad cfg = Ok w -> positive_lengths cfg -> 0 <= lc_sigma2 cfg -> lc_L cfg <= 10^6 ->
  / 10^10 <= Rabs k1 -> sin (lc_psi cfg) = 0 -> Rabs k1 <= B ->
  E_exact (lw_c w) (lc_L cfg) (lc_zi cfg) (sqrt 2 * Rabs k1) / (sqrt 2 * PI) * ln (B / Rabs k1) <= fst (analytical exact_quad w B k1).
Proof.
  intros quad cfg w k1 B HC HP Hs HL6 Hk Hsin HB.
  destruct (c_nonneg quad cfg w HC HP Hs) as (Hc & _ & Ew). destruct HP as (HL & _).
  assert (P10 : 0 < / 10^10) by (apply Rinv_0_lt_compat; lra). set (q := Rabs k1) in *.
  assert (Hcos : Rabs (cos (lc_psi cfg)) = 1).
  { pose proof (sin2_cos2 (lc_psi cfg)) as Q. rewrite Hsin in Q. unfold Rsqr in Q.
    assert (Q2 : (cos (lc_psi cfg) - 1) * (cos (lc_psi cfg) + 1) = 0) by lra.
    apply Rmult_integral in Q2. destruct Q2 as [Q2|Q2].
    - replace (cos (lc_psi cfg)) with 1 by lra. apply Rabs_R1.
    - replace (cos (lc_psi cfg)) with (- (1)) by lra. rewrite Rabs_Ropp. apply Rabs_R1. }
  assert (Hkc : / 10^10 <= Rabs (k1 * cos (lc_psi cfg))) by (rewrite Rabs_mult, Hcos, Rmult_1_r; exact Hk).
  rewrite analytical_here by (try exact Hk; lra). cbn [fst]. rewrite Ew.
  set (f := integrand11 _ _ _ _ _). pose proof PI_RGT_0 as HPI. assert (HS2 : 0 < sqrt 2) by (apply sqrt_lt_R0; lra).
  assert (Cf : forall x, continuous f x) by (intros z; apply (here_continuous (lw_c w) (lc_L cfg) (lc_psi cfg) (lc_zi cfg) k1 HL HL6 Hk Hkc z)).
  assert (Nf : forall x, 0 <= f x) by (intros x; apply (here_nonneg (lw_c w) (lc_L cfg) (lc_psi cfg) (lc_zi cfg) k1 Hc HL HL6 Hk Hkc x)).
  assert (Ef : forall x, f (- x) = f x) by (intros x; apply integrand_even).
  assert (Hx : forall a b, ex_RInt f a b) by (intros a b; apply (@ex_RInt_continuous R_CompleteNormedModule); intros z _; apply Cf).
  set (E := E_exact (lw_c w) (lc_L cfg) (lc_zi cfg) (sqrt 2 * q)).
  rewrite (even_split f q B Cf Ef).
  assert (H0 : 0 <= RInt f (- q) q) by (apply RInt_ge_0; [lra | apply Hx | intros x _; apply Nf]).
  assert (HE0 : 0 <= E) by (apply E_bound; [exact Hc | exact HL | apply Rmult_lt_0_compat; lra]).
  set (M := E / (2 * sqrt 2 * PI)).
  assert (HI : is_RInt (fun x => M * / x) q B (M * (ln B - ln q))).
  { apply (is_RInt_scal (fun x => / x) q B M). apply inv_int; lra. }
  assert (H1 : M * (ln B - ln q) <= RInt f q B).
  { rewrite <- (is_RInt_unique _ _ _ _ HI). apply RInt_le; [lra | eexists; exact HI | apply Hx |].
    intros x Hxx. unfold f.
    destruct (here_planar (lw_c w) (lc_L cfg) (lc_psi cfg) (lc_zi cfg) k1 HL HL6 Hk Hkc x) as [-> _].
    assert (Ek : kappa_of (lc_psi cfg) k1 x = sqrt 2 * q).
    { unfold kappa_of. rewrite Hsin, Rmult_0_r. replace (2 * ((k1 * cos (lc_psi cfg))^2 + 0^2)) with (2 * (q * q)).
      - rewrite sqrt_mult, sqrt_square by nra. reflexivity.
      - unfold q. rewrite <- (Rmult_1_r (Rabs k1)), <- Hcos, <- Rabs_mult. rewrite <- (pow2_abs (k1 * cos (lc_psi cfg))). ring. }
    unfold planar. rewrite Ek. fold E.
    assert (Eq : k1^2 = q^2) by (unfold q; rewrite pow2_abs; reflexivity). rewrite Eq.
    assert (Hq0 : 0 < q) by lra. assert (Hq2 : q * q <= x * x) by (apply Rmult_le_compat; lra). assert (Hq3 : 0 < q * q) by (apply Rmult_lt_0_compat; lra).
    clear - Hq0 Hq2 Hq3 Hxx HPI HS2 HE0.
    assert (Hs1 : sqrt (q^2 + x^2) <= sqrt 2 * x).
    { apply Rle_trans with (sqrt (2 * (x * x))); [apply sqrt_le_1_alt; simpl; lra|]. rewrite sqrt_mult, sqrt_square by lra. lra. }
    assert (Hs0 : 0 < sqrt (q^2 + x^2)) by (apply sqrt_lt_R0; lra).
    assert (Hf : 1 / 2 <= x^2 / (q^2 + x^2)).
    { apply Rmult_le_reg_r with (q^2 + x^2); [lra|]. replace (x^2 / (q^2 + x^2) * (q^2 + x^2)) with (x^2) by (field; lra). lra. }
    unfold M. apply Rle_trans with (E * / (PI * (sqrt 2 * x)) * (1/2)).
    - right. field. lra.
    - apply Rmult_le_compat; [| lra | | exact Hf].
      + apply Rmult_le_pos; [exact HE0 | left; apply Rinv_0_lt_compat; apply Rmult_lt_0_compat; [lra | apply Rmult_lt_0_compat; lra]].
      + apply Rmult_le_compat_l; [exact HE0|]. apply Rinv_le_contravar; [apply Rmult_lt_0_compat; lra | apply Rmult_le_compat_l; lra]. }
  rewrite ln_div by lra.
  replace (E / (sqrt 2 * PI) * (ln B - ln q)) with (2 * (M * (ln B - ln q))) by (unfold M; field; lra). lra.
Qed.

Lemma E_pos : forall c L zi x, 0 < c -> 0 < x -> 0 < E_exact c L zi x.
Proof.
  intros c L zi x Hc Hx. unfold E_exact. apply Rdiv_lt_0_compat; [apply Rmult_lt_0_compat; [exact Hc | apply pow_lt; exact Hx]|].
  apply Rmult_lt_0_compat; [unfold Rpower; apply exp_pos|]. pose proof (pow2_ge_0 x). pose proof (pow2_ge_0 zi). nra.
Qed.

(** No finite limit at the degenerate angle. *)
Lemma ana_unbounded : forall quad cfg w k1, low_construct quad cfg = Ok w -> positive_lengths cfg -> 0 < lc_sigma2 cfg -> lc_L cfg <= 10^6 ->
  / 10^10 <= Rabs k1 -> sin (lc_psi cfg) = 0 ->
  forall M, exists B0, forall B, B0 <= B -> M <= fst (analytical exact_quad w B k1).
Proof.
  intros quad cfg w k1 HC HP Hs HL6 Hk Hsin M.
  destruct (c_nonneg quad cfg w HC HP ltac:(lra)) as (_ & Hc & _). specialize (Hc Hs).
  assert (P10 : 0 < / 10^10) by (apply Rinv_0_lt_compat; lra). pose proof PI_RGT_0 as HPI. assert (HS2 : 0 < sqrt 2) by (apply sqrt_lt_R0; lra).
  set (q := Rabs k1) in *. set (D := E_exact (lw_c w) (lc_L cfg) (lc_zi cfg) (sqrt 2 * q) / (sqrt 2 * PI)).
  assert (HD : 0 < D) by (apply Rdiv_lt_0_compat; [apply E_pos; [exact Hc | nra] | nra]).
  exists (Rmax q (q * exp (M / D))). intros B HB.
  assert (HB1 : q <= B) by (eapply Rle_trans; [apply Rmax_l | exact HB]).
  assert (HB2 : q * exp (M / D) <= B) by (eapply Rle_trans; [apply Rmax_r | exact HB]).
  pose proof (ana_degenerate quad cfg w k1 B HC HP ltac:(lra) HL6 Hk Hsin HB1) as H. fold q in H. fold D in H.
  eapply Rle_trans; [|exact H].
  assert (Hl : M / D <= ln (B / q)).
  { rewrite <- (ln_exp (M / D)). assert (Hle : exp (M / D) <= B / q).
    { apply Rmult_le_reg_r with q; [lra|]. replace (B / q * q) with B by (field; lra). lra. }
    destruct Hle as [Hlt|Heq]; [left; apply ln_increasing; [apply exp_pos | exact Hlt] | right; rewrite Heq; reflexivity]. }
  replace M with (D * (M / D)) by (field; lra). apply Rmult_le_compat_l; lra.
Qed.
