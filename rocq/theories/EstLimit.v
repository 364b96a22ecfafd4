(** Limit of the average estimated spectra for wide domains, and a concrete case. *)

From Coq Require Import String Reals List ZArith Bool Lia Lra.
From Coquelicot Require Import Coquelicot.
From Verif Require Import Prelude GenModel GenSpec DftModel DftSpec LowModel LowSpec LowProofs LowMore LowSpectrum LowCov LowDemo QuadTensor AnisoProofs EstSpec EstProofs EstRiemann.
Import ListNotations.
Open Scope R_scope.

(** ** The integrands *)

Lemma integrand_even : forall c L psi zi k1 k2,
  integrand11 c L psi zi k1 (- k2) = integrand11 c L psi zi k1 k2 /\ integrand22 c L psi zi k1 (- k2) = integrand22 c L psi zi k1 k2.
Proof.
  intros c L psi zi k1 k2. unfold integrand11, integrand22, E_kappa, low_kappa2.
  replace ((- k2)^2) with (k2^2) by ring. replace ((- k2 * sin psi)^2) with ((k2 * sin psi)^2) by ring. split; reflexivity.
Qed.

Lemma integrand_continuous : forall c L psi zi k1, 0 < L -> L <= 10^6 -> / 10^20 <= k1^2 -> (forall k2, / 10^20 <= low_kappa2 psi k1 k2) ->
  forall k2, continuous (integrand11 c L psi zi k1) k2 /\ continuous (integrand22 c L psi zi k1) k2.
Proof.
  intros c L psi zi k1 HL HL6 Hk1 Hka k2. pose proof tiny_order as TO. assert (P : 0 < / 10^20) by (apply Rinv_0_lt_compat; lra).
  assert (HE : forall x, integrand11 c L psi zi k1 x = planar c L psi zi k1 x * (x^2 / (k1^2 + x^2))
                      /\ integrand22 c L psi zi k1 x = planar c L psi zi k1 x * (k1^2 / (k1^2 + x^2))).
  { intros x. apply integrands_planar; [exact HL|exact HL6| |].
    - pose proof (pow2_ge_0 x). lra.
    - specialize (Hka x). lra. }
  assert (Hi : continuous (fun t : R => t) k2) by apply continuous_id.
  assert (Hk : continuous (fun x => kappa_of psi k1 x) k2).
  { unfold kappa_of. apply (c_sqrt (fun x => 2 * ((k1 * cos psi)^2 + (x * sin psi)^2))).
    - apply c_mult; [apply c_const|]. apply c_plus; [apply c_const|]. apply c_pow. apply c_mult; [exact Hi|apply c_const].
    - specialize (Hka k2). unfold low_kappa2 in Hka. lra. }
  assert (Hd : continuous (fun x => k1^2 + x^2) k2) by (apply c_plus; [apply c_const|apply c_pow, Hi]).
  pose proof (pow2_ge_0 k2) as P2.
  assert (Hp : continuous (fun x => planar c L psi zi k1 x) k2).
  { unfold planar. apply (c_div (fun x => E_exact c L zi (kappa_of psi k1 x)) (fun x => PI * sqrt (k1^2 + x^2))).
    - apply (c_comp (fun x => kappa_of psi k1 x) (E_exact c L zi)); [exact Hk|]. apply continuity_pt_filterlim. apply E_continuous. exact HL.
    - apply c_mult; [apply c_const|]. apply c_sqrt; [exact Hd|lra].
    - apply Rgt_not_eq. apply Rmult_lt_0_compat; [apply PI_RGT_0|apply sqrt_lt_R0; lra]. }
  split.
  - apply (continuous_ext (fun x => planar c L psi zi k1 x * (x^2 / (k1^2 + x^2)))); [intros x; symmetry; apply HE|].
    apply c_mult; [exact Hp|]. apply c_div; [apply c_pow, Hi|exact Hd|lra].
  - apply (continuous_ext (fun x => planar c L psi zi k1 x * (k1^2 / (k1^2 + x^2)))); [intros x; symmetry; apply HE|].
    apply c_mult; [exact Hp|]. apply c_div; [apply c_const|exact Hd|lra].
Qed.

(** ** Widening *)

Lemma widened_facts : forall cfg n, 0 < lc_L cfg ->
  asked_L1 (widened cfg n) = asked_L1 cfg /\ asked_dx (widened cfg n) = asked_dx cfg /\ asked_L2 (widened cfg n) = 2 ^ n * asked_dx cfg /\ asked_dy (widened cfg n) = asked_dx cfg.
Proof.
  intros cfg n HL. assert (P : 0 < 2 ^ n) by (apply pow_lt; lra).
  assert (E : asked_L2 (widened cfg n) = 2 ^ n * asked_dx cfg) by (unfold asked_L2, widened; cbn [lc_f2 lc_L]; field; lra).
  split; [reflexivity|]. split; [reflexivity|]. split; [exact E|]. unfold asked_dy. rewrite E. cbn [widened lc_e2]. field. lra.
Qed.

Lemma pow2_large : forall x, exists n0, forall n, (n0 <= n)%nat -> x <= 2 ^ n.
Proof.
  intros x. destruct (nfloor_ex (Rmax x 0)) as (n0 & _ & H0); [apply Rmax_r|]. exists (S n0). intros n Hn. pose proof (Rmax_l x 0).
  apply Rle_trans with (INR n); [pose proof (le_INR _ _ Hn) as H1; rewrite S_INR in H1; lra|].
  clear. induction n as [|n IH]; [cbn; lra|]. rewrite S_INR. cbn [pow]. assert (1 <= 2 ^ n) by (apply pow_R1_Rle; lra). lra.
Qed.

Lemma estimates_converge : forall quad cfg w0 tol a,
  low_construct quad cfg = Ok w0 -> positive_lengths cfg -> 5 <= lc_f1 cfg -> (1 <= lc_e1 cfg)%nat ->
  0 <= lc_sigma2 cfg -> lc_L cfg <= 10^6 -> asked_L1 cfg <= 10^8 -> / 10^8 <= asked_dx cfg -> / 100 <= Rabs (cos (lc_psi cfg)) ->
  0 < tol < 2 * PI / asked_L1 cfg -> (1 <= a)%nat -> (2 * a < 2 ^ lc_e1 cfg)%nat ->
  let k1 := 2 * PI * INR a / asked_L1 cfg in
  let B := PI / asked_dx cfg in
  let f1 := integrand11 (lw_c w0) (lc_L cfg) (lc_psi cfg) (lc_zi cfg) k1 in
  let f2 := integrand22 (lw_c w0) (lc_L cfg) (lc_psi cfg) (lc_zi cfg) k1 in
  ex_RInt f1 (- B) B /\ ex_RInt f2 (- B) B /\
  forall eps, 0 < eps -> exists n0, forall n, (n0 <= n)%nat ->
  exists w, low_construct quad (widened cfg n) = Ok w /\
  forall G (gauss : G -> R * G) ens est1 est2, white gauss (2 ^ lc_e1 cfg * 2 ^ n) ens ->
    (forall g, exists ks F1 F2, estimated gauss w tol g ks F1 F2 /\ nth_error F1 (a - 1) = Some (est1 g) /\ nth_error F2 (a - 1) = Some (est2 g)) ->
    Rabs (mean ens est1 - fst (analytical exact_quad w B k1)) <= eps
    /\ Rabs (mean ens est2 - snd (analytical exact_quad w B k1)) <= eps
    /\ fst (analytical exact_quad w B k1) = RInt f1 (- B) B /\ snd (analytical exact_quad w B k1) = RInt f2 (- B) B.
Proof.
  intros quad cfg w0 tol a HC HP Hf1 He1 Hs HL6 HL1 Hdx Hpsi Ht Ha Hn k1 B f1 f2.
  destruct (low_constructed quad cfg w0 HC HP) as (_ & _ & HQ & Ec & _). destruct HP as (HL & HP1 & HP2).
  assert (P8 : 0 < / 10^8) by (apply Rinv_0_lt_compat; lra). assert (DP : 0 < asked_dx cfg) by lra. pose proof PI_RGT_0 as HPI.
  assert (LP : 0 < asked_L1 cfg) by (unfold asked_L1; apply Rmult_lt_0_compat; lra).
  assert (BP : 0 < B) by (apply Rdiv_lt_0_compat; lra).
  assert (Ek : k1 = physical_k (asked_L1 cfg) (2 ^ lc_e1 cfg) a) by (unfold k1, physical_k; destruct (Nat.ltb_spec (2 * a) (2 ^ lc_e1 cfg)); [reflexivity|lia]).
  assert (HR : forall k2, / 10^20 <= k1^2 + k2^2 /\ / 10^20 <= low_kappa2 (lc_psi cfg) k1 k2).
  { intros k2. rewrite Ek. apply resolved; [lra|exact Ha|exact Hn|exact Hpsi]. }
  assert (Hk1 : / 10^20 <= k1^2) by (destruct (HR 0) as [Q _]; lra).
  assert (CT : forall k2, continuous f1 k2 /\ continuous f2 k2).
  { intros k2. unfold f1, f2. apply integrand_continuous; [exact HL|exact HL6|exact Hk1|intros x; apply HR]. }
  assert (X1 : ex_RInt f1 (- B) B) by (apply (@ex_RInt_continuous R_CompleteNormedModule); intros z _; apply CT).
  assert (X2 : ex_RInt f2 (- B) B) by (apply (@ex_RInt_continuous R_CompleteNormedModule); intros z _; apply CT).
  split; [exact X1|]. split; [exact X2|]. intros eps He.
  destruct (riemann_limit f1 B eps BP (fun x => proj1 (CT x)) (proj1 (integrand_even _ _ _ _ _ _)) He) as (M1 & HM1 & R1).
  destruct (riemann_limit f2 B eps BP (fun x => proj2 (CT x)) (proj2 (integrand_even _ _ _ _ _ _)) He) as (M2 & HM2 & R2).
  destruct (pow2_large (Rmax (5 * lc_L cfg / asked_dx cfg) (Rmax (INR M1) (INR M2)))) as (n0 & Hn0).
  exists (S n0). intros n Hnn. specialize (Hn0 n ltac:(lia)).
  assert (B1 : 5 * lc_L cfg / asked_dx cfg <= 2 ^ n) by (eapply Rle_trans; [apply Rmax_l|exact Hn0]).
  assert (B2 : (M1 <= 2 ^ n)%nat).
  { apply INR_le. rewrite pow2_INR. eapply Rle_trans; [|exact Hn0]. eapply Rle_trans; [|apply Rmax_r]. apply Rmax_l. }
  assert (B3 : (M2 <= 2 ^ n)%nat).
  { apply INR_le. rewrite pow2_INR. eapply Rle_trans; [|exact Hn0]. eapply Rle_trans; [|apply Rmax_r]. apply Rmax_r. }
  destruct (widened_facts cfg n HL) as (W1 & W2 & W3 & W4). assert (PN : 0 < 2 ^ n) by (apply pow_lt; lra).
  assert (HPw : positive_lengths (widened cfg n)).
  { unfold positive_lengths, widened. cbn [lc_L lc_f1 lc_f2]. split; [exact HL|]. split; [exact HP1|]. apply Rdiv_lt_0_compat; [apply Rmult_lt_0_compat; lra|exact HL]. }
  destruct (low_construct_ok quad (widened cfg n) HPw HQ) as (w & HCw). exists w. split; [exact HCw|].
  destruct (low_constructed quad (widened cfg n) w HCw HPw) as (ECw & _ & _ & Ecw & _).
  assert (Ecc : lw_c w = lw_c w0) by (rewrite Ecw, Ec; reflexivity).
  intros G gauss ens est1 est2 HW HE.
  assert (HDw : plain_domain (widened cfg n)).
  { split; [rewrite W2, W4; reflexivity|]. split; [exact Hf1|]. split; [|split; [exact He1|cbn [widened lc_e2]; lia]].
    cbn [widened lc_f2]. apply Rmult_le_reg_r with (lc_L cfg / asked_dx cfg); [apply Rdiv_lt_0_compat; lra|].
    replace (2 ^ n * asked_dx cfg / lc_L cfg * (lc_L cfg / asked_dx cfg)) with (2 ^ n) by (field; lra). unfold Rdiv in *. lra. }
  destruct (mean_estimates gauss quad (widened cfg n) w ens tol HPw HCw HDw Hs HL6) with (est1 := est1) (est2 := est2) (a := a) as (Q1 & Q2).
  { rewrite W1. exact HL1. } { rewrite W2. exact Hdx. } { exact Hpsi. } { rewrite W1. exact Ht. } { exact HW. } { exact Ha. } { exact Hn. } { exact HE. }
  rewrite W1, W3 in Q1, Q2. cbn [widened lc_e2 lc_L lc_psi lc_zi] in Q1, Q2. fold k1 in Q1, Q2. rewrite Ecc in Q1, Q2. fold f1 f2 in Q1, Q2.
  assert (Edk : 2 * PI / (2 ^ n * asked_dx cfg) = 2 * B / INR (2 ^ n)) by (rewrite pow2_INR; unfold B; field; lra).
  rewrite Edk in Q1, Q2.
  assert (EA : fst (analytical exact_quad w B k1) = RInt f1 (- B) B /\ snd (analytical exact_quad w B k1) = RInt f2 (- B) B).
  { unfold analytical, exact_quad. rewrite (Rabs_pos_eq B) by lra. rewrite ECw, Ecc. cbn [widened lc_L lc_psi lc_zi].
    assert (K : / 10^10 <= Rabs k1).
    { apply Rnot_lt_le. intros K. assert (0 < / 10^10) by (apply Rinv_0_lt_compat; lra).
      assert (k1^2 < / 10^10 * / 10^10). { rewrite <- (pow2_abs k1). replace (Rabs k1 ^ 2) with (Rabs k1 * Rabs k1) by ring. pose proof (Rabs_pos k1). apply Rmult_le_0_lt_compat; lra. }
      replace (/ 10^10 * / 10^10) with (/ 10^20) in * by (field; lra). lra. }
    assert (T15 : / 10^15 <= / 10^10) by (apply Rinv_le_contravar; lra).
    rewrite (proj2 (Rltb_false (Rabs k1) (/ 10^15))) by lra. cbn [fst snd]. split; reflexivity. }
  destruct EA as (EA1 & EA2). rewrite EA1, EA2. destruct (R1 (2 ^ n)%nat B2) as (_ & R1'). destruct (R2 (2 ^ n)%nat B3) as (R2' & _).
  rewrite Q1, Q2. split; [exact R1'|]. split; [exact R2'|]. split; reflexivity.
Qed.

(** ** A concrete generator, family of seeds and domain *)

(** A stream with a single non-zero number [v], the [s]-th. *)
Definition single_gauss (g : R * nat * nat) : R * (R * nat * nat) :=
  let '(v, s, i) := g in ((if (i =? s)%nat then v else 0), (v, s, S i)).

Definition single_family (n : nat) : list (R * (R * nat * nat)) :=
  map (fun s => (/ (2 * INR n), (sqrt (INR n), s, 0%nat))) (seq 0 n) ++ map (fun s => (/ (2 * INR n), (- sqrt (INR n), s, 0%nat))) (seq 0 n).

Lemma single_stream : forall v s i r, stream single_gauss (v, s, i) r = if (i + r =? s)%nat then v else 0.
Proof.
  intros v s i r. revert i. induction r as [|r IH]; intros i; cbn [stream].
  - rewrite Nat.add_0_r. reflexivity.
  - cbn [single_gauss snd]. rewrite IH. replace (S i + r)%nat with (i + S r)%nat by lia. reflexivity.
Qed.

Lemma single_mean : forall n f, (0 < n)%nat ->
  mean (single_family n) f = / (2 * INR n) * (Rsum (map (fun s => f (sqrt (INR n), s, 0%nat)) (seq 0 n)) + Rsum (map (fun s => f (- sqrt (INR n), s, 0%nat)) (seq 0 n))).
Proof.
  intros n f Hn. unfold mean, single_family. rewrite Rsum_app, !map_map. cbn [fst snd].
  rewrite (Rsum_scal _ (seq 0 n) _ (fun s => f (sqrt (INR n), s, 0%nat))), (Rsum_scal _ (seq 0 n) _ (fun s => f (- sqrt (INR n), s, 0%nat))). symmetry. apply Rmult_plus_distr_l.
Qed.

Lemma single_white : forall n, (0 < n)%nat -> white single_gauss n (single_family n)
  /\ mean (single_family n) (fun _ => 1) = 1 /\ forall i, (i < n)%nat -> mean (single_family n) (fun g => stream single_gauss g i) = 0.
Proof.
  intros n Hn. assert (P : 0 < INR n) by (apply lt_0_INR; exact Hn). assert (S2 : sqrt (INR n) * sqrt (INR n) = INR n) by (apply sqrt_sqrt; lra).
  split; [|split].
  - intros i j Hi Hj. rewrite single_mean by exact Hn.
    rewrite (Rsum_ext _ _ (fun s => stream single_gauss (sqrt (INR n), s, 0%nat) i * stream single_gauss (sqrt (INR n), s, 0%nat) j) (fun s => if (i =? s)%nat then (if (i =? j)%nat then INR n else 0) else 0)).
    2:{ intros s _. rewrite !single_stream. cbn [Nat.add]. destruct (Nat.eqb_spec i s) as [<-|N]; [|ring].
        rewrite (Nat.eqb_sym j i). destruct (i =? j)%nat; [exact S2|ring]. }
    rewrite (Rsum_ext _ _ (fun s => stream single_gauss (- sqrt (INR n), s, 0%nat) i * stream single_gauss (- sqrt (INR n), s, 0%nat) j) (fun s => if (i =? s)%nat then (if (i =? j)%nat then INR n else 0) else 0)).
    2:{ intros s _. rewrite !single_stream. cbn [Nat.add]. destruct (Nat.eqb_spec i s) as [<-|N]; [|ring].
        rewrite (Nat.eqb_sym j i). destruct (i =? j)%nat; [rewrite Rmult_opp_opp; exact S2|ring]. }
    rewrite (Rsum_pick n _ i Hi) by (intros x _ Nx; destruct (Nat.eqb_spec i x); [congruence|reflexivity]). rewrite Nat.eqb_refl.
    destruct (i =? j)%nat; field; lra.
  - rewrite single_mean by exact Hn. rewrite !Rsum_one, seq_length. field. lra.
  - intros i Hi. rewrite single_mean by exact Hn.
    rewrite (Rsum_ext _ _ (fun s => stream single_gauss (sqrt (INR n), s, 0%nat) i) (fun s => if (i =? s)%nat then sqrt (INR n) else 0)) by (intros s _; apply single_stream).
    rewrite (Rsum_ext _ _ (fun s => stream single_gauss (- sqrt (INR n), s, 0%nat) i) (fun s => if (i =? s)%nat then - sqrt (INR n) else 0)) by (intros s _; apply single_stream).
    rewrite !(Rsum_pick n _ i Hi) by (intros x _ Nx; destruct (Nat.eqb_spec i x); [congruence|reflexivity]). rewrite Nat.eqb_refl. ring.
Qed.

(** The estimates as functions of the generator state. *)
Lemma estimates_exist : forall G (gauss : G -> R * G) quad cfg w tol a, positive_lengths cfg -> low_construct quad cfg = Ok w -> plain_domain cfg ->
  0 <= lc_sigma2 cfg -> lc_L cfg <= 10^6 -> asked_L1 cfg <= 10^8 -> / 10^8 <= asked_dx cfg -> / 100 <= Rabs (cos (lc_psi cfg)) ->
  0 < tol < 2 * PI / asked_L1 cfg -> (1 <= a)%nat -> (2 * a < 2 ^ lc_e1 cfg)%nat ->
  exists est1 est2, forall g, exists ks F1 F2, estimated gauss w tol g ks F1 F2 /\ nth_error F1 (a - 1) = Some (est1 g) /\ nth_error F2 (a - 1) = Some (est2 g).
Proof.
  intros G gauss quad cfg w tol a HP HC HD Hs HL HL1 Hdx Hpsi Ht Ha Hn.
  exists (fun g => match low_generate gauss w g with (Ok w', _) => match compute_spectrum w' tol with Ok (_, F1, _) => nth (a - 1) F1 0 | Err _ => 0 end | _ => 0 end).
  exists (fun g => match low_generate gauss w g with (Ok w', _) => match compute_spectrum w' tol with Ok (_, _, F2) => nth (a - 1) F2 0 | Err _ => 0 end | _ => 0 end).
  intros g. destruct (estimate_defined gauss quad cfg w tol HP HC HD Hs HL HL1 Hdx Hpsi Ht g) as (ks & F1 & F2 & (w' & g' & E1 & E2) & _ & L1 & L2 & _).
  assert (Hb : (a - 1 < 2 ^ lc_e1 cfg / 2)%nat) by (apply (Nat.lt_le_trans _ a); [lia|]; apply Nat.div_le_lower_bound; lia).
  exists ks, F1, F2. split; [exists w', g'; split; assumption|]. rewrite E1, E2. split; apply nth_error_nth'; rewrite ?L1, ?L2; exact Hb.
Qed.

Lemma plane_plain : plain_domain plane_cfg /\ / 100 <= Rabs (cos (lc_psi plane_cfg)) /\ asked_L1 plane_cfg = 10 /\ asked_dx plane_cfg = 5 / 2.
Proof.
  destruct plane_spacing as (D1 & D2). split; [|split; [|split; [unfold asked_L1, plane_cfg; cbn; lra|exact D1]]].
  - split; [rewrite D1, D2; reflexivity|]. cbn. repeat split; lra || lia.
  - cbn [plane_cfg lc_psi]. rewrite cos_PI4. assert (HS : 0 < sqrt 2) by (apply sqrt_lt_R0; lra).
    assert (HS2 : sqrt 2 <= 2). { rewrite <- (sqrt_square 2) at 2 by lra. apply sqrt_le_1; lra. }
    assert (H : / 2 <= 1 / sqrt 2) by (unfold Rdiv; rewrite Rmult_1_l; apply Rinv_le_contravar; assumption). rewrite Rabs_pos_eq by lra. lra.
Qed.

Lemma estimates_defined : forall G (gauss : G -> R * G) quad cfg w tol, positive_lengths cfg -> low_construct quad cfg = Ok w -> plain_domain cfg ->
  0 <= lc_sigma2 cfg -> lc_L cfg <= 10^6 -> asked_L1 cfg <= 10^8 -> / 10^8 <= asked_dx cfg -> / 100 <= Rabs (cos (lc_psi cfg)) ->
  0 < tol < 2 * PI / asked_L1 cfg ->
  forall g, exists ks F1 F2, estimated gauss w tol g ks F1 F2 /\ length F1 = (2 ^ lc_e1 cfg / 2)%nat /\ length F2 = (2 ^ lc_e1 cfg / 2)%nat
  /\ forall a, (1 <= a)%nat -> (2 * a < 2 ^ lc_e1 cfg)%nat -> nth (a - 1) ks 0 = 2 * PI * INR a / asked_L1 cfg.
Proof.
  intros G gauss quad cfg w tol HP HC HD Hs HL HL1 Hdx Hpsi Ht g.
  destruct (estimate_defined gauss quad cfg w tol HP HC HD Hs HL HL1 Hdx Hpsi Ht g) as (ks & F1 & F2 & E & _ & L1 & L2 & V).
  exists ks, F1, F2. split; [exact E|]. split; [exact L1|]. split; [exact L2|]. intros a Ha Hn. exact (proj1 (V a Ha Hn)).
Qed.
