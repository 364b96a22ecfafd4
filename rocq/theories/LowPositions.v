(** Proofs about the low-frequency generator: with unequal spacings no offset makes
    the coordinates agree with the positions of the samples. *)

From Coq Require Import Reals List ZArith Bool Lia Lra.
From Coquelicot Require Import Complex.
From Verif Require Import Prelude GenModel GenSpec GenProofs DftModel DftSpec DftProofs DftMore DftCov LowModel LowSpec LowProofs LowFourier LowMore LowCov LowApi.
Import ListNotations.
Open Scope R_scope.

(** ** Noise tables drawn from a counter *)

Definition counter (f : nat -> R) (n : nat) : R * nat := (f n, S n).

Lemma counter_many : forall f m g, draw_many (counter f) m g = (map f (seq g m), (g + m)%nat).
Proof.
  intros f m. induction m as [|m IH]; intros g; cbn [draw_many]; [rewrite Nat.add_0_r; reflexivity|].
  cbn [counter]. unfold counter. fold (counter f). rewrite IH. cbn [seq map]. f_equal. lia.
Qed.

Lemma counter_rows : forall f m n g, fst (draw_many (draw_many (counter f) m) n g) = map (fun p => map f (seq (g + p * m) m)) (seq 0 n).
Proof.
  intros f m n. induction n as [|n IH]; intros g; [reflexivity|]. cbn [draw_many]. rewrite counter_many.
  specialize (IH (g + m)%nat). destruct (draw_many (draw_many (counter f) m) n (g + m)%nat) as [l g2]. cbn [fst] in *. rewrite IH.
  cbn [seq map]. rewrite Nat.mul_0_l, Nat.add_0_r. f_equal. rewrite <- seq_shift, map_map. apply map_ext. intros p. f_equal. f_equal. lia.
Qed.

(** Any table can be drawn. *)
Lemma any_noise : forall n m (u : node -> R), (0 < m)%nat ->
  exists gauss : nat -> R * nat, forall x, on_grid (n, m, 1%nat) x -> at2 (fst (normal2 gauss n m 0%nat)) x = u x.
Proof.
  intros n m u Hm. exists (counter (fun t => u ((t / m)%nat, (t mod m)%nat, 0%nat))). intros [[p q] r] (Hp & Hq & Hr).
  unfold normal2. rewrite counter_rows. unfold at2.
  rewrite (nth_indep _ [] (map (fun t => u ((t / m)%nat, (t mod m)%nat, 0%nat)) (seq (0 + 0 * m)%nat m))) by (rewrite map_length, seq_length; exact Hp).
  rewrite (map_nth (fun p => map (fun t => u ((t / m)%nat, (t mod m)%nat, 0%nat)) (seq (0 + p * m)%nat m)) (seq 0 n) 0%nat p).
  rewrite seq_nth by exact Hp. cbn [Nat.add].
  rewrite (nth_indep _ 0 (u ((0 / m)%nat, (0 mod m)%nat, 0%nat))) by (rewrite map_length, seq_length; exact Hq).
  rewrite (map_nth (fun t => u ((t / m)%nat, (t mod m)%nat, 0%nat))). rewrite seq_nth by exact Hq.
  rewrite Nat.add_comm, Nat.div_add, Nat.mod_add, Nat.div_small, Nat.mod_small by lia. cbn [Nat.add]. f_equal. f_equal. lia.
Qed.

(** ** One wave of noise *)

Section Wave.

Variable g : low_grid.
Hypothesis H1 : (0 < lg_cN1 g)%nat.
Hypothesis H2 : (0 < lg_cN2 g)%nat.
Let d := (lg_cN1 g, lg_cN2 g, 1%nat).
Variable k : node.
Hypothesis Hk : on_grid d k.
Variable phi : R.
Let noise (x : node) : R := cos (theta d k x + phi).

Lemma wave_hat : forall l, on_grid d l ->
  fourier d noise l = Cplus (if eqn k l then Cmult (RtoC (count d / 2)) (cis phi) else RtoC 0)
                            (if eqn (mirror d k) l then Cmult (RtoC (count d / 2)) (cis (- phi)) else RtoC 0).
Proof.
  intros l Hl. assert (Hd : nonempty d) by (unfold nonempty, d; lia). rewrite fourier_fftn. unfold fftn.
  rewrite (csum_ext _ (grid d) _ (fun x => Cplus (Cmult (Cmult (RtoC (/ 2)) (cis phi)) (Cmult (cis (theta d k x)) (cis (- theta d l x))))
                                               (Cmult (Cmult (RtoC (/ 2)) (cis (- phi))) (Cmult (cis (theta d (mirror d k) x)) (cis (- theta d l x)))))).
  - rewrite csum_plus, !csum_scal. rewrite !orthogonality by (try assumption; apply mirror_on_grid; assumption). f_equal.
    + destruct (eqn k l); [|ring]. replace (RtoC (count d / 2)) with (Cmult (RtoC (/ 2)) (RtoC (count d))) by (rewrite <- RtoC_mult; f_equal; field). ring.
    + destruct (eqn (mirror d k) l); [|ring]. replace (RtoC (count d / 2)) with (Cmult (RtoC (/ 2)) (RtoC (count d))) by (rewrite <- RtoC_mult; f_equal; field). ring.
  - intros x _. rewrite (cis_mirror d k x Hd Hk). unfold noise. set (e := cis (- theta d l x)).
    replace (RtoC (cos (theta d k x + phi))) with (Cmult (RtoC (/ 2)) (Cplus (cis (theta d k x + phi)) (cis (- theta d k x + - phi)))).
    + rewrite !cis_plus. ring.
    + replace (- theta d k x + - phi) with (- (theta d k x + phi)) by ring. rewrite cis_neg, <- RtoC_Re. reflexivity.
Qed.

Variable Q : R -> R -> C.
Let K1 := physical_k (lg_cL1 g) (lg_cN1 g) (fst (fst k)).
Let K2 := physical_k (lg_cL2 g) (lg_cN2 g) (snd (fst k)).
Hypothesis M1 : physical_k (lg_cL1 g) (lg_cN1 g) (fst (fst (mirror d k))) = - K1.
Hypothesis M2 : physical_k (lg_cL2 g) (lg_cN2 g) (snd (fst (mirror d k))) = - K2.
Hypothesis HQ : Q (- K1) (- K2) = Cconj (Q K1 K2).

Lemma wave_field : forall x y, plane_waves g (prescribed Q g noise) x y = Re (Cmult (Q K1 K2) (cis (K1 * x + K2 * y + phi))).
Proof.
  intros x y. assert (Hd : nonempty d) by (unfold nonempty, d; lia). unfold plane_waves. fold d.
  set (h := prescribed Q g noise).
  set (ph := fun l : node => let '(a, b, _) := l in physical_k (lg_cL1 g) (lg_cN1 g) a * x + physical_k (lg_cL2 g) (lg_cN2 g) b * y).
  rewrite (map_ext _ (fun l => Re (Cmult (h l) (cis (ph l))))) by (intros [[a b] c]; cbn [ph]; unfold cis, Cmult, Re, Im; cbn [fst snd]; reflexivity).
  rewrite <- csum_Re, csum_nodes_of.
  set (pick := fun (m : node) (z : C) (l : node) => if eqn m l then z else RtoC 0).
  set (Z1 := Cmult (Cmult (Q K1 K2) (Cmult (RtoC (count d / 2)) (cis phi))) (cis (K1 * x + K2 * y))).
  set (Z2 := Cmult (Cmult (Q (- K1) (- K2)) (Cmult (RtoC (count d / 2)) (cis (- phi)))) (cis (- (K1 * x + K2 * y)))).
  assert (EP1 : ph k = K1 * x + K2 * y) by (unfold ph, K1, K2; destruct k as [[a b] c]; reflexivity).
  assert (EP2 : ph (mirror d k) = - (K1 * x + K2 * y)).
  { unfold ph. destruct (mirror d k) as [[a b] c]. cbn [fst snd] in M1, M2. rewrite M1, M2. ring. }
  rewrite (csum_ext _ (grid d) _ (fun l => Cplus (pick k Z1 l) (pick (mirror d k) Z2 l))).
  - rewrite csum_plus.
    assert (HP : forall m z, on_grid d m -> csum (grid d) (pick m z) = z).
    { intros m z Hm. rewrite (csum_pick _ (grid d) m (pick m z) (grid_NoDup d)); [|apply grid_In; exact Hm|].
      - unfold pick. destruct (eqn_spec m m) as [_|N]; [reflexivity|contradiction].
      - intros l _ Hl. unfold pick. destruct (eqn_spec m l) as [E|_]; [congruence|reflexivity]. }
    rewrite (HP k Z1 Hk), (HP (mirror d k) Z2 (mirror_on_grid d k Hd)).
    assert (EZ : Z2 = Cconj Z1).
    { unfold Z1, Z2. rewrite HQ, !Cconj_mult, Cconj_R, !cis_neg. reflexivity. }
    rewrite EZ, <- Re_half. cbn [RtoC Re fst].
    assert (EC : count d = INR (lg_cN1 g) * INR (lg_cN2 g)) by (unfold count, d; cbn; ring). rewrite <- EC.
    pose proof (count_pos d Hd) as HC. unfold Z1.
    replace (Cmult (Cmult (Q K1 K2) (Cmult (RtoC (count d / 2)) (cis phi))) (cis (K1 * x + K2 * y)))
       with (Cmult (RtoC (count d / 2)) (Cmult (Q K1 K2) (cis (K1 * x + K2 * y + phi)))) by (rewrite cis_plus; ring).
    unfold Re. rewrite Cmult_RtoC_fst. field. lra.
  - intros l Hl. rewrite grid_In in Hl. unfold h, prescribed, pick. destruct l as [[a b] c]. fold d. rewrite (wave_hat _ Hl).
    destruct (eqn_spec k (a, b, c)) as [E|N]; destruct (eqn_spec (mirror d k) (a, b, c)) as [E'|N'].
    + rewrite <- E. rewrite EP1. assert (F1 : Q (physical_k (lg_cL1 g) (lg_cN1 g) a) (physical_k (lg_cL2 g) (lg_cN2 g) b) = Q K1 K2) by (unfold K1, K2; rewrite E; reflexivity).
      assert (F2 : Q (- K1) (- K2) = Q K1 K2) by (rewrite <- M1, <- M2, E'; cbn [fst snd]; exact F1).
      assert (F3 : - (K1 * x + K2 * y) = K1 * x + K2 * y) by (transitivity (ph (mirror d k)); [symmetry; exact EP2|]; rewrite E', <- E; exact EP1).
      unfold Z1, Z2. rewrite F1, F2, F3. ring.
    + rewrite <- E. rewrite EP1. unfold Z1, K1, K2. rewrite E. cbn [fst snd]. ring.
    + rewrite <- E'. rewrite EP2. unfold Z2. rewrite <- M1, <- M2, E'. cbn [fst snd]. ring.
    + ring.
Qed.

End Wave.

(** ** No offset *)

Lemma Re_two_phases : forall (Z : C) s t, Z <> RtoC 0 ->
  Re (Cmult Z (cis (s + 0))) = Re (Cmult Z (cis (t + 0))) ->
  Re (Cmult Z (cis (s + PI / 2))) = Re (Cmult Z (cis (t + PI / 2))) -> cis s = cis t.
Proof.
  intros [a b] s t HZ. rewrite !Rplus_0_r. unfold cis, Cmult, Re. cbn [fst snd]. rewrite (Rplus_comm s), (Rplus_comm t), !cos_plus, !sin_plus, cos_PI2, sin_PI2.
  intros E1 E2. set (p := cos s - cos t). set (q := sin s - sin t).
  assert (F1 : a * p - b * q = 0) by (unfold p, q; lra). assert (F2 : b * p + a * q = 0) by (unfold p, q; lra).
  assert (HN : 0 < a^2 + b^2).
  { destruct (Req_dec a 0) as [->|Ha]; [destruct (Req_dec b 0) as [->|Hb]|].
    - exfalso. apply HZ. reflexivity.
    - pose proof (Rsqr_pos_lt b Hb) as H. unfold Rsqr in H. lra.
    - pose proof (Rsqr_pos_lt a Ha) as H. unfold Rsqr in H. pose proof (pow2_ge_0 b). lra. }
  assert (G1 : (a^2 + b^2) * p = 0) by (replace ((a^2 + b^2) * p) with (a * (a * p - b * q) + b * (b * p + a * q)) by ring; rewrite F1, F2; ring).
  assert (G2 : (a^2 + b^2) * q = 0) by (replace ((a^2 + b^2) * q) with (a * (b * p + a * q) - b * (a * p - b * q)) by ring; rewrite F1, F2; ring).
  apply Rmult_integral in G1. apply Rmult_integral in G2. unfold p, q in *. f_equal; lra.
Qed.

Lemma steps_differ : forall K p q dl dd, 0 < K * (dd - dl) < 2 * PI -> cis (K * p) = cis (K * q) -> cis (K * (p + dl)) = cis (K * (q + dd)) -> False.
Proof.
  intros K p q dl dd HK E0 E1. apply (cis_not_1 _ HK). rewrite !Rmult_plus_distr_l, !cis_plus, E0 in E1.
  replace (K * (dd - dl)) with (K * dd + - (K * dl)) by ring. rewrite cis_plus.
  replace (cis (K * dd)) with (Cmult (cis (- (K * q))) (Cmult (cis (K * q)) (cis (K * dd)))) by (rewrite Cmult_assoc, (Cmult_comm (cis (- _))), cis_inv; ring).
  rewrite <- E1. transitivity (Cmult (Cmult (cis (K * q)) (cis (- (K * q)))) (Cmult (cis (K * dl)) (cis (- (K * dl))))); [ring|]. rewrite !cis_inv. ring.
Qed.

Lemma waves_ext : forall Q g n1 n2 x y, (forall z, on_grid (lg_cN1 g, lg_cN2 g, 1%nat) z -> n1 z = n2 z) ->
  plane_waves g (prescribed Q g n1) x y = plane_waves g (prescribed Q g n2) x y.
Proof.
  intros Q g n1 n2 x y H. unfold plane_waves. f_equal. f_equal. apply map_ext. intros [[a b] c]. unfold prescribed.
  rewrite (fourier_ext _ n1 n2 _ H). reflexivity.
Qed.

Lemma pow2_ge2 : forall e, (1 <= e)%nat -> 2 <= 2 ^ e.
Proof.
  intros e He. destruct e as [|e]; [lia|]. cbn [pow]. assert (1 <= 2 ^ e) by (apply pow_R1_Rle; lra). lra.
Qed.

Lemma no_offset : forall quad cfg w, positive_lengths cfg -> low_construct quad cfg = Ok w -> 0 < lc_sigma2 cfg -> lc_L cfg <= 10^6 ->
  lg_cL1 (lw_grid w) <= 10^10 -> lg_cL2 (lw_grid w) <= 10^10 -> (1 <= lc_e1 cfg)%nat -> (1 <= lc_e2 cfg)%nat -> asked_dx cfg <> asked_dy cfg ->
  let gr := lw_grid w in
  ~ exists x0 y0, forall G (gauss : G -> R * G) g0,
      let noise := at2 (fst (normal2 gauss (lg_cN1 gr) (lg_cN2 gr) g0)) in
      exists w' g1, low_generate gauss w g0 = (Ok w', g1)
      /\ forall i j, (i < 2 ^ lc_e1 cfg)%nat -> (j < 2 ^ lc_e2 cfg)%nat ->
           let x := INR i * asked_dx cfg in let y := INR j * asked_dy cfg in
           low_interp w' x y = Ok (plane_waves gr (prescribed (gen_Q1 w) gr noise) (x0 + x) (y0 + y),
                                   plane_waves gr (prescribed (gen_Q2 w) gr noise) (x0 + x) (y0 + y)).
Proof.
  intros quad cfg w HP HC Hs HL6 HL1 HL2 He1 He2 Hne gr (x0 & y0 & HX).
  destruct (positions_api quad cfg w HP HC) as (X0 & Y0 & HY). fold gr in HY. set (dl := Rmin (asked_dx cfg) (asked_dy cfg)) in HY.
  destruct (low_constructed quad cfg w HC HP) as (EC & F & HQ & Ec & _). fold gr in F, HL1, HL2.
  pose proof (gf_21 _ _ F) as H21. pose proof (gf_22 _ _ F) as H22. destruct (gf_d _ _ F) as [D1 D2]. pose proof (gf_dpos _ _ F) as DP. fold dl in D1, D2, DP.
  set (d := (lg_cN1 gr, lg_cN2 gr, 1%nat)).
  assert (HE : forall u : node -> R, forall i j, (i < 2 ^ lc_e1 cfg)%nat -> (j < 2 ^ lc_e2 cfg)%nat ->
     plane_waves gr (prescribed (gen_Q1 w) gr u) (X0 + INR i * dl) (Y0 + INR j * dl) = plane_waves gr (prescribed (gen_Q1 w) gr u) (x0 + INR i * asked_dx cfg) (y0 + INR j * asked_dy cfg)
     /\ plane_waves gr (prescribed (gen_Q2 w) gr u) (X0 + INR i * dl) (Y0 + INR j * dl) = plane_waves gr (prescribed (gen_Q2 w) gr u) (x0 + INR i * asked_dx cfg) (y0 + INR j * asked_dy cfg)).
  { intros u i j Hi Hj. destruct (any_noise (lg_cN1 gr) (lg_cN2 gr) u ltac:(lia)) as (gauss & HG).
    destruct (HX nat gauss 0%nat) as (w1 & g1 & EG1 & V1). destruct (HY nat gauss 0%nat) as (w2 & g2 & EG2 & V2).
    rewrite EG1 in EG2. injection EG2 as <- <-. specialize (V1 i j Hi Hj). specialize (V2 i j Hi Hj). cbv zeta in V1. rewrite V1 in V2. injection V2 as A B.
    rewrite !(waves_ext _ gr _ u _ _ HG) in A. rewrite !(waves_ext _ gr _ u _ _ HG) in B. split; symmetry; assumption. }
  destruct HP as (HL & HF1 & HF2). assert (HPI := PI_RGT_0).
  assert (P16 : 0 < / 10^16) by (apply Rinv_0_lt_compat; lra).
  assert (P10 : 0 < / 10^10) by (apply Rinv_0_lt_compat; lra).
  assert (Hc : 0 < lw_c w) by (rewrite Ec; apply Rdiv_lt_0_compat; lra).
  assert (P2 : forall e, (1 <= e)%nat -> (1 < 2 ^ e)%nat) by (intros e He; destruct e; [lia|]; apply Nat.pow_gt_1; lia).
  assert (HB : forall K, / 10^10 <= K -> / 10^20 <= K^2).
  { intros K HK. assert (/ 10^20 = (/ 10^10)^2) by (rewrite pow_inv; f_equal; ring). pose proof (pow_incr (/ 10^10) K 2 ltac:(lra)). lra. }
  assert (HK : forall cL, 0 < cL -> cL <= 10^10 -> / 10^10 <= 2 * PI / cL).
  { intros cL H0 H10. apply Rle_trans with (/ cL); [apply Rinv_le_contravar; assumption|].
    unfold Rdiv. rewrite <- (Rmult_1_l (/ cL)) at 1. apply Rmult_le_compat_r; [left; apply Rinv_0_lt_compat; exact H0|]. pose proof PI2_1. lra. }
  assert (HcL1 : 0 < lg_cL1 gr) by (rewrite (gf_c1 _ _ F), D1; apply Rmult_lt_0_compat; [apply lt_0_INR; lia|exact DP]).
  assert (HcL2 : 0 < lg_cL2 gr) by (rewrite (gf_c2 _ _ F), D2; apply Rmult_lt_0_compat; [apply lt_0_INR; lia|exact DP]).
  (* a side with the larger spacing has more than two computational nodes *)
  assert (HN : forall e asked n cL, (1 <= e)%nat -> dl < asked / 2 ^ e -> asked <= cL -> cL = INR n * dl -> (2 < n)%nat /\ asked / 2 ^ e - dl < cL /\ 0 < asked / 2 ^ e - dl).
  { intros e asked n cL He Hlt Hle HcL. pose proof (pow2_ge2 e He) as H2e.
    assert (EA : asked / 2 ^ e * 2 ^ e = asked) by (field; lra).
    assert (HA : asked / 2 ^ e * 2 <= asked) by (rewrite <- EA at 2; apply Rmult_le_compat_l; lra).
    split; [|lra]. apply INR_lt. cbn [INR]. apply Rmult_lt_reg_r with dl; [exact DP|]. lra. }
  assert (HT : forall cL dd, 0 < cL -> 0 < dd - dl -> dd - dl < cL -> 0 < 2 * PI / cL * (dd - dl) < 2 * PI).
  { intros cL dd H0 Hp Hl. replace (2 * PI / cL * (dd - dl)) with (2 * PI * ((dd - dl) / cL)) by (field; lra).
    assert (0 < (dd - dl) / cL) by (apply Rdiv_lt_0_compat; assumption). assert ((dd - dl) / cL < 1) by (apply Rmult_lt_reg_r with cL; [exact H0|]; replace ((dd - dl) / cL * cL) with (dd - dl) by (field; lra); lra).
    split; [apply Rmult_lt_0_compat; lra|]. rewrite <- (Rmult_1_r (2 * PI)) at 2. apply Rmult_lt_compat_l; lra. }
  destruct (Rtotal_order (asked_dx cfg) (asked_dy cfg)) as [Hlt|[E|Hgt]]; [|contradiction|].
  - (* larger lateral spacing *)
    assert (Edl : dl = asked_dx cfg) by (unfold dl; apply Rmin_left; lra).
    destruct (HN (lc_e2 cfg) (asked_L2 cfg) (lg_cN2 gr) (lg_cL2 gr) He2) as (N2 & S1 & S2).
    { rewrite Edl. exact Hlt. }
    { apply Rle_trans with (Rmax (asked_L2 cfg) (5 * lc_L cfg)); [apply Rmax_l|apply (gf_t2 _ _ F)]. }
    { rewrite (gf_c2 _ _ F), D2. reflexivity. }
    fold (asked_dy cfg) in S1, S2. set (K := 2 * PI / lg_cL2 gr).
    assert (EK : physical_k (lg_cL2 gr) (lg_cN2 gr) 1 = K).
    { unfold physical_k. destruct (Nat.ltb_spec (2 * 1) (lg_cN2 gr)) as [_|H]; [|lia]. unfold K. cbn [INR]. unfold Rdiv. ring. }
    assert (E0 : physical_k (lg_cL1 gr) (lg_cN1 gr) 0 = 0) by (apply physical_k_0; lia).
    assert (Hk : on_grid d (0, 1, 0)%nat) by (unfold on_grid, d; lia).
    assert (HW : forall phi x y, plane_waves gr (prescribed (gen_Q1 w) gr (fun x => cos (theta d (0, 1, 0)%nat x + phi))) x y = Re (Cmult (gen_Q1 w 0 K) (cis (K * y + phi)))).
    { intros phi x y. unfold d. rewrite wave_field; [|lia|lia|exact Hk| | |]; cbn [fst snd mirror]; rewrite ?E0, ?EK.
      - replace (0 * x + K * y + phi) with (K * y + phi) by ring. reflexivity.
      - rewrite physical_k_mirror by lia. rewrite E0. reflexivity.
      - rewrite physical_k_mirror by lia. rewrite EK. reflexivity.
      - unfold gen_Q1. apply Q1_minus2. right. reflexivity. }
    assert (HZ : gen_Q1 w 0 K <> RtoC 0).
    { unfold gen_Q1. rewrite EC. pose proof (HK _ HcL2 HL2) as HKb. fold K in HKb. apply Q1_nonzero; try assumption; [|lra].
      pose proof (HB K HKb). replace (0^2 + K^2) with (K^2) by ring. assumption. }
    assert (HJ : forall j, (j < 2 ^ lc_e2 cfg)%nat -> cis (K * (Y0 + INR j * dl)) = cis (K * (y0 + INR j * asked_dy cfg))).
    { intros j Hj. pose proof (P2 _ He1) as HI. apply (Re_two_phases (gen_Q1 w 0 K)); [exact HZ| |].
      - destruct (HE (fun x => cos (theta d (0, 1, 0)%nat x + 0)) 0%nat j ltac:(lia) Hj) as [A _]. rewrite !HW in A. exact A.
      - destruct (HE (fun x => cos (theta d (0, 1, 0)%nat x + PI / 2)) 0%nat j ltac:(lia) Hj) as [A _]. rewrite !HW in A. exact A. }
    pose proof (P2 _ He2) as HI2. pose proof (HJ 0%nat ltac:(lia)) as J0. pose proof (HJ 1%nat HI2) as J1. cbn [INR] in J0, J1.
    rewrite !Rmult_0_l, !Rplus_0_r in J0. rewrite !Rmult_1_l in J1.
    apply (steps_differ K Y0 y0 dl (asked_dy cfg)); [apply HT; assumption|exact J0|exact J1].
  - (* larger streamwise spacing *)
    assert (Edl : dl = asked_dy cfg) by (unfold dl; apply Rmin_right; lra).
    destruct (HN (lc_e1 cfg) (asked_L1 cfg) (lg_cN1 gr) (lg_cL1 gr) He1) as (N1 & S1 & S2).
    { rewrite Edl. exact Hgt. }
    { apply Rle_trans with (Rmax (asked_L1 cfg) (5 * lc_L cfg)); [apply Rmax_l|apply (gf_t1 _ _ F)]. }
    { rewrite (gf_c1 _ _ F), D1. reflexivity. }
    fold (asked_dx cfg) in S1, S2. set (K := 2 * PI / lg_cL1 gr).
    assert (EK : physical_k (lg_cL1 gr) (lg_cN1 gr) 1 = K).
    { unfold physical_k. destruct (Nat.ltb_spec (2 * 1) (lg_cN1 gr)) as [_|H]; [|lia]. unfold K. cbn [INR]. unfold Rdiv. ring. }
    assert (E0 : physical_k (lg_cL2 gr) (lg_cN2 gr) 0 = 0) by (apply physical_k_0; lia).
    assert (Hk : on_grid d (1, 0, 0)%nat) by (unfold on_grid, d; lia).
    assert (HW : forall phi x y, plane_waves gr (prescribed (gen_Q2 w) gr (fun x => cos (theta d (1, 0, 0)%nat x + phi))) x y = Re (Cmult (gen_Q2 w K 0) (cis (K * x + phi)))).
    { intros phi x y. unfold d. rewrite wave_field; [|lia|lia|exact Hk| | |]; cbn [fst snd mirror]; rewrite ?E0, ?EK.
      - replace (K * x + 0 * y + phi) with (K * x + phi) by ring. reflexivity.
      - rewrite physical_k_mirror by lia. rewrite EK. reflexivity.
      - rewrite physical_k_mirror by lia. rewrite E0. reflexivity.
      - unfold gen_Q2. apply Q2_minus1. right. reflexivity. }
    assert (HZ : gen_Q2 w K 0 <> RtoC 0).
    { unfold gen_Q2. rewrite EC. pose proof (HK _ HcL1 HL1) as HKb. fold K in HKb. pose proof (HB K HKb) as HKK. intros E.
      pose proof (low_phi_pos (lw_c w) (lc_L cfg) (lc_psi cfg) (lc_zi cfg) (lg_cdx (lw_grid w)) (lg_cdy (lw_grid w)) K 0 Hc HL HL6) as HPh.
      replace (K^2 + 0^2) with (K^2) in HPh by ring. specialize (HPh HKK).
      unfold low_Q2 in E. apply (f_equal snd) in E. cbn in E.
      set (f := low_phi _ _ _ _ _ _ _ _) in *. assert (E' : f * K = 0) by lra. apply Rmult_integral in E'. lra. }
    assert (HJ : forall i, (i < 2 ^ lc_e1 cfg)%nat -> cis (K * (X0 + INR i * dl)) = cis (K * (x0 + INR i * asked_dx cfg))).
    { intros i Hi. pose proof (P2 _ He2) as HI. apply (Re_two_phases (gen_Q2 w K 0)); [exact HZ| |].
      - destruct (HE (fun x => cos (theta d (1, 0, 0)%nat x + 0)) i 0%nat Hi ltac:(lia)) as [_ A]. rewrite !HW in A. exact A.
      - destruct (HE (fun x => cos (theta d (1, 0, 0)%nat x + PI / 2)) i 0%nat Hi ltac:(lia)) as [_ A]. rewrite !HW in A. exact A. }
    pose proof (P2 _ He1) as HI2. pose proof (HJ 0%nat ltac:(lia)) as J0. pose proof (HJ 1%nat HI2) as J1. cbn [INR] in J0, J1.
    rewrite !Rmult_0_l, !Rplus_0_r in J0. rewrite !Rmult_1_l in J1.
    apply (steps_differ K X0 x0 dl (asked_dx cfg)); [apply HT; assumption|exact J0|exact J1].
Qed.
