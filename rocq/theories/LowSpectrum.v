(** Proofs about the spectra of the low-frequency generator: estimated spectrum,
    energy balance, two-dimensional spectrum of the generated field. *)

From Coq Require Import Reals List ZArith Bool Lia Lra.
From Coquelicot Require Import Complex.
From Verif Require Import Prelude GenModel GenSpec GenProofs DftModel DftSpec DftProofs DftMore DftCov LowModel LowSpec LowProofs LowFourier LowMore.
Import ListNotations.
Open Scope R_scope.

(** ** Sums *)

Lemma Rsum_ext : forall A (l : list A) f g, (forall x, In x l -> f x = g x) -> Rsum (map f l) = Rsum (map g l).
Proof. intros A l f g H. f_equal. apply map_ext_in. exact H. Qed.

Lemma Rsum_scal : forall A (l : list A) c f, Rsum (map (fun x => c * f x) l) = c * Rsum (map f l).
Proof. intros A l c f. induction l as [|a l IH]; cbn; [ring|]. unfold Rsum in *. cbn in *. rewrite IH. ring. Qed.

Lemma Rsum_zero : forall A (l : list A), Rsum (map (fun _ => 0) l) = 0.
Proof. intros A l. induction l as [|a l IH]; cbn; [reflexivity|]. unfold Rsum in *. cbn in *. rewrite IH. ring. Qed.

Lemma Rsum_nonneg : forall A (l : list A) f, (forall x, In x l -> 0 <= f x) -> 0 <= Rsum (map f l).
Proof.
  intros A l f. induction l as [|a l IH]; intros H; unfold Rsum in *; cbn in *; [lra|].
  pose proof (H a (or_introl eq_refl)). pose proof (IH (fun x Hx => H x (or_intror Hx))). lra.
Qed.

Lemma Rsum_pos : forall A (l : list A) f a, (forall x, In x l -> 0 <= f x) -> In a l -> 0 < f a -> 0 < Rsum (map f l).
Proof.
  intros A l f a. induction l as [|b l IH]; intros H Hin Hp; [destruct Hin|]. unfold Rsum in *; cbn in *.
  destruct Hin as [->|Hin].
  - pose proof (Rsum_nonneg A l f (fun x Hx => H x (or_intror Hx))) as HN. unfold Rsum in HN. lra.
  - pose proof (H b (or_introl eq_refl)). pose proof (IH (fun x Hx => H x (or_intror Hx)) Hin Hp). lra.
Qed.

Lemma Rsum_app : forall A (l m : list A) f, Rsum (map f (l ++ m)) = Rsum (map f l) + Rsum (map f m).
Proof. intros A l m f. induction l as [|a l IH]; unfold Rsum in *; cbn in *; [ring|]. rewrite IH. ring. Qed.

Lemma Rsum_pick : forall n (f : nat -> R) a, (a < n)%nat -> (forall x, (x < n)%nat -> x <> a -> f x = 0) -> Rsum (map f (seq 0 n)) = f a.
Proof.
  intros n f a Ha H. apply RtoC_inj. rewrite Rsum_RtoC. apply (csum_pick _ (seq 0 n) a (fun x => RtoC (f x))).
  - apply seq_NoDup.
  - apply in_seq. lia.
  - intros x Hx Hn. apply in_seq in Hx. rewrite H by (lia || exact Hn). reflexivity.
Qed.

Lemma Rsum_grid2 : forall n m f, Rsum (map f (grid (n, m, 1%nat))) = Rsum (map (fun a => Rsum (map (fun b => f (a, b, 0%nat)) (seq 0 m))) (seq 0 n)).
Proof.
  intros n m f. apply RtoC_inj. rewrite !Rsum_RtoC, csum_grid. apply csum_ext. intros a _. rewrite Rsum_RtoC. apply csum_ext. intros b _.
  cbn [seq csum fold_right]. ring.
Qed.

Lemma Cmod_sq : forall z, (Cmod z)^2 = (Re z)^2 + (Im z)^2.
Proof. intros z. unfold Cmod. rewrite pow2_sqrt; [reflexivity|]. pose proof (pow2_ge_0 (fst z)). pose proof (pow2_ge_0 (snd z)). lra. Qed.

(** ** Estimated spectrum *)

Lemma signed_mode_inj : forall n a b, (a < n)%nat -> (b < n)%nat -> signed_mode n a = signed_mode n b -> a = b.
Proof. intros n a b Ha Hb. unfold signed_mode. destruct (Nat.ltb_spec (2 * a) n), (Nat.ltb_spec (2 * b) n); lia. Qed.

Lemma low_wave_scaled : forall L N a, (0 < N)%nat -> low_wave N (L / INR N) a = 2 * PI / L * IZR (signed_mode N a).
Proof.
  intros L N a HN. apply lt_0_INR in HN. unfold low_wave. replace (INR N * (L / INR N)) with L by (field; lra). unfold Rdiv. ring.
Qed.

Section Estimate.

Variable g : low_grid.
Hypothesis HL : 0 < lg_L1 g.
Hypothesis HN1 : (0 < lg_N1 g)%nat.
Hypothesis Hdx : lg_dx g = lg_L1 g / INR (lg_N1 g).
Variable tol : R.
Hypothesis Htol : 0 < tol.
Hypothesis Htol1 : tol < 2 * PI / lg_L1 g.

Lemma step_pos : 0 < 2 * PI / lg_L1 g.
Proof. apply Rdiv_lt_0_compat; [pose proof PI_RGT_0; lra|exact HL]. Qed.

Lemma wave_matches : forall a (m : Z), Rltb (Rabs (low_wave (lg_N1 g) (lg_dx g) a - 2 * PI / lg_L1 g * IZR m)) tol = (signed_mode (lg_N1 g) a =? m)%Z.
Proof.
  intros a m. rewrite Hdx, low_wave_scaled by exact HN1. rewrite <- Rmult_minus_distr_l, <- minus_IZR, Rabs_mult, (Rabs_right (2 * PI / lg_L1 g)) by (pose proof step_pos; lra).
  destruct (Z.eqb_spec (signed_mode (lg_N1 g) a) m) as [->|Hne].
  - rewrite Z.sub_diag, Rabs_R0. apply Rltb_true. lra.
  - apply Rltb_false. rewrite <- abs_IZR. apply Rle_trans with (2 * PI / lg_L1 g * 1); [lra|]. apply Rmult_le_compat_l; [pose proof step_pos; lra|].
    apply IZR_le. lia.
Qed.

Lemma power_energy : forall u a, Rsum (map (fun b => power g u (a, b, 0%nat)) (seq 0 (lg_N2 g))) = mode_energy (lg_N1 g) (lg_N2 g) (at2 u) a.
Proof.
  intros u a. unfold mode_energy. apply Rsum_ext. intros b _. unfold power. rewrite Cmod_sq. unfold user_extents. rewrite fourier_fftn. reflexivity.
Qed.

Lemma spectrum_row : forall u (m : Z) a, (a < lg_N1 g)%nat -> signed_mode (lg_N1 g) a = m ->
  spectrum_at_k g u tol (2 * PI / lg_L1 g * IZR m) = mode_energy (lg_N1 g) (lg_N2 g) (at2 u) a * spectrum_scale g.
Proof.
  intros u m a Ha Hm. unfold spectrum_at_k. f_equal. unfold user_extents. rewrite Rsum_grid2. cbn [fst].
  rewrite <- power_energy.
  transitivity (Rsum (map (fun a' => if (signed_mode (lg_N1 g) a' =? m)%Z then Rsum (map (fun b => power g u (a', b, 0%nat)) (seq 0 (lg_N2 g))) else 0) (seq 0 (lg_N1 g)))).
  - apply Rsum_ext. intros a' _. rewrite <- wave_matches. destruct (Rltb _ tol); [reflexivity|]. apply Rsum_zero.
  - rewrite (Rsum_pick _ _ a Ha).
    + rewrite Hm, Z.eqb_refl. reflexivity.
    + intros x Hx Hn. destruct (Z.eqb_spec (signed_mode (lg_N1 g) x) m) as [E|_]; [|reflexivity]. exfalso. apply Hn. apply (signed_mode_inj (lg_N1 g)); congruence.
Qed.

Lemma spectrum_none : forall u (m : Z), (forall a, (a < lg_N1 g)%nat -> signed_mode (lg_N1 g) a <> m) ->
  spectrum_at_k g u tol (2 * PI / lg_L1 g * IZR m) = 0.
Proof.
  intros u m Hm. unfold spectrum_at_k. unfold user_extents. rewrite Rsum_grid2. cbn [fst].
  rewrite (Rsum_ext _ _ _ (fun _ => 0)); [rewrite Rsum_zero; ring|].
  intros a' Ha'. apply in_seq in Ha'. transitivity (Rsum (map (fun _ : nat => 0) (seq 0 (lg_N2 g)))); [|apply Rsum_zero]. apply Rsum_ext. intros b _. rewrite wave_matches.
  destruct (Z.eqb_spec (signed_mode (lg_N1 g) a') m) as [E|_]; [|reflexivity]. exfalso. apply (Hm a'); [lia|exact E].
Qed.

Lemma k1_positive_list : k1_positive (lg_N1 g) (lg_dx g) tol = map (fun a => 2 * PI / lg_L1 g * IZR (Z.of_nat a)) (seq 1 (lg_N1 g / 2)).
Proof.
  unfold k1_positive.
  assert (E : forall a, (a <= lg_N1 g / 2)%nat -> Rabs (low_wave (lg_N1 g) (lg_dx g) a) = 2 * PI / lg_L1 g * IZR (Z.of_nat a)).
  { intros a Ha. rewrite Hdx, low_wave_scaled by exact HN1. rewrite Rabs_mult, (Rabs_right (2 * PI / lg_L1 g)) by (pose proof step_pos; lra). f_equal.
    rewrite <- abs_IZR. f_equal. unfold signed_mode. pose proof (Nat.div_mod_eq (lg_N1 g) 2). pose proof (Nat.mod_upper_bound (lg_N1 g) 2).
    destruct (Nat.ltb_spec (2 * a) (lg_N1 g)); lia. }
  replace (lg_N1 g / 2 + 1)%nat with (S (lg_N1 g / 2)) by lia. cbn [seq map filter].
  rewrite E by lia. rewrite Rmult_0_r. rewrite (proj2 (Rltb_false tol 0)) by lra.
  rewrite (map_ext_in _ (fun a => 2 * PI / lg_L1 g * IZR (Z.of_nat a))) by (intros a Ha; apply in_seq in Ha; apply E; lia).
  rewrite <- (app_nil_r (map _ _)) at 2. assert (HA : forall l, (forall x, In x l -> (1 <= x)%nat) ->
    filter (fun k => Rltb tol k) (map (fun a => 2 * PI / lg_L1 g * IZR (Z.of_nat a)) l) = map (fun a => 2 * PI / lg_L1 g * IZR (Z.of_nat a)) l).
  { induction l as [|x l IH]; intros H; [reflexivity|]. cbn [map filter]. rewrite (proj2 (Rltb_true tol _)).
    - rewrite IH by (intros y Hy; apply H; right; exact Hy). reflexivity.
    - apply Rlt_le_trans with (2 * PI / lg_L1 g * 1); [lra|]. apply Rmult_le_compat_l; [pose proof step_pos; lra|]. apply IZR_le. pose proof (H x (or_introl eq_refl)). lia. }
  rewrite app_nil_r. apply HA. intros x Hx. apply in_seq in Hx. lia.
Qed.

Lemma estimate : forall u a, (1 <= a)%nat -> (a <= lg_N1 g / 2)%nat ->
  spectrum_at_k g u tol (2 * PI / lg_L1 g * IZR (Z.of_nat a))
  = if (2 * a <? lg_N1 g)%nat then mode_energy (lg_N1 g) (lg_N2 g) (at2 u) a * spectrum_scale g else 0.
Proof.
  intros u a Ha Hb. pose proof (Nat.div_mod_eq (lg_N1 g) 2). pose proof (Nat.mod_upper_bound (lg_N1 g) 2).
  destruct (Nat.ltb_spec (2 * a) (lg_N1 g)) as [Hlt|Hge].
  - apply spectrum_row; [lia|]. unfold signed_mode. destruct (Nat.ltb_spec (2 * a) (lg_N1 g)); lia.
  - apply spectrum_none. intros a' Ha'. unfold signed_mode. destruct (Nat.ltb_spec (2 * a') (lg_N1 g)); lia.
Qed.

End Estimate.

Lemma mode_energy_nonneg : forall n m u a, 0 <= mode_energy n m u a.
Proof. intros. unfold mode_energy. apply Rsum_nonneg. intros b _. pose proof (pow2_ge_0 (Re (fourier (n, m, 1%nat) u (a, b, 0%nat)))). pose proof (pow2_ge_0 (Im (fourier (n, m, 1%nat) u (a, b, 0%nat)))). cbv zeta. lra. Qed.

Lemma compute_spectrum_spec : forall w u1 u2 tol, lw_u w = Some (u1, u2) ->
  let g := lw_grid w in
  0 < lg_L1 g -> (0 < lg_N1 g)%nat -> lg_dx g = lg_L1 g / INR (lg_N1 g) -> 0 < tol < 2 * PI / lg_L1 g ->
  exists ks F1 F2, compute_spectrum w tol = Ok (ks, F1, F2)
  /\ length ks = (lg_N1 g / 2)%nat /\ length F1 = (lg_N1 g / 2)%nat /\ length F2 = (lg_N1 g / 2)%nat
  /\ forall a, (1 <= a)%nat -> (a <= lg_N1 g / 2)%nat ->
       nth (a - 1) ks 0 = 2 * PI * INR a / lg_L1 g
       /\ nth (a - 1) F1 0 = (if (2 * a <? lg_N1 g)%nat then lg_L1 g / (2 * PI) * (mode_energy (lg_N1 g) (lg_N2 g) (at2 u1) a / (INR (lg_N1 g) * INR (lg_N2 g))^2) else 0)
       /\ nth (a - 1) F2 0 = (if (2 * a <? lg_N1 g)%nat then lg_L1 g / (2 * PI) * (mode_energy (lg_N1 g) (lg_N2 g) (at2 u2) a / (INR (lg_N1 g) * INR (lg_N2 g))^2) else 0).
Proof.
  intros w u1 u2 tol HU g HL HN Hdx [Ht Ht1]. unfold compute_spectrum. rewrite HU. fold g.
  rewrite (k1_positive_list g HL HN Hdx tol Ht Ht1). do 3 eexists. split; [reflexivity|]. rewrite !map_length, seq_length. do 3 (split; [reflexivity|]).
  assert (HE : forall u a, mode_energy (lg_N1 g) (lg_N2 g) (at2 u) a * spectrum_scale g
    = lg_L1 g / (2 * PI) * (mode_energy (lg_N1 g) (lg_N2 g) (at2 u) a / (INR (lg_N1 g) * INR (lg_N2 g))^2)).
  { intros u a. unfold spectrum_scale, Rdiv. rewrite Rinv_mult. ring. }
  intros a Ha Hb.
  assert (HS : forall f : nat -> R, nth (a - 1) (map f (seq 1 (lg_N1 g / 2))) 0 = f a).
  { intros f. rewrite (nth_indep _ 0 (f 0%nat)) by (rewrite map_length, seq_length; lia). rewrite map_nth, seq_nth by lia. f_equal. lia. }
  rewrite !map_map. rewrite !HS. rewrite !(estimate g HL HN Hdx tol Ht Ht1) by assumption. rewrite !HE. rewrite <- INR_IZR_INZ.
  split; [unfold Rdiv; ring|]. split; reflexivity.
Qed.

(** ** Energy balance *)

Lemma parseval : forall d (u v : node -> R), nonempty d ->
  csum (grid d) (fun x => RtoC (u x * v x))
  = Cmult (RtoC (/ count d)) (csum (grid d) (fun k => Cmult (fftn d (fun x => RtoC (u x)) k) (Cconj (fftn d (fun x => RtoC (v x)) k)))).
Proof.
  intros d u v Hd.
  transitivity (csum (grid d) (fun x => csum (grid d) (fun k => Cmult (RtoC (/ count d)) (Cmult (fftn d (fun x => RtoC (u x)) k) (Cconj (Cmult (RtoC (v x)) (cis (- theta d k x)))))))).
  - apply csum_ext. intros x Hx. rewrite grid_In in Hx. rewrite RtoC_mult. rewrite <- (ifftn_fftn d (fun x => RtoC (u x)) x Hd Hx) at 1.
    unfold ifftn. rewrite (Cmult_comm _ (RtoC (v x))), Cmult_assoc, (Cmult_comm (RtoC (v x))), <- Cmult_assoc, <- !csum_scal. apply csum_ext. intros k _.
    rewrite Cconj_mult, Cconj_R, cis_neg, Cconj_conj. ring.
  - rewrite csum_swap. rewrite <- csum_scal. apply csum_ext. intros k _. unfold fftn at 3. rewrite csum_conj, <- !csum_scal. apply csum_ext. intros; ring.
Qed.

Lemma Cmod_conj : forall z, Cmult z (Cconj z) = RtoC ((Re z)^2 + (Im z)^2).
Proof. intros [a b]. unfold Re, Im. ceq; ring. Qed.

Lemma energy_rows : forall n m u, (0 < n)%nat -> (0 < m)%nat ->
  Rsum (map (fun x => (u x)^2) (nodes_of (n, m, 1%nat))) = / (INR n * INR m) * Rsum (map (mode_energy n m u) (seq 0 n)).
Proof.
  intros n m u Hn Hm. assert (Hd : nonempty (n, m, 1%nat)) by (unfold nonempty; lia).
  assert (EC : count (n, m, 1%nat) = INR n * INR m) by (unfold count; cbn; ring).
  apply RtoC_inj. rewrite Rsum_RtoC, csum_nodes_of.
  rewrite (csum_ext _ _ _ (fun x => RtoC (u x * u x))) by (intros x _; f_equal; ring).
  rewrite parseval by exact Hd. rewrite EC. rewrite RtoC_mult. f_equal.
  rewrite (csum_ext _ _ _ (fun k => RtoC ((Re (fourier (n, m, 1%nat) u k))^2 + (Im (fourier (n, m, 1%nat) u k))^2)))
    by (intros k _; rewrite fourier_fftn; apply Cmod_conj).
  rewrite <- Rsum_RtoC, Rsum_grid2. reflexivity.
Qed.

Lemma NoDup_map_in : forall A B (f : A -> B) l, (forall x y, In x l -> In y l -> f x = f y -> x = y) -> NoDup l -> NoDup (map f l).
Proof.
  intros A B f l. induction l as [|a l IH]; intros Hf Hl; [constructor|]. inversion Hl as [|x l' Hn Hl']; subst. cbn. constructor.
  - rewrite in_map_iff. intros (y & E & Hy). apply Hn. rewrite (Hf a y); [exact Hy|left; reflexivity|right; exact Hy|congruence].
  - apply IH; [|exact Hl']. intros x y Hx Hy. apply Hf; right; assumption.
Qed.

Lemma energy_mirror : forall n m u a, (0 < a < n)%nat -> (0 < m)%nat -> mode_energy n m u (n - a) = mode_energy n m u a.
Proof.
  intros n m u a Ha Hm. unfold mode_energy. assert (Hd : nonempty (n, m, 1%nat)) by (unfold nonempty; lia).
  set (h := fun a b => let z := fourier (n, m, 1%nat) u (a, b, 0%nat) in (Re z)^2 + (Im z)^2).
  change (Rsum (map (h (n - a)%nat) (seq 0 m)) = Rsum (map (h a) (seq 0 m))).
  assert (HM : forall b, (b < m)%nat -> h a b = h (n - a)%nat ((m - b) mod m)%nat).
  { intros b Hb. unfold h. cbv zeta. assert (Hk : on_grid (n, m, 1%nat) (a, b, 0%nat)) by (unfold on_grid; lia).
    pose proof (fftn_real_mirror (n, m, 1%nat) u (a, b, 0%nat) Hd Hk) as E. rewrite <- !fourier_fftn in E.
    assert (EM : mirror (n, m, 1%nat) (a, b, 0%nat) = ((n - a)%nat, ((m - b) mod m)%nat, 0%nat)) by (unfold mirror; rewrite (Nat.mod_small (n - a)) by lia; reflexivity).
    rewrite EM in E. rewrite E. unfold Cconj, Re, Im. cbn [fst snd]. ring. }
  rewrite (Rsum_ext _ (seq 0 m) (h a) (fun b => h (n - a)%nat ((m - b) mod m)%nat)) by (intros b Hb; apply in_seq in Hb; apply HM; lia).
  rewrite <- (map_map (fun b => (m - b) mod m)%nat (h (n - a)%nat)).
  apply RtoC_inj. rewrite !Rsum_RtoC. apply csum_perm. apply Permutation.NoDup_Permutation.
  - apply seq_NoDup.
  - apply NoDup_map_in; [|apply seq_NoDup]. intros x y Hx Hy E. apply in_seq in Hx, Hy.
    rewrite <- (mirror_mod m x), <- (mirror_mod m y) by lia. rewrite E. reflexivity.
  - intros x. rewrite in_map_iff. split.
    + intros Hx. exists ((m - x) mod m)%nat. apply in_seq in Hx. split; [apply mirror_mod; lia|]. apply in_seq. pose proof (Nat.mod_upper_bound (m - x) m). lia.
    + intros (y & <- & Hy). apply in_seq. pose proof (Nat.mod_upper_bound (m - y) m). lia.
Qed.

Lemma Rsum_seq_S : forall (f : nat -> R) a n, Rsum (map f (seq a (S n))) = Rsum (map f (seq a n)) + f (a + n)%nat.
Proof. intros f a n. rewrite seq_S, Rsum_app. unfold Rsum. cbn. ring. Qed.

Lemma Rsum_rev : forall (f : nat -> R) m n, (n <= m)%nat -> Rsum (map f (seq (m - n) n)) = Rsum (map (fun a => f (m - a)%nat) (seq 1 n)).
Proof.
  intros f m. induction n as [|n IH]; intros H; [reflexivity|]. rewrite (Rsum_seq_S (fun a => f (m - a)%nat)). rewrite <- IH by lia.
  replace (m - n)%nat with (S (m - S n)) by lia. cbn [seq map]. unfold Rsum. cbn [fold_right]. replace (m - (1 + n))%nat with (m - S n)%nat by lia. ring.
Qed.

Lemma energy_balance : forall m n u, (0 < m)%nat -> (0 < n)%nat ->
  Rsum (map (mode_energy (2 * m) n u) (seq 0 (2 * m)))
  = mode_energy (2 * m) n u 0 + mode_energy (2 * m) n u m + 2 * Rsum (map (mode_energy (2 * m) n u) (seq 1 (m - 1))).
Proof.
  intros m n u Hm Hn. set (E := mode_energy (2 * m) n u).
  replace (seq 0 (2 * m)) with (seq 0 m ++ seq m m) by (rewrite <- seq_app; f_equal; lia). rewrite Rsum_app.
  replace (seq 0 m) with (0%nat :: seq 1 (m - 1)) by (destruct m; [lia|]; cbn; rewrite Nat.sub_0_r; reflexivity).
  replace (seq m m) with (m :: seq (2 * m - (m - 1)) (m - 1)) by (destruct m; [lia|]; cbn [seq]; f_equal; f_equal; lia).
  unfold Rsum at 1 2. cbn [map fold_right]. change (fold_right Rplus 0 ?l) with (Rsum l).
  rewrite Rsum_rev by lia.
  rewrite (Rsum_ext _ (seq 1 (m - 1)) (fun a => E (2 * m - a)%nat) E) by (intros a Ha; apply in_seq in Ha; apply energy_mirror; lia).
  fold E. ring.
Qed.
