(** Streamwise spectrum of the sampled field. *)

From Coq Require Import String Reals List ZArith Lia Lra Bool.
From Coquelicot Require Import Complex.
From Verif Require Import Prelude RdtModel SpectraModel RdtSpec RdtProofs GenModel GenMore DftModel DftSpec DftProofs DftMore DftCov DftField EndSpec.
Import ListNotations.
Open Scope R_scope.

Lemma extended_mode : forall d h k, on_grid d k -> h (mirror d k) = Cconj (h k) -> extended d h k = h k.
Proof.
  intros d h k Hk H. unfold extended. rewrite H, Cconj_conj, <- Cmult_plus_distr_r, <- RtoC_plus, share_total by exact Hk. ring.
Qed.

Lemma sample_sum : forall G L d n i x, nonempty d -> 0 < transform_norm L ->
  RtoC (sample_vf G L d n i x)
  = Cmult (RtoC (/ (count d * transform_norm L))) (csum (grid d) (fun k => Cmult (extended d (correlated G L d n i) k) (cis (theta d k x)))).
Proof.
  intros G L d n i x Hd HL. unfold sample_vf. pose proof (count_pos d Hd) as HN.
  unfold Rdiv. rewrite RtoC_mult, irfftn_extended by exact Hd. unfold ifftn. rewrite Rinv_mult, RtoC_mult. ring.
Qed.

(** Fourier sum of the field along a row. *)
Definition row_sum (d : extents) (u : node -> R) (a q r : nat) : C :=
  let '(nx, ny, nz) := d in csum (seq 0 nx) (fun p => Cmult (RtoC (u (p, q, r))) (cis (- (2 * PI * (INR a * INR p / INR nx))))).

Lemma axis_orthogonality : forall n a a', (a < n)%nat -> (a' < n)%nat ->
  csum (seq 0 n) (fun p => Cmult (cis (2 * PI * (INR a' * INR p / INR n))) (cis (- (2 * PI * (INR a * INR p / INR n)))))
  = if (a' =? a)%nat then RtoC (INR n) else RtoC 0.
Proof.
  intros n a a' Ha Ha'. rewrite <- (mode_diff n a' a Ha' Ha), <- roots_sum by lia.
  apply csum_ext. intros p _. rewrite <- cis_plus. f_equal. rewrite plus_IZR, opp_IZR, <- !INR_IZR_INZ. field. apply not_0_INR. lia.
Qed.

Lemma theta_split : forall nx ny nz a b c p q r,
  theta (nx, ny, nz) (a, b, c) (p, q, r) = 2 * PI * (INR a * INR p / INR nx) + theta (nx, ny, nz) (0, b, c)%nat (0, q, r)%nat.
Proof. intros. unfold theta. cbn [INR]. unfold Rdiv. ring. Qed.

Lemma row_sum_modes : forall G L nx ny nz n i a q r, let d := (nx, ny, nz) in nonempty d -> 0 < transform_norm L -> (a < nx)%nat ->
  row_sum d (sample_vf G L d n i) a q r
  = Cmult (RtoC (/ (INR ny * INR nz * transform_norm L)))
      (csum (seq 0 ny) (fun b => csum (seq 0 nz) (fun c =>
         Cmult (extended d (correlated G L d n i) (a, b, c)) (cis (theta d (0, b, c)%nat (0, q, r)%nat))))).
Proof.
  intros G L nx ny nz n i a q r d Hd HL Ha. pose proof Hd as (Hx & Hy & Hz).
  unfold row_sum, d at 1. set (h := extended d (correlated G L d n i)).
  rewrite (csum_ext _ _ _ (fun p => Cmult (RtoC (/ (count d * transform_norm L))) (csum (seq 0 nx) (fun a' => csum (seq 0 ny) (fun b => csum (seq 0 nz) (fun c =>
     Cmult (Cmult (h (a', b, c)) (cis (theta d (0, b, c)%nat (0, q, r)%nat)))
           (Cmult (cis (2 * PI * (INR a' * INR p / INR nx))) (cis (- (2 * PI * (INR a * INR p / INR nx)))))))))))
  by (intros p _; rewrite sample_sum by assumption; fold h; unfold d at 2; rewrite csum_grid; rewrite <- Cmult_assoc; f_equal;
      rewrite <- csum_scal_r; apply csum_ext; intros a' _; rewrite <- csum_scal_r; apply csum_ext; intros b _; rewrite <- csum_scal_r;
      apply csum_ext; intros c _; unfold d; rewrite theta_split, cis_plus; ring).
  rewrite csum_scal, csum_swap.
  rewrite (csum_pick _ _ a).
  - rewrite csum_swap.
    rewrite (csum_ext _ _ _ (fun b => Cmult (RtoC (INR nx)) (csum (seq 0 nz) (fun c => Cmult (h (a, b, c)) (cis (theta d (0, b, c)%nat (0, q, r)%nat)))))).
    + rewrite csum_scal, Cmult_assoc, <- RtoC_mult. f_equal. f_equal. unfold count, d. field.
      repeat split; try (apply not_0_INR; lia). lra.
    + intros b _. rewrite csum_swap, <- csum_scal. apply csum_ext. intros c _. rewrite csum_scal, axis_orthogonality, Nat.eqb_refl by assumption. ring.
  - apply seq_NoDup.
  - apply in_seq. lia.
  - intros a' Ha' Hne. rewrite in_seq in Ha'. rewrite csum_swap, (csum_ext _ _ _ (fun _ => RtoC 0)); [apply csum_zero|].
    intros b _. rewrite csum_swap, (csum_ext _ _ _ (fun _ => RtoC 0)); [apply csum_zero|].
    intros c _. rewrite csum_scal, axis_orthogonality by lia. destruct (Nat.eqb_spec a' a); [contradiction|]. ring.
Qed.

Lemma row_spectrum_sums : forall d T i j a q r,
  row_spectrum d T i j a q r
  = csum (grid d) (fun y => csum3 (fun l => Cmult (row_sum d (T (impulse l y) i) a q r) (Cconj (row_sum d (T (impulse l y) j) a q r)))).
Proof.
  intros [[nx ny] nz] T i j a q r. unfold row_spectrum, row_sum.
  change (csum (seq 0 nx) (fun p => csum (seq 0 nx) (fun p' =>
     Cmult (RtoC (white_covariance (nx, ny, nz) T i j (p, q, r) (p', q, r))) (cis (2 * PI * INR a * (INR p' - INR p) / INR nx))))
   = csum (grid (nx, ny, nz)) (fun y => csum3 (fun l =>
       Cmult (csum (seq 0 nx) (fun p => Cmult (RtoC (T (impulse l y) i (p, q, r))) (cis (- (2 * PI * (INR a * INR p / INR nx))))))
             (Cconj (csum (seq 0 nx) (fun p => Cmult (RtoC (T (impulse l y) j (p, q, r))) (cis (- (2 * PI * (INR a * INR p / INR nx)))))))))).
  set (d := (nx, ny, nz)).
  rewrite (csum_ext _ (grid d) _ (fun y => csum (seq 0 nx) (fun p => csum (seq 0 nx) (fun p' =>
     Cmult (RtoC (sum3 (fun l => T (impulse l y) i (p, q, r) * T (impulse l y) j (p', q, r)))) (cis (2 * PI * INR a * (INR p' - INR p) / INR nx)))))).
  - symmetry. rewrite csum_swap. apply csum_ext. intros p _. rewrite csum_swap. apply csum_ext. intros p' _.
    unfold white_covariance. rewrite Rsum_RtoC, csum_nodes_of, csum_scal_r. reflexivity.
  - intros y _. unfold csum3. rewrite !csum_conj, <- !csum_scal_r, <- !csum_plus. apply csum_ext. intros p _.
    rewrite <- !csum_scal, <- !csum_plus. apply csum_ext. intros p' _. rewrite !Cconj_mult, !Cconj_R, <- !cis_neg, Ropp_involutive.
    replace (2 * PI * INR a * (INR p' - INR p) / INR nx) with (- (2 * PI * (INR a * INR p / INR nx)) + 2 * PI * (INR a * INR p' / INR nx)) by (unfold Rdiv; ring).
    rewrite cis_plus. unfold sum3. rewrite !RtoC_plus, !RtoC_mult. ring.
Qed.

Section Row.

  Variable G : kernel.
  Variables Lx Ly Lz : R.
  Variables nx ny nz a : nat.
  Hypothesis HG : hermitian_kernel G.
  Hypothesis Hx : 0 < Lx.
  Hypothesis Hy : 0 < Ly.
  Hypothesis Hz : 0 < Lz.
  Hypothesis Ha : (a < nx)%nat.
  Hypothesis Hr : forall b c, (b < ny)%nat -> (c < nz)%nat -> regular (nx, ny, nz) (a, b, c).
  Hypothesis Hny : (0 < ny)%nat.
  Hypothesis Hnz : (0 < nz)%nat.

  Let d : extents := (nx, ny, nz).
  Let L : R * R * R := (Lx, Ly, Lz).

  Lemma row_norm : 0 < transform_norm L.
  Proof. unfold transform_norm, L. apply sqrt_lt_R0. apply Rmult_lt_0_compat; [apply Rmult_lt_0_compat|]; assumption. Qed.

  Lemma row_nonempty : nonempty d.
  Proof. unfold d, nonempty. lia. Qed.

  (** Contribution of mode (a, b, c) to the row sum of the response to an impulse. *)
  Definition piece (q r : nat) (i l : ix) (y : node) (bc : nat * nat) : C :=
    Cmult (Cmult (spectrum_at G L d (a, fst bc, snd bc) i l) (cis (theta d (0, fst bc, snd bc)%nat (0, q, r)%nat))) (cis (- theta d (a, fst bc, snd bc) y)).

  Lemma row_impulse : forall q r i l y, on_grid d y ->
    row_sum d (sample_vf G L d (impulse l y) i) a q r
    = Cmult (RtoC (/ (INR ny * INR nz * transform_norm L) * sqrt (count d))) (csum (list_prod (seq 0 ny) (seq 0 nz)) (piece q r i l y)).
  Proof.
    intros q r i l y Hyg. pose proof row_norm as HL. pose proof row_nonempty as Hd.
    unfold d at 1. rewrite row_sum_modes by assumption. fold d. rewrite RtoC_mult, <- Cmult_assoc. f_equal.
    assert (E : forall f : nat * nat -> C, csum (list_prod (seq 0 ny) (seq 0 nz)) f = csum (seq 0 ny) (fun b => csum (seq 0 nz) (fun c => f (b, c)))).
    { intros f. clear. induction (seq 0 ny) as [|b l IH]; [reflexivity|]. cbn [list_prod]. rewrite csum_app, csum_map, IH. reflexivity. }
    rewrite E, <- csum_scal. apply csum_ext. intros b Hb. rewrite <- csum_scal. apply csum_ext. intros c Hc. rewrite in_seq in Hb, Hc.
    assert (Hk : on_grid d (a, b, c)) by (unfold d, on_grid; lia).
    rewrite extended_mode.
    - rewrite impulse_correlated by exact Hyg. unfold piece. cbn [fst snd]. ring.
    - exact Hk.
    - rewrite !impulse_correlated by exact Hyg.
      rewrite spectrum_hermitian by (try exact HG; try exact Hk; apply Hr; lia).
      rewrite !Cconj_mult, Cconj_R. f_equal. rewrite cis_neg, cis_mirror by assumption. reflexivity.
  Qed.

  Lemma row_total : forall q r i j,
    row_spectrum d (sample_vf G L d) i j a q r
    = Cmult (RtoC ((INR nx)^2 / (Lx * Ly * Lz))) (transverse_sum d (fun k => covariance (kernel_at G L d k) i j) a).
  Proof.
    intros q r i j. rewrite row_spectrum_sums. pose proof row_norm as HL. pose proof row_nonempty as Hd. pose proof (count_pos d Hd) as HN.
    set (M := list_prod (seq 0 ny) (seq 0 nz)). set (t := / (INR ny * INR nz * transform_norm L) * sqrt (count d)).
    set (mode := fun bc : nat * nat => (a, fst bc, snd bc) : node).
    assert (HM : forall bc, In bc M -> on_grid d (mode bc)).
    { intros [b c] H. unfold M in H. rewrite in_prod_iff, !in_seq in H. unfold mode, d, on_grid. cbn [fst snd]. lia. }
    rewrite (csum_ext _ (grid d) _ (fun y => Cmult (RtoC (t * t)) (csum M (fun bc => csum M (fun bc' =>
       Cmult (Cmult (csum3 (fun l => Cmult (spectrum_at G L d (mode bc) i l) (Cconj (spectrum_at G L d (mode bc') j l))))
                    (cis (theta d (0, fst bc, snd bc)%nat (0, q, r)%nat - theta d (0, fst bc', snd bc')%nat (0, q, r)%nat)))
             (Cmult (cis (theta d (mode bc') y)) (cis (- theta d (mode bc) y)))))))).
    2:{ intros y Hyy. rewrite grid_In in Hyy.
        assert (Ht : forall l, Cmult (row_sum d (sample_vf G L d (impulse l y) i) a q r) (Cconj (row_sum d (sample_vf G L d (impulse l y) j) a q r))
           = Cmult (RtoC (t * t)) (csum M (fun bc => csum M (fun bc' => Cmult (piece q r i l y bc) (Cconj (piece q r j l y bc')))))).
        { intros l. rewrite !row_impulse by exact Hyy. fold M. fold t. rewrite Cconj_mult, Cconj_R, csum_conj, RtoC_mult.
          transitivity (Cmult (Cmult (RtoC t) (RtoC t)) (Cmult (csum M (piece q r i l y)) (csum M (fun bc' => Cconj (piece q r j l y bc'))))); [ring|].
          f_equal. rewrite <- csum_scal_r. apply csum_ext. intros bc _. rewrite <- csum_scal. reflexivity. }
        unfold csum3 at 1. rewrite !Ht. rewrite <- !Cmult_plus_distr_l. f_equal. rewrite <- !csum_plus. apply csum_ext. intros bc _.
        rewrite <- !csum_plus. apply csum_ext. intros bc' _. unfold piece, csum3. fold (mode bc). fold (mode bc'). rewrite !Cconj_mult.
        rewrite <- !(cis_neg (theta d (0, fst bc', snd bc')%nat (0, q, r)%nat)), <- !(cis_neg (- theta d (mode bc') y)), Ropp_involutive.
        unfold Rminus. rewrite cis_plus. ring. }
    rewrite csum_scal, csum_swap.
    rewrite (csum_ext _ M _ (fun bc => Cmult (RtoC (count d)) (covariance (spectrum_at G L d (mode bc)) i j))).
    - rewrite csum_scal, Cmult_assoc, <- RtoC_mult. f_equal.
      + f_equal. unfold t. transitivity (/ (INR ny * INR nz)^2 * / (transform_norm L)^2 * (sqrt (count d) * sqrt (count d)) * count d).
        * field. repeat split; try lra; apply not_0_INR; lia.
        * rewrite sqrt_sqrt by lra. unfold L. rewrite norm_squared by assumption. unfold count, d. field.
          repeat split; try lra; apply not_0_INR; lia.
      + unfold transverse_sum, d at 3. unfold M.
        transitivity (csum (seq 0 ny) (fun b => csum (seq 0 nz) (fun c => covariance (kernel_at G L d (a, b, c)) i j))); [|reflexivity].
        assert (E : forall f : nat * nat -> C, csum (list_prod (seq 0 ny) (seq 0 nz)) f = csum (seq 0 ny) (fun b => csum (seq 0 nz) (fun c => f (b, c)))).
        { intros f. clear. induction (seq 0 ny) as [|b l IH]; [reflexivity|]. cbn [list_prod]. rewrite csum_app, csum_map, IH. reflexivity. }
        rewrite E. apply csum_ext. intros b _. apply csum_ext. intros c _. rewrite kernel_at_spectrum by exact Hd. reflexivity.
    - intros bc Hbc. rewrite csum_swap.
      rewrite (csum_pick _ _ bc).
      + rewrite csum_scal, orthogonality by (try exact Hd; apply HM; exact Hbc).
        destruct (eqn_spec (mode bc) (mode bc)) as [_|H]; [|congruence].
        rewrite Rminus_diag_eq by reflexivity. rewrite cis_0. unfold covariance. ring.
      + apply NoDup_list_prod; apply seq_NoDup.
      + exact Hbc.
      + intros bc' Hbc' Hne. rewrite csum_scal, orthogonality by (try exact Hd; apply HM; assumption).
        destruct (eqn_spec (mode bc') (mode bc)) as [H|_]; [|ring]. exfalso. apply Hne. unfold mode in H. destruct bc, bc'. cbn [fst snd] in H. congruence.
  Qed.

End Row.

(** ** Amplitude of the sampled field *)

Lemma noise_covariance_white : forall G L d s i j x x',
  noise_covariance s d (sample_vf G L d) i j x x' = s^2 * white_covariance d (sample_vf G L d) i j x x'.
Proof.
  intros G L d s i j x x'. unfold noise_covariance, white_covariance.
  assert (E : forall l y q z, sample_vf G L d (fun m w => s * impulse l y m w) q z = s * sample_vf G L d (impulse l y) q z).
  { intros l y q z. rewrite (sample_ext G L d _ (fun m w => s * impulse l y m w + 0 * impulse l y m w)) by (intros; ring).
    rewrite sample_linear. ring. }
  rewrite <- Rsum_scale, map_map. f_equal. apply map_ext. intros y. unfold sum3. rewrite !E. ring.
Qed.

Lemma amplitude : forall G hx hy hz nx ny nz i x, let d := (nx, ny, nz) in let L := (hx * INR nx, hy * INR ny, hz * INR nz) in
  nonempty d -> 0 < hx -> 0 < hy -> 0 < hz ->
  (forall k i j, on_grid d k -> kernel_at G L d (mirror d k) i j = Cconj (kernel_at G L d k i j)) ->
  noise_covariance (sqrt (hx * hy * hz)) d (sample_vf G L d) i i x x
  = hx * hy * hz / (2 * PI)^3 * riemann_sum L d (fun k => Re (covariance (kernel_at G L d k) i i)).
Proof.
  intros G hx hy hz nx ny nz i x d L Hd Hx Hy Hz HG. pose proof Hd as (H1 & H2 & H3).
  pose proof (lt_0_INR _ H1) as P1. pose proof (lt_0_INR _ H2) as P2. pose proof (lt_0_INR _ H3) as P3.
  rewrite noise_covariance_white, pow2_sqrt by (left; repeat apply Rmult_lt_0_compat; assumption).
  pose proof (covariance_spec G (hx * INR nx) (hy * INR ny) (hz * INR nz) d i i x x Hd
    (Rmult_lt_0_compat _ _ Hx P1) (Rmult_lt_0_compat _ _ Hy P2) (Rmult_lt_0_compat _ _ Hz P3) HG) as K.
  apply (f_equal fst) in K. rewrite Cmult_RtoC_fst in K. cbn [RtoC fst] in K. fold L in K. rewrite K. clear K.
  assert (E : fst (fold_right (fun k acc => Cplus (Cmult (covariance (kernel_at G L d k) i i) (cos (angle d k x - angle d k x), sin (angle d k x - angle d k x))) acc) (RtoC 0) (nodes_of d))
     = Rsum (map (fun k => Re (covariance (kernel_at G L d k) i i)) (nodes_of d))).
  { clear. induction (nodes_of d) as [|k l IH]; [reflexivity|]. cbn [fold_right map]. unfold Rsum. cbn [fold_right]. unfold Cplus at 1. cbn [fst].
    rewrite IH. unfold Rsum. f_equal. rewrite Rminus_diag_eq by reflexivity. rewrite cos_0, sin_0. unfold Cmult, Re. cbn [fst snd]. ring. }
  rewrite E. unfold riemann_sum, L. pose proof PI_RGT_0. field. repeat split; lra.
Qed.

Lemma Rsum_pos : forall (l : list R), (forall v, In v l -> 0 <= v) -> (exists v, In v l /\ 0 < v) -> 0 < Rsum l.
Proof.
  assert (N : forall l : list R, (forall v, In v l -> 0 <= v) -> 0 <= Rsum l).
  { induction l as [|v l IH]; intros H; [cbn; lra|]. unfold Rsum; cbn [fold_right]. pose proof (H v (or_introl eq_refl)).
    pose proof (IH (fun w Hw => H w (or_intror Hw))) as K. unfold Rsum in K. lra. }
  induction l as [|v l IH]; intros H [w [Hw Pw]]; [contradiction|]. unfold Rsum; cbn [fold_right].
  pose proof (H v (or_introl eq_refl)) as Hv. pose proof (N l (fun u Hu => H u (or_intror Hu))) as K.
  destruct Hw as [<-|Hw]; [unfold Rsum in K; lra|].
  pose proof (IH (fun u Hu => H u (or_intror Hu)) (ex_intro _ w (conj Hw Pw))) as K'. unfold Rsum in K'. lra.
Qed.

Lemma vk_diag : forall E0 Lk k1 k2 k3, 
  Re (covariance (times_1j (vk_kernel E0 Lk k1 k2 k3)) X3 X3) = (kernel_const E0 Lk (kk_of k1 k2 k3))^2 * (k1^2 + k2^2).
Proof.
  intros E0 Lk k1 k2 k3. unfold covariance, csum3, times_1j, vk_kernel, cross_mat, Re.
  set (c := kernel_const E0 Lk (kk_of k1 k2 k3)). unfold Cplus, Cmult, Cconj, RtoC, Ci; cbn [fst snd]. ring.
Qed.

Lemma vk_const_pos : forall E0 Lk kk, 0 < E0 -> 0 < kernel_const E0 Lk kk.
Proof.
  intros E0 Lk kk HE. unfold kernel_const. apply sqrt_lt_R0. pose proof PI_RGT_0. apply Rdiv_lt_0_compat; [|apply exp_pos].
  apply Rdiv_lt_0_compat; [|lra]. apply Rmult_lt_0_compat; [exact HE|apply exp_pos].
Qed.

Lemma vk_riemann_pos : forall E0 Lk hx hy hz nx ny nz, 0 < E0 -> 0 < hx -> 0 < hy -> 0 < hz -> (3 <= nx)%nat -> (0 < ny)%nat -> (0 < nz)%nat ->
  let d := (nx, ny, nz) in let L := (hx * INR nx, hy * INR ny, hz * INR nz) in
  0 < riemann_sum L d (fun k => Re (covariance (kernel_at (fun k1 k2 k3 => times_1j (vk_kernel E0 Lk k1 k2 k3)) L d k) X3 X3)).
Proof.
  intros E0 Lk hx hy hz nx ny nz HE Hx Hy Hz Hnx Hny Hnz d L. unfold riemann_sum, L.
  assert (P1 : 0 < INR nx) by (apply lt_0_INR; lia). assert (P2 : 0 < INR ny) by (apply lt_0_INR; lia). assert (P3 : 0 < INR nz) by (apply lt_0_INR; lia).
  pose proof PI_RGT_0 as HPI.
  apply Rmult_lt_0_compat.
  - assert (Q : forall h n, 0 < h -> 0 < n -> 0 < 2 * PI / (h * n)).
    { intros h n Hh Hn. apply Rdiv_lt_0_compat; [lra|]. apply Rmult_lt_0_compat; assumption. }
    apply Rmult_lt_0_compat; [apply Rmult_lt_0_compat|]; apply Q; assumption.
  - apply Rsum_pos.
    + intros v Hv. rewrite in_map_iff in Hv. destruct Hv as ([[a b] c] & <- & _). unfold kernel_at, d. rewrite vk_diag.
      apply Rmult_le_pos; [apply pow2_ge_0|]. pose proof (pow2_ge_0 (physical_k (hx * INR nx) nx a)). pose proof (pow2_ge_0 (physical_k (hy * INR ny) ny b)). lra.
    + eexists. split; [apply in_map_iff; exists (1, 0, 0)%nat; split; [reflexivity|]; apply nodes_of_In; unfold d, on_grid; lia|].
      unfold kernel_at, d. rewrite vk_diag. apply Rmult_lt_0_compat; [apply pow_lt, vk_const_pos; exact HE|].
      pose proof (pow2_ge_0 (physical_k (hy * INR ny) ny 0)).
      assert (0 < (physical_k (hx * INR nx) nx 1)^2); [|lra]. apply pow_lt. unfold physical_k.
      destruct (Nat.ltb_spec (2 * 1) nx) as [_|H']; [|lia]. apply Rdiv_lt_0_compat; [cbn [INR]; lra|]. apply Rmult_lt_0_compat; assumption.
Qed.

Lemma amplitude_refuted : forall E0 Lk hx hy hz nx ny nz x, 0 < E0 -> 0 < hx -> 0 < hy -> 0 < hz ->
  all_odd (nx, ny, nz) -> (3 <= nx)%nat -> hx * hy * hz <> (2 * PI)^3 ->
  let d := (nx, ny, nz) in let L := (hx * INR nx, hy * INR ny, hz * INR nz) in
  let G := fun k1 k2 k3 => times_1j (vk_kernel E0 Lk k1 k2 k3) in
  noise_covariance (sqrt (hx * hy * hz)) d (sample_vf G L d) X3 X3 x x <> riemann_sum L d (fun k => Re (covariance (kernel_at G L d k) X3 X3)).
Proof.
  intros E0 Lk hx hy hz nx ny nz x HE Hx Hy Hz Ho Hnx Hne d L G. pose proof (odd_nonempty _ Ho) as Hd. pose proof Hd as (H1 & H2 & H3).
  assert (HGk : hermitian_kernel G) by apply RdtProofs.vk_kernel_hermitian.
  unfold d, L. rewrite (amplitude G hx hy hz nx ny nz X3 x Hd Hx Hy Hz).
  - pose proof (vk_riemann_pos E0 Lk hx hy hz nx ny nz HE Hx Hy Hz Hnx H2 H3) as P. cbv zeta in P. fold G in P.
    set (S := riemann_sum _ _ _) in *. intros E. apply Hne. pose proof PI_RGT_0 as HPI.
    assert (E1 : hx * hy * hz / (2 * PI)^3 = 1) by (apply (Rmult_eq_reg_r S); [rewrite Rmult_1_l; exact E|lra]).
    apply (Rmult_eq_reg_r (/ (2 * PI)^3)); [|apply Rinv_neq_0_compat, pow_nonzero; lra].
    unfold Rdiv in E1. rewrite E1. rewrite Rinv_r; [reflexivity|apply pow_nonzero; lra].
  - intros k i j Hk. rewrite !kernel_at_spectrum by exact Hd. apply odd_hermitian; assumption.
Qed.

(** ** Statements *)

Lemma streamwise_spectrum : forall hyp net h_ref model cs Lx Ly Lz nx ny nz a q r i j, (forall k1 k2 k3, net (- k1) (- k2) (- k3) = net k1 k2 k3) ->
  0 < Lx -> 0 < Ly -> 0 < Lz -> Nat.Odd ny -> Nat.Odd nz -> (a < nx)%nat -> (2 * a <> nx)%nat ->
  let d := (nx, ny, nz) in let L := (Lx, Ly, Lz) in let G := model_kernel hyp net h_ref model cs in
  row_spectrum d (sample_vf G L d) i j a q r
  = Cmult (RtoC ((INR nx)^2 / (Lx * Ly * Lz))) (transverse_sum d (fun k => covariance (kernel_at G L d k) i j) a).
Proof.
  intros hyp net h_ref model cs Lx Ly Lz nx ny nz a q r i j Hnet Hx Hy Hz [my Hmy] [mz Hmz] Ha Ha2 d L G.
  apply row_total; try assumption; try lia.
  - apply model_hermitian. exact Hnet.
  - intros b c Hb Hc. unfold regular. lia.
Qed.

Lemma transverse_ext : forall nx ny nz (f g : node -> C) a, (forall b c, (b < ny)%nat -> (c < nz)%nat -> f (a, b, c) = g (a, b, c)) ->
  transverse_sum (nx, ny, nz) f a = transverse_sum (nx, ny, nz) g a.
Proof.
  intros nx ny nz f g a H. unfold transverse_sum.
  change (csum (seq 0 ny) (fun b => csum (seq 0 nz) (fun c => f (a, b, c))) = csum (seq 0 ny) (fun b => csum (seq 0 nz) (fun c => g (a, b, c)))).
  apply csum_ext. intros b Hb. apply csum_ext. intros c Hc. rewrite in_seq in Hb, Hc. apply H; lia.
Qed.

Lemma physical_k_nonzero : forall L n a, 0 < L -> (0 < a)%nat -> (a < n)%nat -> physical_k L n a <> 0.
Proof.
  intros L n a HL Ha Han. unfold physical_k. pose proof PI_RGT_0. apply lt_INR in Han. apply lt_0_INR in Ha.
  destruct (2 * a <? n)%nat.
  - apply Rgt_not_eq, Rlt_gt, Rdiv_lt_0_compat; [|exact HL]. nra.
  - apply Rlt_not_eq, Ropp_lt_gt_0_contravar, Rdiv_lt_0_compat; [|exact HL]. nra.
Qed.

Lemma transverse_odd : forall dims lx ly lz L T blend g, make_geometry dims (lx, S ly, S lz) L T blend = Ok g ->
  (0 <= g_my g)%Z -> (0 <= g_mz g)%Z ->
  let '(_, ny, nz) := noise_shape g in Nat.Odd (Z.to_nat ny) /\ Nat.Odd (Z.to_nat nz).
Proof.
  intros [[Lx Ly] Lz] lx ly lz L T blend g H Hy Hz. unfold make_geometry in H.
  destruct (Reqb _ 0); [destruct (Reqb _ 0); discriminate|]. destruct (Reqb _ 0); [destruct (Reqb _ 0); discriminate|].
  destruct (Reqb _ 0); [destruct (Reqb _ 0); discriminate|]. injection H as <-. unfold noise_shape. cbn [g_my g_mz g_Ny g_Nz] in *.
  set (u := Zceil (L / (Ly / INR (nodes (S ly))))) in *. set (v := Zceil (L / (Lz / INR (nodes (S lz))))) in *. clearbody u v.
  assert (E : forall l w, (0 <= w)%Z -> Nat.Odd (Z.to_nat (Z.of_nat (nodes (S l)) + 2 * w))).
  { intros l w Hw. exists (2 ^ l + Z.to_nat w)%nat. unfold nodes. rewrite Nat.pow_succ_r'. lia. }
  split; apply E; assumption.
Qed.

Lemma mann_streamwise : forall hyp E0 Lk Gamma env beta Lx Ly Lz nx ny nz a q r i j,
  0 < Lk -> 0 <= E0 -> le_type env = MANN -> le_L env = Lk -> le_T env = Gamma -> le_hyp env = hyp ->
  0 < Lx -> 0 < Ly -> 0 < Lz -> Nat.Odd ny -> Nat.Odd nz -> (0 < a)%nat -> (a < nx)%nat -> (2 * a <> nx)%nat ->
  (forall b c, (b < ny)%nat -> (c < nz)%nat -> eddy_lifetime env (physical_k Lx nx a) (physical_k Ly ny b) (physical_k Lz nz c) = Ok (beta b c)) ->
  let d := (nx, ny, nz) in let L := (Lx, Ly, Lz) in
  row_spectrum d (sample_vf (model_kernel hyp (fun _ _ _ => 0) 1 "Mann" (CovScales Lk Gamma E0)) L d) i j a q r
  = Cmult (RtoC ((INR nx)^2 / (Lx * Ly * Lz)))
      (transverse_sum d (fun k => let '(_, b, c) := k in
         RtoC (entry (power_spectra_raw (forward_energy vklike_energy E0 Lk (beta b c) (physical_k Lx nx a) (physical_k Ly ny b) (physical_k Lz nz c))
                                        (beta b c) (physical_k Lx nx a) (physical_k Ly ny b) (physical_k Lz nz c)) i j)) a).
Proof.
  intros hyp E0 Lk Gamma env beta Lx Ly Lz nx ny nz a q r i j HLk HE H1 H2 H3 H4 Hx Hy Hz Oy Oz Ha0 Ha Ha2 Hb d L.
  unfold d, L. rewrite streamwise_spectrum by (try assumption; intros; reflexivity). f_equal. apply transverse_ext. intros b c Hbb Hcc.
  unfold kernel_at, model_kernel. cbn [String.eqb Ascii.eqb Bool.eqb cs_E0 cs_L cs_Gamma].
  apply (mann_kernel_matches_fit hyp E0 Lk Gamma (physical_k Lx nx a) (physical_k Ly ny b) (physical_k Lz nz c) i j) with (env := env); try assumption.
  - apply physical_k_nonzero; assumption.
  - apply Hb; assumption.
Qed.
