(** The streamwise spectra of sampled fields approach the calibrated ones. *)

From Coq Require Import String Reals List Arith Lra Lia.
From Coquelicot Require Import Coquelicot.
From Verif Require Import Prelude RdtModel SpectraModel OpsModel DataModel RdtSpec RdtProofs SpectraProofs OpsSpec OpsProofs
  QuadSpec QuadProofs QuadTensor DataSpec DataProofs VkSpec VkProofs VkFinal GenModel DftModel DftSpec DftProofs DftField EndSpec EndProofs EndDft
  HypSpec AsyFinal MidSpec MidProofs.
Import ListNotations.
Open Scope R_scope.

Lemma fold_RtoC : forall (f : nat -> R) l,
  fold_right (fun c acc => Cplus (RtoC (f c)) acc) (RtoC 0) l = RtoC (Rsum (map f l)).
Proof.
  intros f l. induction l as [|c l IH]; [reflexivity|].
  cbn [fold_right map]. rewrite IH, <- RtoC_plus. reflexivity.
Qed.

Lemma fold_ext : forall (f g : nat -> C) l, (forall c, f c = g c) ->
  fold_right (fun c acc => Cplus (f c) acc) (RtoC 0) l = fold_right (fun c acc => Cplus (g c) acc) (RtoC 0) l.
Proof. intros f g l H. induction l as [|c l IH]; [reflexivity|]. cbn [fold_right]. rewrite IH, H. reflexivity. Qed.

Lemma transverse_real : forall nx ny nz (g : nat -> nat -> R) a,
  transverse_sum (nx, ny, nz) (fun k => let '(_, b, c) := k in RtoC (g b c)) a
  = RtoC (Rsum (map (fun b => Rsum (map (fun c => g b c) (seq 0 nz))) (seq 0 ny))).
Proof.
  intros nx ny nz g a. unfold transverse_sum.
  rewrite <- (fold_RtoC (fun b => Rsum (map (fun c => g b c) (seq 0 nz)))).
  apply fold_ext. intros b. apply (fold_RtoC (fun c => g b c)).
Qed.

Section Kernel.
Variables (G : kernel) (Lx : R) (nx a : nat) (f : R -> R -> R) (i j : ix).
Hypothesis HLx : 0 < Lx.
Hypothesis Ha : (a < nx)%nat.
Hypothesis Hf : plane_continuous f.
Hypothesis HG : forall Ly Lz ny nz q r, 0 < Ly -> 0 < Lz -> Nat.Odd ny -> Nat.Odd nz ->
  row_spectrum (nx, ny, nz) (sample_vf G (Lx, Ly, Lz) (nx, ny, nz)) i j a q r
  = Cmult (RtoC ((INR nx)^2 / (Lx * Ly * Lz)))
      (transverse_sum (nx, ny, nz) (fun k => let '(_, b, c) := k in RtoC (f (physical_k Ly ny b) (physical_k Lz nz c))) a).

Lemma density_value : forall hy hz ny nz q r, 0 < hy -> 0 < hz -> Nat.Odd ny -> Nat.Odd nz ->
  Cmult (RtoC ((2 * PI)^3))
    (row_density Lx (nx, ny, nz) (sample_vf G (Lx, hy * INR ny, hz * INR nz) (nx, ny, nz)) i j a q r)
  = RtoC ((2 * PI / (hy * INR ny)) * (2 * PI / (hz * INR nz))
        * Rsum (map (fun b => Rsum (map (fun c =>
            f (physical_k (hy * INR ny) ny b) (physical_k (hz * INR nz) nz c)) (seq 0 nz))) (seq 0 ny))).
Proof.
  intros hy hz ny nz q r Hhy Hhz Oy Oz. pose proof PI_RGT_0 as Hpi.
  assert (Hy : 0 < INR ny) by (apply lt_0_INR; destruct Oy; lia).
  assert (Hz : 0 < INR nz) by (apply lt_0_INR; destruct Oz; lia).
  assert (Hx : 0 < INR nx) by (apply lt_0_INR; lia).
  unfold row_density. rewrite HG by (try assumption; apply Rmult_lt_0_compat; assumption).
  rewrite transverse_real. rewrite <- !RtoC_mult. f_equal. field. repeat split; lra.
Qed.

Lemma density_converges : forall hy hz, 0 < hy -> 0 < hz ->
  forall eps, 0 < eps -> exists n0, forall ny nz q r, Nat.Odd ny -> Nat.Odd nz -> (n0 <= ny)%nat -> (n0 <= nz)%nat ->
  Cmod (Cminus (Cmult (RtoC ((2 * PI)^3))
    (row_density Lx (nx, ny, nz) (sample_vf G (Lx, hy * INR ny, hz * INR nz) (nx, ny, nz)) i j a q r))
    (RtoC (rect_integral f (PI / hy) (PI / hz)))) <= eps.
Proof.
  intros hy hz Hhy Hhz eps Heps. destruct (modes_converge f hy hz Hhy Hhz Hf eps Heps) as [n0 Hn0].
  exists n0. intros ny nz q r Oy Oz Hny Hnz. rewrite density_value by assumption.
  rewrite <- RtoC_minus, Cmod_R. apply Hn0; assumption.
Qed.

End Kernel.

Lemma mann_density : forall hyp E0 Lk Gamma env e Lx nx a hy hz i j,
  0 < Lk -> 0 <= E0 -> le_type env = MANN -> le_L env = Lk -> le_T env = Gamma -> le_hyp env = hyp ->
  0 < Lx -> 0 < hy -> 0 < hz -> (0 < a)%nat -> (a < nx)%nat -> (2 * a <> nx)%nat ->
  let k1 := physical_k Lx nx a in
  oe_L e = Lk -> oe_M e = E0 -> (forall x, 0 < x -> oe_spec e x = vklike_energy x) ->
  (forall k2 k3, eddy_lifetime env k1 k2 k3 = Ok (oe_beta e k1 k2 k3)) -> smooth_model e k1 ->
  forall eps, 0 < eps -> exists n0, forall ny nz q r, Nat.Odd ny -> Nat.Odd nz -> (n0 <= ny)%nat -> (n0 <= nz)%nat ->
  Cmod (Cminus (Cmult (RtoC ((2 * PI)^3))
    (row_density Lx (nx, ny, nz) (sample_vf (model_kernel hyp (fun _ _ _ => 0) 1 "Mann" (CovScales Lk Gamma E0))
       (Lx, hy * INR ny, hz * INR nz) (nx, ny, nz)) i j a q r))
    (RtoC (rect_integral (undelivered (fun t => entry t i j) e k1) (PI / hy) (PI / hz)))) <= eps.
Proof.
  intros hyp E0 Lk Gamma env e Lx nx a hy hz i j HLk HE0 Ht HLe HTe Hh HLx Hhy Hhz Ha0 Ha Ha2 k1 HL HM Hspec Hbeta Hs.
  assert (Hk1 : k1 <> 0) by (apply physical_k_nonzero; assumption).
  apply density_converges; try assumption.
  - apply undelivered_continuous; [apply entry_selector | exact Hk1 | exact Hs].
  - intros Ly Lz ny nz q r HLy HLz Oy Oz.
    assert (H := mann_streamwise hyp E0 Lk Gamma env (fun b c => oe_beta e k1 (physical_k Ly ny b) (physical_k Lz nz c))
      Lx Ly Lz nx ny nz a q r i j HLk HE0 Ht HLe HTe Hh HLx HLy HLz Oy Oz Ha0 Ha Ha2).
    cbv zeta in H. rewrite H by (intros; apply Hbeta). f_equal.
    apply transverse_ext. intros b c _ _. fold k1. unfold undelivered. cbv zeta. rewrite HL, HM.
    f_equal. f_equal. f_equal. unfold forward_energy. f_equal. symmetry. apply Hspec.
    apply Rmult_lt_0_compat; [exact HLk|]. apply sqrt_lt_R0. unfold kk0_of.
    assert (0 < k1^2) by nra. nra.
Qed.

Lemma vk_streamwise : forall hyp E0 Lk Gamma Lx Ly Lz nx ny nz a q r i j,
  0 < Lk -> 0 <= E0 ->
  0 < Lx -> 0 < Ly -> 0 < Lz -> Nat.Odd ny -> Nat.Odd nz -> (0 < a)%nat -> (a < nx)%nat -> (2 * a <> nx)%nat ->
  let d := (nx, ny, nz) in let L := (Lx, Ly, Lz) in
  row_spectrum d (sample_vf (model_kernel hyp (fun _ _ _ => 0) 1 "VK" (CovScales Lk Gamma E0)) L d) i j a q r
  = Cmult (RtoC ((INR nx)^2 / (Lx * Ly * Lz)))
      (transverse_sum d (fun k => let '(_, b, c) := k in
         RtoC (entry (power_spectra_raw (forward_energy vklike_energy E0 Lk 0 (physical_k Lx nx a) (physical_k Ly ny b) (physical_k Lz nz c))
                                        0 (physical_k Lx nx a) (physical_k Ly ny b) (physical_k Lz nz c)) i j)) a).
Proof.
  intros hyp E0 Lk Gamma Lx Ly Lz nx ny nz a q r i j HLk HE Hx Hy Hz Oy Oz Ha0 Ha Ha2 d L.
  unfold d, L. rewrite streamwise_spectrum by (try assumption; intros; reflexivity). f_equal. apply transverse_ext. intros b c Hbb Hcc.
  assert (Hk1 : physical_k Lx nx a <> 0) by (apply physical_k_nonzero; assumption).
  rewrite <- fit_tensor_is_covariance by assumption.
  unfold kernel_at, model_kernel. cbn [String.eqb Ascii.eqb Bool.eqb cs_E0 cs_L cs_Gamma].
  unfold covariance, csum3, times_1j. rewrite !sheared_isotropic. reflexivity.
Qed.

Lemma vk_density_converges : forall hyp E0 Lk Gamma e Lx nx a hy hz i j,
  0 < Lk -> 0 <= E0 -> 0 < Lx -> 0 < hy -> 0 < hz -> (0 < a)%nat -> (a < nx)%nat -> (2 * a <> nx)%nat ->
  let k1 := physical_k Lx nx a in shear_free_model e Lk E0 k1 ->
  forall eps, 0 < eps -> exists n0, forall ny nz q r, Nat.Odd ny -> Nat.Odd nz -> (n0 <= ny)%nat -> (n0 <= nz)%nat ->
  Cmod (Cminus (Cmult (RtoC ((2 * PI)^3))
    (row_density Lx (nx, ny, nz) (sample_vf (model_kernel hyp (fun _ _ _ => 0) 1 "VK" (CovScales Lk Gamma E0))
       (Lx, hy * INR ny, hz * INR nz) (nx, ny, nz)) i j a q r))
    (RtoC (rect_integral (undelivered (fun t => entry t i j) e k1) (PI / hy) (PI / hz)))) <= eps.
Proof.
  intros hyp E0 Lk Gamma e Lx nx a hy hz i j HLk HE0 HLx Hhy Hhz Ha0 Ha Ha2 k1 He.
  assert (Hk1 : k1 <> 0) by (apply physical_k_nonzero; assumption).
  apply density_converges; try assumption.
  - apply undelivered_continuous; [apply entry_selector | exact Hk1 | exact (shear_free_smooth e Lk E0 k1 He HLk)].
  - intros Ly Lz ny nz q r HLy HLz Oy Oz.
    assert (H := vk_streamwise hyp E0 Lk Gamma Lx Ly Lz nx ny nz a q r i j HLk HE0 HLx HLy HLz Oy Oz Ha0 Ha Ha2).
    cbv zeta in H. rewrite H. f_equal. destruct He as (HL & HM & Hspec & Hbeta).
    apply transverse_ext. intros b c _ _. fold k1. unfold undelivered. cbv zeta. rewrite HL, HM, Hbeta.
    f_equal. f_equal. f_equal. unfold forward_energy. f_equal. symmetry. apply Hspec.
    apply Rmult_lt_0_compat; [exact HLk|]. apply sqrt_lt_R0. unfold kk0_of.
    assert (0 < k1^2) by nra. nra.
Qed.

Lemma re_close : forall (z : C) (r m eps : R), Cmod (Cminus z (RtoC r)) <= eps -> Rabs (m * Re z - m * r) <= Rabs m * eps.
Proof.
  intros z r m eps H. rewrite <- Rmult_minus_distr_l, Rabs_mult. apply Rmult_le_compat_l; [apply Rabs_pos|].
  eapply Rle_trans; [|exact H].
  replace (Re z - r) with (fst (Cminus z (RtoC r))) by (simpl; unfold Re; ring).
  eapply Rle_trans; [|apply Rmax_Cmod]. apply Rmax_l.
Qed.

Lemma im_close : forall (z : C) (r eps : R), Cmod (Cminus z (RtoC r)) <= eps -> Rabs (Im z) <= eps.
Proof.
  intros z r eps H. eapply Rle_trans; [|exact H].
  replace (Im z) with (snd (Cminus z (RtoC r))) by (simpl; unfold Im; ring).
  eapply Rle_trans; [|apply Rmax_Cmod]. apply Rmax_r.
Qed.

(** Sampled field against the quadrature of the calibration with the matching square. *)
Lemma mann_calibrated : forall hyp E0 Lk Gamma env e Lx nx a p2 i j,
  0 < Lk -> 0 <= E0 -> le_type env = MANN -> le_L env = Lk -> le_T env = Gamma -> le_hyp env = hyp ->
  0 < Lx -> (0 < a)%nat -> (a < nx)%nat -> (2 * a <> nx)%nat ->
  let k1 := physical_k Lx nx a in let h := PI / Rpower 10 p2 in
  oe_L e = Lk -> oe_M e = E0 -> (forall x, 0 < x -> oe_spec e x = vklike_energy x) ->
  (forall k2 k3, eddy_lifetime env k1 k2 k3 = Ok (oe_beta e k1 k2 k3)) -> smooth_model e k1 ->
  forall eps, 0 < eps ->
  exists n0 P1, forall p1, p1 <= P1 -> exists N0, forall ny nz q r N,
  Nat.Odd ny -> Nat.Odd nz -> (n0 <= ny)%nat -> (n0 <= nz)%nat -> (N0 <= N)%nat ->
  Rabs (k1 * Re (Cmult (RtoC ((2 * PI)^3))
    (row_density Lx (nx, ny, nz) (sample_vf (model_kernel hyp (fun _ _ _ => 0) 1 "Mann" (CovScales Lk Gamma E0))
       (Lx, h * INR ny, h * INR nz) (nx, ny, nz)) i j a q r))
    - ops_forward_raw (fun t => entry t i j) e p1 p2 N k1) <= eps.
Proof.
  intros hyp E0 Lk Gamma env e Lx nx a p2 i j HLk HE0 Ht HLe HTe Hh HLx Ha0 Ha Ha2 k1 h HL HM Hspec Hbeta Hs eps Heps.
  assert (Hk1 : k1 <> 0) by (apply physical_k_nonzero; assumption).
  pose proof PI_RGT_0 as Hpi. pose proof (Rpower10_pos p2) as H10.
  assert (Hh0 : 0 < h) by (unfold h; apply Rdiv_lt_0_compat; assumption).
  assert (Hk : 0 < Rabs k1) by (apply Rabs_pos_lt; exact Hk1).
  destruct (mann_density hyp E0 Lk Gamma env e Lx nx a h h i j HLk HE0 Ht HLe HTe Hh HLx Hh0 Hh0 Ha0 Ha Ha2 HL HM Hspec Hbeta Hs
    (eps / (2 * Rabs k1))) as [n0 Hn0]; [apply Rdiv_lt_0_compat; lra|].
  destruct (raw_converges (fun t => entry t i j) e p2 k1 (entry_selector i j) Hk1 Hs) as [_ Hr].
  destruct (Hr (eps/2)) as [P1 HP1]; [lra|].
  exists n0, P1. intros p1 Hp1. destruct (HP1 p1 Hp1) as [N0 HN0]. exists N0.
  intros ny nz q r N Oy Oz Hny Hnz HN. specialize (HN0 N HN). specialize (Hn0 ny nz q r Oy Oz Hny Hnz).
  replace (PI / h) with (Rpower 10 p2) in Hn0 by (unfold h; field; lra).
  apply (re_close _ _ k1) in Hn0. fold k1 in Hn0.
  change (rect_integral (undelivered (fun t => entry t i j) e k1) (Rpower 10 p2) (Rpower 10 p2))
    with (box_integral (fun k2 k3 => undelivered (fun t => entry t i j) e k1 k2 k3) (Rpower 10 p2)) in Hn0.
  replace (Rabs k1 * (eps / (2 * Rabs k1))) with (eps / 2) in Hn0 by (field; lra).
  set (I := k1 * box_integral (fun k2 k3 => undelivered (fun t => entry t i j) e k1 k2 k3) (Rpower 10 p2)) in *.
  match goal with |- Rabs (?u - ?v) <= _ => replace (u - v) with ((u - I) - (v - I)) by ring end.
  eapply Rle_trans; [apply Rabs_triang|]. rewrite Rabs_Ropp. lra.
Qed.

(** Sampled field of the von Karman model against the generated data. *)
Lemma vk_field_data : forall hyp E0 Lk Gamma Lx nx a h i j m f,
  0 < Lk -> 0 <= E0 -> 0 < Lx -> 0 < h -> (0 < a)%nat -> (a < nx)%nat -> (2 * a <> nx)%nat ->
  let k1 := physical_k Lx nx a in
  von_karman_at Lk E0 k1 = Ok m -> finite_matrix m f ->
  forall eps, 0 < eps -> exists n0, forall ny nz q r, Nat.Odd ny -> Nat.Odd nz -> (n0 <= ny)%nat -> (n0 <= nz)%nat ->
  Rabs (k1 * Re (Cmult (RtoC ((2 * PI)^3))
    (row_density Lx (nx, ny, nz) (sample_vf (model_kernel hyp (fun _ _ _ => 0) 1 "VK" (CovScales Lk Gamma E0))
       (Lx, h * INR ny, h * INR nz) (nx, ny, nz)) i j a q r)) - f i j)
  <= eps + 3/10 * Rabs (k1 * E0) * Rpower (/ Lk^2 + k1^2 + (PI / h)^2) (- (5/6)).
Proof.
  intros hyp E0 Lk Gamma Lx nx a h i j m f HLk HE0 HLx Hh0 Ha0 Ha Ha2 k1 Hm Hf eps Heps.
  assert (Hk1 : k1 <> 0) by (apply physical_k_nonzero; assumption).
  pose proof PI_RGT_0 as Hpi.
  assert (Hk : 0 < Rabs k1) by (apply Rabs_pos_lt; exact Hk1).
  set (e := OpsEnv Lk E0 vklike_energy (fun _ _ _ => 0)).
  assert (He : shear_free_model e Lk E0 k1) by (repeat split).
  destruct (vk_density_converges hyp E0 Lk Gamma e Lx nx a h h i j HLk HE0 HLx Hh0 Hh0 Ha0 Ha Ha2 He
    (eps / Rabs k1)) as [n0 Hn0]; [apply Rdiv_lt_0_compat; lra|].
  exists n0. intros ny nz q r Oy Oz Hny Hnz. specialize (Hn0 ny nz q r Oy Oz Hny Hnz).
  apply (re_close _ _ k1) in Hn0. fold k1 in Hn0.
  replace (Rabs k1 * (eps / Rabs k1)) with eps in Hn0 by (field; lra).
  assert (HB : 0 < PI / h) by (apply Rdiv_lt_0_compat; assumption).
  assert (Hd := exact_near_data e Lk E0 k1 (PI / h) m f i j He HLk Hk1 HB Hm Hf).
  change (rect_integral (undelivered (fun t => entry t i j) e k1) (PI / h) (PI / h))
    with (box_integral (undelivered (fun t => entry t i j) e k1) (PI / h)) in Hn0.
  set (I := k1 * box_integral (undelivered (fun t => entry t i j) e k1) (PI / h)) in *.
  match goal with |- Rabs (?u - ?v) <= _ => replace (u - v) with ((u - I) + (I - v)) by ring end.
  eapply Rle_trans; [apply Rabs_triang|]. lra.
Qed.

Lemma hyp_smooth : forall env e k1 E0, le_type env = MANN -> hypergeometric (le_hyp env) -> 0 < le_L env -> k1 <> 0 ->
  oe_L e = le_L env -> oe_M e = E0 -> oe_spec e = vklike_energy ->
  (forall k2 k3, eddy_lifetime env k1 k2 k3 = Ok (oe_beta e k1 k2 k3)) -> smooth_model e k1.
Proof.
  intros env e k1 E0 Ht Hh HL Hk1 He HM Hspec Hb. split; [rewrite He; exact HL|]. split.
  - intros x Hx. rewrite Hspec. apply (energy_continuous 0 0 x Hx).
  - apply (mann_continuous env k1); assumption.
Qed.

Lemma mann_density_hyp : forall E0 Gamma env e Lx nx a hy hz i j,
  le_type env = MANN -> hypergeometric (le_hyp env) -> 0 < le_L env -> le_T env = Gamma -> 0 <= E0 ->
  oe_L e = le_L env -> oe_M e = E0 -> oe_spec e = vklike_energy ->
  0 < Lx -> 0 < hy -> 0 < hz -> (0 < a)%nat -> (a < nx)%nat -> (2 * a <> nx)%nat ->
  let k1 := physical_k Lx nx a in
  (forall k2 k3, eddy_lifetime env k1 k2 k3 = Ok (oe_beta e k1 k2 k3)) ->
  forall eps, 0 < eps -> exists n0, forall ny nz q r, Nat.Odd ny -> Nat.Odd nz -> (n0 <= ny)%nat -> (n0 <= nz)%nat ->
  Cmod (Cminus (Cmult (RtoC ((2 * PI)^3))
    (row_density Lx (nx, ny, nz) (sample_vf (model_kernel (le_hyp env) (fun _ _ _ => 0) 1 "Mann" (CovScales (le_L env) Gamma E0))
       (Lx, hy * INR ny, hz * INR nz) (nx, ny, nz)) i j a q r))
    (RtoC (rect_integral (undelivered (fun t => entry t i j) e k1) (PI / hy) (PI / hz)))) <= eps.
Proof.
  intros E0 Gamma env e Lx nx a hy hz i j Ht Hh HL HT HE0 He HM Hspec HLx Hhy Hhz Ha0 Ha Ha2 k1 Hb.
  assert (Hk1 : k1 <> 0) by (apply physical_k_nonzero; assumption).
  assert (Hs := hyp_smooth env e k1 E0 Ht Hh HL Hk1 He HM Hspec Hb).
  apply (mann_density (le_hyp env) E0 (le_L env) Gamma env e Lx nx a hy hz i j); try assumption; try reflexivity.
  intros x Hx. rewrite Hspec. reflexivity.
Qed.

Lemma mann_calibrated_hyp : forall E0 Gamma env e Lx nx a p2 i j,
  le_type env = MANN -> hypergeometric (le_hyp env) -> 0 < le_L env -> le_T env = Gamma -> 0 <= E0 ->
  oe_L e = le_L env -> oe_M e = E0 -> oe_spec e = vklike_energy ->
  0 < Lx -> (0 < a)%nat -> (a < nx)%nat -> (2 * a <> nx)%nat ->
  let k1 := physical_k Lx nx a in let h := PI / Rpower 10 p2 in
  (forall k2 k3, eddy_lifetime env k1 k2 k3 = Ok (oe_beta e k1 k2 k3)) ->
  forall eps, 0 < eps ->
  exists n0 P1, forall p1, p1 <= P1 -> exists N0, forall ny nz q r N,
  Nat.Odd ny -> Nat.Odd nz -> (n0 <= ny)%nat -> (n0 <= nz)%nat -> (N0 <= N)%nat ->
  Rabs (k1 * Re (Cmult (RtoC ((2 * PI)^3))
    (row_density Lx (nx, ny, nz) (sample_vf (model_kernel (le_hyp env) (fun _ _ _ => 0) 1 "Mann" (CovScales (le_L env) Gamma E0))
       (Lx, h * INR ny, h * INR nz) (nx, ny, nz)) i j a q r))
    - ops_forward_raw (fun t => entry t i j) e p1 p2 N k1) <= eps.
Proof.
  intros E0 Gamma env e Lx nx a p2 i j Ht Hh HL HT HE0 He HM Hspec HLx Ha0 Ha Ha2 k1 h Hb.
  assert (Hk1 : k1 <> 0) by (apply physical_k_nonzero; assumption).
  assert (Hs := hyp_smooth env e k1 E0 Ht Hh HL Hk1 He HM Hspec Hb).
  apply (mann_calibrated (le_hyp env) E0 (le_L env) Gamma env e Lx nx a p2 i j); try assumption; try reflexivity.
  intros x Hx. rewrite Hspec. reflexivity.
Qed.

(** Without the factor the densities do not approach the data. *)
Lemma vk_field_scale : ~ (forall hyp E0 Lk Gamma Lx nx a i j m f,
  0 < Lk -> 0 <= E0 -> 0 < Lx -> (0 < a)%nat -> (a < nx)%nat -> (2 * a <> nx)%nat ->
  von_karman_at Lk E0 (physical_k Lx nx a) = Ok m -> finite_matrix m f ->
  forall eps, 0 < eps -> exists h0, 0 < h0 /\ forall h, 0 < h -> h <= h0 -> exists n0, forall ny nz,
  Nat.Odd ny -> Nat.Odd nz -> (n0 <= ny)%nat -> (n0 <= nz)%nat ->
  Rabs (physical_k Lx nx a * Re
    (row_density Lx (nx, ny, nz) (sample_vf (model_kernel hyp (fun _ _ _ => 0) 1 "VK" (CovScales Lk Gamma E0))
       (Lx, h * INR ny, h * INR nz) (nx, ny, nz)) i j a 0 0) - f i j) <= eps).
Proof.
  intros H. pose proof PI_RGT_0 as Hpi. pose proof PI2_3_2 as Hpi3.
  assert (Hk : physical_k (2 * PI) 3 1 = 1).
  { unfold physical_k. cbn [Nat.ltb Nat.leb Nat.mul Nat.add]. simpl INR. field. lra. }
  destruct (vk_published 1 1 1 ltac:(lra)) as (m & Hm & Hf).
  set (f := fun i j => _) in Hf.
  assert (HD : 9/110 <= f X1 X1).
  { unfold f. replace (/ 1^2 + 1^2) with 2 by field.
    assert (H2 : Rpower 2 (5/6) <= 2).
    { apply Rle_trans with (Rpower 2 1); [apply Rle_Rpower; lra|]. rewrite Rpower_1 by lra. lra. }
    assert (H3 : 0 < Rpower 2 (5/6)) by apply exp_pos.
    rewrite Rmult_1_l, Rmult_1_r. unfold Rdiv at 2.
    apply Rle_trans with (9/55 * / 2); [lra|]. apply Rmult_le_compat_l; [lra|]. apply Rinv_le_contravar; assumption. }
  set (D := f X1 X1) in *.
  destruct (H (fun _ => 0) 1 1 0 (2 * PI) 3%nat 1%nat X1 X1 m f) with (eps := D/4) as (h0 & Hh0 & Hc);
    [lra|lra|lra|lia|lia|lia|rewrite Hk; exact Hm|exact Hf|lra|].
  set (h := Rmin h0 (/ 100)).
  assert (Hh : 0 < h) by (unfold h; apply Rmin_pos; lra).
  destruct (Hc h Hh (Rmin_l _ _)) as (n0 & Hn0).
  destruct (vk_field_data (fun _ => 0) 1 1 0 (2 * PI) 3 1 h X1 X1 m f) with (eps := D/4) as (n1 & Hn1);
    [lra|lra|lra|exact Hh|lia|lia|lia|rewrite Hk; exact Hm|exact Hf|lra|].
  set (n := (2 * Nat.max n0 n1 + 1)%nat).
  assert (Hodd : Nat.Odd n) by (exists (Nat.max n0 n1); unfold n; lia).
  specialize (Hn0 n n Hodd Hodd ltac:(unfold n; lia) ltac:(unfold n; lia)).
  specialize (Hn1 n n 0%nat 0%nat Hodd Hodd ltac:(unfold n; lia) ltac:(unfold n; lia)).
  rewrite Hk in Hn0, Hn1.
  set (z := row_density _ _ _ _ _ _ _ _) in Hn0, Hn1.
  replace (Re (Cmult (RtoC ((2 * PI)^3)) z)) with ((2 * PI)^3 * Re z) in Hn1 by (unfold Re, Cmult, RtoC; simpl; ring).
  set (x := Re z) in *. fold D in Hn0, Hn1. rewrite !Rmult_1_l in Hn0, Hn1.
  assert (Hh2 : h <= / 100) by apply Rmin_r.
  assert (Ht : Rpower (/ 1^2 + 1^2 + (PI / h)^2) (- (5/6)) <= / 32).
  { rewrite Rpower_Ropp. apply Rinv_le_contravar; [lra|].
    apply Rle_trans with (Rpower 64 (5/6)).
    - right. replace 64 with (Rpower 2 6) by (replace 6 with (INR 6) by (simpl; ring); rewrite Rpower_pow by lra; ring).
      rewrite Rpower_mult. replace (6 * (5/6)) with (INR 5) by (simpl; field). rewrite Rpower_pow by lra. ring.
    - apply Rle_Rpower_l; [lra|]. split; [lra|].
      assert (8 <= PI / h).
      { apply Rmult_le_reg_r with h; [exact Hh|]. unfold Rdiv. rewrite Rmult_assoc, Rinv_l by lra. lra. }
      assert (0 < / 1^2) by (apply Rinv_0_lt_compat; lra). nra. }
  rewrite (Rmult_1_l 1), Rabs_R1 in Hn1.
  apply Rabs_le_between in Hn0. apply Rabs_le_between in Hn1.
  assert (H6 : 6^3 <= (2 * PI)^3) by (apply pow_incr; lra).
  nra.
Qed.
