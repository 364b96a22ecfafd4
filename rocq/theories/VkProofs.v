(** The cross-stream integrals of the shear-free model with the von Karman energy
    spectrum. *)

From Coq Require Import Reals List Lra Lia.
From Coquelicot Require Import Coquelicot.
From Verif Require Import Prelude RdtModel SpectraModel OpsModel RdtSpec RdtProofs SpectraProofs OpsSpec OpsProofs
  QuadSpec QuadProofs QuadTensor BoxProofs.
Open Scope R_scope.

(** ** Algebra of integrals over a square *)

Lemma box_lin : forall f g a b B, plane_continuous f -> plane_continuous g ->
  box_integral (fun x y => a * f x y + b * g x y) B = a * box_integral f B + b * box_integral g B.
Proof.
  intros f g a b B Hf Hg. unfold box_integral.
  assert (Hfx : forall h x, plane_continuous h -> ex_RInt (fun y => h x y) (- B) B) by (intros; apply slice_ex_any; assumption).
  assert (Hfo : forall h, plane_continuous h -> ex_RInt (fun x => RInt (fun y => h x y) (- B) B) (- B) B).
  { intros h Hh. apply (@ex_RInt_continuous R_CompleteNormedModule). intros z _. apply inner_continuous_any. exact Hh. }
  assert (L1 : forall (u v : R -> R), ex_RInt u (- B) B -> ex_RInt v (- B) B ->
    RInt (fun y => a * u y + b * v y) (- B) B = a * RInt u (- B) B + b * RInt v (- B) B).
  { intros u v Hu Hv.
    transitivity (RInt (fun y => plus (scal a (u y)) (scal b (v y))) (- B) B); [reflexivity|].
    rewrite (RInt_plus (V := R_CompleteNormedModule));
      [| apply (ex_RInt_scal (V := R_CompleteNormedModule)); exact Hu | apply (ex_RInt_scal (V := R_CompleteNormedModule)); exact Hv].
    rewrite !(RInt_scal (V := R_CompleteNormedModule)) by assumption. reflexivity. }
  transitivity (RInt (fun x => a * RInt (fun y => f x y) (- B) B + b * RInt (fun y => g x y) (- B) B) (- B) B).
  - apply RInt_ext. intros x _. apply L1; apply Hfx; assumption.
  - apply L1; apply Hfo; assumption.
Qed.

Lemma RInt_odd : forall (f : R -> R) B, (forall x, continuous f x) -> (forall x, f (- x) = - f x) -> RInt f (- B) B = 0.
Proof.
  intros f B Hc Ho.
  assert (Hex : forall a b, ex_RInt f a b) by (intros; apply (@ex_RInt_continuous R_CompleteNormedModule); intros z _; apply Hc).
  assert (H : RInt f (- B) B = - RInt f (- B) B).
  { transitivity (RInt (fun y => - f (- y)) (- B) B).
    - apply RInt_ext. intros x _. change (@eq R (f x) (- f (- x))). rewrite Ho. symmetry. apply Ropp_involutive.
    - assert (H0 := RInt_comp_lin f (- (1)) 0 (- B) B (Hex _ _)).
      transitivity (RInt f (- (1) * - B + 0) (- (1) * B + 0)).
      + rewrite <- H0. apply RInt_ext. intros x _. change (@eq R (- f (- x)) (- (1) * f (- (1) * x + 0))).
        replace (- (1) * x + 0) with (- x) by ring. ring.
      + rewrite <- (opp_RInt_swap f) by apply Hex. unfold opp; simpl. f_equal.
        apply RInt_bounds; ring. }
  lra.
Qed.

Lemma box_odd_y : forall f B, plane_continuous f -> (forall x y, f x (- y) = - f x y) -> box_integral f B = 0.
Proof.
  intros f B Hf Ho. unfold box_integral.
  transitivity (RInt (fun _ : R => 0) (- B) B).
  - apply RInt_ext. intros x _. apply RInt_odd; [|intros y; apply Ho]. intros y. apply slice_cont. exact Hf.
  - rewrite RInt_const. unfold scal; simpl; unfold mult; simpl. ring.
Qed.

Lemma box_odd_x : forall f B, plane_continuous f -> (forall x y, f (- x) y = - f x y) -> box_integral f B = 0.
Proof.
  intros f B Hf Ho. unfold box_integral.
  apply RInt_odd.
  - intros x. apply inner_continuous_any. exact Hf.
  - intros x. transitivity (RInt (fun y => opp (f x y)) (- B) B).
    + apply RInt_ext. intros y _. rewrite Ho. reflexivity.
    + rewrite (RInt_opp (V := R_CompleteNormedModule)) by (apply slice_ex_any; exact Hf). reflexivity.
Qed.

(** ** Powers *)

Lemma power_plane : forall A p, 0 < A -> plane_continuous (fun x y => Rpower (A + (x^2 + y^2)) (- p)).
Proof.
  intros A p HA. apply plane_cont. intros x y. apply c_Rpower.
  - apply c_plus; [apply c_const|]. apply c_plus; apply c_pow; [apply continuous_fst | apply continuous_snd].
  - simpl. nra.
Qed.

Lemma arc : RInt (fun t => / (1 + t^2)) (- (1)) 1 = PI / 2.
Proof.
  apply is_RInt_unique. evar_last.
  - apply (is_RInt_derive atan (fun t => / (1 + t^2))).
    + intros t _. apply is_derive_Reals. apply derivable_pt_lim_atan.
    + intros t _. apply (@ex_derive_continuous R_AbsRing R_NormedModule). auto_derive. nra.
  - rewrite atan_opp, atan_1. unfold minus, plus, opp; simpl. field.
Qed.

Lemma arc_ex : forall c, ex_RInt (fun t => c * / (1 + t^2)) (- (1)) 1.
Proof.
  intros c. apply (@ex_RInt_continuous R_CompleteNormedModule). intros z _.
  apply (@ex_derive_continuous R_AbsRing R_NormedModule). auto_derive. nra.
Qed.

Lemma arc_scal : forall c, RInt (fun t => c * / (1 + t^2)) (- (1)) 1 = c * (PI / 2).
Proof.
  intros c. transitivity (RInt (fun t => scal c (/ (1 + t^2))) (- (1)) 1); [reflexivity|].
  rewrite (RInt_scal (V := R_CompleteNormedModule)).
  - rewrite arc. reflexivity.
  - apply (ex_RInt_ext (fun t => 1 * / (1 + t^2))); [intros; toR; ring | apply arc_ex].
Qed.

(** The integral of a radial power over the square, up to the part outside. *)
Lemma power_box : forall A p B, 0 < A -> 1 < p -> 0 < B ->
  PI / (p - 1) * (Rpower A (1 - p) - Rpower (A + B^2) (1 - p))
  <= box_integral (fun x y => Rpower (A + (x^2 + y^2)) (- p)) B
  <= PI / (p - 1) * Rpower A (1 - p).
Proof.
  intros A p B HA Hp HB.
  set (phi := fun u => Rpower (A + u) (- p)).
  set (F := fun u => - Rpower (A + u) (1 - p) / (p - 1)).
  assert (HF : forall u, 0 <= u -> is_derive F u (phi u)).
  { intros u Hu. unfold F, phi, Rpower. auto_derive; [lra|].
    replace (exp (- p * ln (A + u))) with (exp ((1 - p) * ln (A + u)) * / (A + u)).
    - field. split; lra.
    - replace (/ (A + u)) with (exp (- ln (A + u))) by (rewrite exp_Ropp, exp_ln by lra; reflexivity).
      rewrite <- exp_plus. f_equal. ring. }
  assert (Hphi : forall u, 0 <= u -> continuity_pt phi u).
  { intros u Hu. apply continuity_pt_filterlim. apply (@ex_derive_continuous R_AbsRing R_NormedModule).
    unfold phi, Rpower. auto_derive. lra. }
  assert (HR : box_integral (fun x y => Rpower (A + (x^2 + y^2)) (- p)) B = rays F B).
  { exact (radial_box phi F Hphi HF B HB). }
  rewrite HR. unfold rays.
  assert (Hex : ex_RInt (fun t => (F (B^2 * (1 + t^2)) - F 0) / (1 + t^2)) (- (1)) 1).
  { apply (@ex_RInt_continuous R_CompleteNormedModule). intros z _. exact (ray_cont phi F HF B z). }
  assert (HF0 : F 0 = - Rpower A (1 - p) / (p - 1)) by (unfold F; rewrite Rplus_0_r; reflexivity).
  assert (Hp1 : 0 < / (p - 1)) by (apply Rinv_0_lt_compat; lra).
  assert (Hup : RInt (fun t => (F (B^2 * (1 + t^2)) - F 0) / (1 + t^2)) (- (1)) 1
                <= RInt (fun t => (/ (p - 1) * Rpower A (1 - p)) * / (1 + t^2)) (- (1)) 1).
  { apply RInt_le; [lra | exact Hex | apply arc_ex |]. intros t _.
    unfold Rdiv at 1. apply Rmult_le_compat_r; [left; apply Rinv_0_lt_compat; nra|].
    rewrite HF0. unfold F. assert (0 < Rpower (A + B^2 * (1 + t^2)) (1 - p)) by apply exp_pos.
    unfold Rdiv. nra. }
  assert (Hlo : RInt (fun t => (/ (p - 1) * (Rpower A (1 - p) - Rpower (A + B^2) (1 - p))) * / (1 + t^2)) (- (1)) 1
                <= RInt (fun t => (F (B^2 * (1 + t^2)) - F 0) / (1 + t^2)) (- (1)) 1).
  { apply RInt_le; [lra | apply arc_ex | exact Hex |]. intros t _.
    unfold Rdiv at 1. apply Rmult_le_compat_r; [left; apply Rinv_0_lt_compat; nra|].
    rewrite HF0. unfold F.
    assert (Rpower (A + B^2 * (1 + t^2)) (1 - p) <= Rpower (A + B^2) (1 - p)).
    { replace (1 - p) with (- (p - 1)) by ring. rewrite !Rpower_Ropp.
      apply Rinv_le_contravar; [apply exp_pos|]. apply Rle_Rpower_l; [lra|]. split; [nra|].
      assert (0 <= B^2 * t^2) by (apply Rmult_le_pos; nra). nra. }
    unfold Rdiv. nra. }
  rewrite arc_scal in Hup, Hlo.
  split.
  - replace (PI / (p - 1) * (Rpower A (1 - p) - Rpower (A + B^2) (1 - p)))
      with (2 * (/ (p - 1) * (Rpower A (1 - p) - Rpower (A + B^2) (1 - p)) * (PI / 2))) by (field; lra).
    lra.
  - replace (PI / (p - 1) * Rpower A (1 - p)) with (2 * (/ (p - 1) * Rpower A (1 - p) * (PI / 2))) by (field; lra).
    lra.
Qed.

(** ** The tensor of the shear-free model *)

Lemma vk_density : forall C L k1 k2 k3 i j, 0 < L -> k1 <> 0 ->
  entry (power_spectra_raw (forward_energy vklike_energy C L 0 k1 k2 k3) 0 k1 k2 k3) i j
  = C / (4 * PI) * Rpower ((/ L^2 + k1^2) + (k2^2 + k3^2)) (- (17/6))
    * (normsq (vec k1 k2 k3) * delta i j - vec k1 k2 k3 i * vec k1 k2 k3 j).
Proof.
  intros C L k1 k2 k3 i j HL Hk1.
  rewrite raw_isotropic by exact Hk1. unfold iso_tensor. f_equal.
  assert (Hkk : kk0_of 0 k1 k2 k3 = kk_of k1 k2 k3) by (unfold kk0_of, kk_of, k30_of; ring).
  assert (Hn : normsq (vec k1 k2 k3) = kk_of k1 k2 k3) by (unfold normsq, kk_of, sum3, vec; ring).
  unfold forward_energy. rewrite Hkk, Hn.
  assert (H0 : 0 < kk_of k1 k2 k3) by (unfold kk_of; nra).
  pose proof PI_RGT_0 as Hpi.
  assert (He := energy_const C L (kk_of k1 k2 k3) H0 HL).
  transitivity (C * Rpower L (5 / 3) * vklike_energy (L * sqrt (kk_of k1 k2 k3)) / (4 * PI) / kk_of k1 k2 k3 ^ 2).
  - field. split; lra.
  - rewrite He. rewrite Rpower_Ropp.
    assert (HLi : 0 < / L^2) by (apply Rinv_0_lt_compat; nra).
    replace (1 + L^2 * kk_of k1 k2 k3) with (L^2 * (/ L^2 + k1^2 + (k2^2 + k3^2)))
      by (unfold kk_of; field; lra).
    rewrite <- (Rpower_mult_distr (L^2)) by nra.
    replace (Rpower (L^2) (17/6)) with (Rpower L (17/3)).
    + assert (0 < Rpower L (17/3)) by apply exp_pos.
      assert (0 < Rpower (/ L^2 + k1^2 + (k2^2 + k3^2)) (17/6)) by apply exp_pos.
      field. repeat split; lra.
    + replace (L^2) with (Rpower L 2) by (change 2 with (INR 2); rewrite Rpower_pow by exact HL; reflexivity).
      rewrite Rpower_mult. f_equal. field.
Qed.

Section Integrals.
Variables (L C k1 : R).
Hypothesis HL : 0 < L.
Hypothesis Hk1 : k1 <> 0.

Let A : R := / L^2 + k1^2.
Let P17 (x y : R) : R := Rpower (A + (x^2 + y^2)) (- (17/6)).
Let P11 (x y : R) : R := Rpower (A + (x^2 + y^2)) (- (11/6)).

Lemma A_pos : 0 < A.
Proof. unfold A. assert (0 < / L^2) by (apply Rinv_0_lt_compat; nra). nra. Qed.

Lemma P17_cont : plane_continuous P17.
Proof. apply power_plane. exact A_pos. Qed.

Lemma P11_cont : plane_continuous P11.
Proof. apply power_plane. exact A_pos. Qed.

Lemma poly_cont : forall (q : R * R -> R), (forall z, continuous q z) -> plane_continuous (fun x y => q (x, y) * P17 x y).
Proof.
  intros q Hq. apply plane_cont. intros x y. apply c_mult.
  - apply continuous_ext with q; [intros [u v]; reflexivity | apply Hq].
  - exact (proj1 (plane_cont _) P17_cont x y).
Qed.

Lemma xx_cont : plane_continuous (fun x y => x^2 * P17 x y).
Proof. apply (poly_cont (fun z => fst z ^ 2)). intros z. apply c_pow. apply continuous_fst. Qed.

Lemma yy_cont : plane_continuous (fun x y => y^2 * P17 x y).
Proof. apply (poly_cont (fun z => snd z ^ 2)). intros z. apply c_pow. apply continuous_snd. Qed.

Lemma x_cont : plane_continuous (fun x y => x * P17 x y).
Proof. apply (poly_cont (fun z => fst z)). intros z. apply continuous_fst. Qed.

Lemma y_cont : plane_continuous (fun x y => y * P17 x y).
Proof. apply (poly_cont (fun z => snd z)). intros z. apply continuous_snd. Qed.

Lemma xy_cont : plane_continuous (fun x y => (x * y) * P17 x y).
Proof. apply (poly_cont (fun z => fst z * snd z)). intros z. apply c_mult; [apply continuous_fst | apply continuous_snd]. Qed.

Lemma P_step : forall x y, x^2 * P17 x y + y^2 * P17 x y = 1 * P11 x y + - A * P17 x y.
Proof.
  intros x y. unfold P11, P17. pose proof A_pos as HA.
  assert (H0 : 0 < A + (x^2 + y^2)) by nra.
  replace (- (11/6)) with (- (17/6) + 1) by field. rewrite Rpower_plus, (Rpower_1 _ H0). ring.
Qed.

Variable B : R.
Hypothesis HB : 0 < B.

Let J17 : R := box_integral P17 B.
Let J11 : R := box_integral P11 B.
Let D : R := Rpower (A + B^2) (- (5/6)).

Lemma even_halves :
  box_integral (fun x y => x^2 * P17 x y) B = (J11 - A * J17) / 2 /\
  box_integral (fun x y => y^2 * P17 x y) B = (J11 - A * J17) / 2.
Proof.
  assert (Hs : box_integral (fun x y => x^2 * P17 x y) B = box_integral (fun x y => y^2 * P17 x y) B).
  { rewrite (box_swap _ B HB xx_cont). apply box_ext. intros x y. unfold P17. f_equal. f_equal. ring. }
  assert (Ht : box_integral (fun x y => 1 * (x^2 * P17 x y) + 1 * (y^2 * P17 x y)) B
               = box_integral (fun x y => 1 * P11 x y + - A * P17 x y) B).
  { apply box_ext. intros x y. rewrite <- P_step. ring. }
  rewrite (box_lin _ _ 1 1 B xx_cont yy_cont), (box_lin _ _ 1 (- A) B P11_cont P17_cont) in Ht.
  unfold J11, J17. split; lra.
Qed.

(** The two radial integrals and the part outside the square. *)
Lemma J_bounds :
  PI * (6/11) * (Rpower A (- (11/6)) - Rpower (A + B^2) (- (11/6))) <= J17 <= PI * (6/11) * Rpower A (- (11/6)) /\
  PI * (6/5) * (Rpower A (- (5/6)) - D) <= J11 <= PI * (6/5) * Rpower A (- (5/6)).
Proof.
  pose proof A_pos as HA.
  assert (H17 := power_box A (17/6) B HA ltac:(lra) HB).
  assert (H11 := power_box A (11/6) B HA ltac:(lra) HB).
  replace (1 - 17/6) with (- (11/6)) in H17 by field. replace (1 - 11/6) with (- (5/6)) in H11 by field.
  replace (PI / (17/6 - 1)) with (PI * (6/11)) in H17 by field.
  replace (PI / (11/6 - 1)) with (PI * (6/5)) in H11 by field.
  split; [exact H17 | exact H11].
Qed.

Lemma shift_power : forall X, 0 < X -> Rpower X (- (5/6)) = X * Rpower X (- (11/6)).
Proof.
  intros X HX. replace (- (5/6)) with (1 + - (11/6)) by field. rewrite Rpower_plus, (Rpower_1 _ HX). reflexivity.
Qed.

(** Deficits of the two integrals, both between nothing and the outside part. *)
Lemma deficits : exists d17 d11, 0 <= d17 /\ 0 <= d11 /\
  J17 = PI * (6/11) * Rpower A (- (11/6)) - d17 /\ J11 = PI * (6/5) * Rpower A (- (5/6)) - d11 /\
  A * d17 <= PI * (6/11) * D /\ d11 <= PI * (6/5) * D.
Proof.
  destruct J_bounds as [[H1 H2] [H3 H4]]. pose proof A_pos as HA. pose proof PI_RGT_0 as Hpi.
  exists (PI * (6/11) * Rpower A (- (11/6)) - J17), (PI * (6/5) * Rpower A (- (5/6)) - J11).
  assert (HD : D = (A + B^2) * Rpower (A + B^2) (- (11/6))) by (apply shift_power; nra).
  assert (Hp : 0 < Rpower (A + B^2) (- (11/6))) by apply exp_pos.
  repeat split; try lra.
  apply Rle_trans with (A * (PI * (6/11) * Rpower (A + B^2) (- (11/6)))).
  - apply Rmult_le_compat_l; lra.
  - rewrite HD. set (q := Rpower (A + B^2) (- (11/6))) in *.
    replace (A * (PI * (6/11) * q)) with (PI * (6/11) * (A * q)) by ring.
    apply Rmult_le_compat_l; [lra|]. apply Rmult_le_compat_r; nra.
Qed.

Lemma abs_between : forall c d M, Rabs d <= M -> Rabs (c * d) <= Rabs c * M.
Proof. intros c d M H. rewrite Rabs_mult. apply Rmult_le_compat_l; [apply Rabs_pos | exact H]. Qed.

(** Every entry of the integrated tensor. *)
Lemma vk_box : forall i j,
  Rabs (box_integral (fun k2 k3 => C / (4 * PI) * P17 k2 k3
          * (normsq (vec k1 k2 k3) * delta i j - vec k1 k2 k3 i * vec k1 k2 k3 j)) B
        - match i, j with
          | X1, X1 => 9/55 * C / Rpower A (5/6)
          | X2, X2 | X3, X3 => 3/110 * C * (3 / L^2 + 8 * k1^2) / Rpower A (11/6)
          | _, _ => 0 end)
  <= 3/10 * Rabs C * D.
Proof.
  intros i j. pose proof A_pos as HA. pose proof PI_RGT_0 as Hpi.
  assert (HDp : 0 < D) by apply exp_pos.
  set (c := C / (4 * PI)).
  assert (HC : C = c * (4 * PI)) by (unfold c; field; lra).
  assert (H0 : 0 <= 3/10 * Rabs C * D) by (pose proof (Rabs_pos C); apply Rmult_le_pos; [lra|lra]).
  assert (Hodd : forall (f g : R -> R -> R) (a : R), (forall x y, f x y = a * g x y) -> plane_continuous g -> box_integral g B = 0 ->
    box_integral f B = 0).
  { intros f g a Hfg Hg Hz. rewrite (box_ext f (fun x y => a * g x y + 0 * g x y)) by (intros; rewrite Hfg; ring).
    rewrite (box_lin g g a 0 B Hg Hg), Hz. ring. }
  assert (Zx : box_integral (fun x y => x * P17 x y) B = 0).
  { apply (box_odd_x _ B x_cont). intros x y. unfold P17. replace ((- x)^2) with (x^2) by ring. ring. }
  assert (Zy : box_integral (fun x y => y * P17 x y) B = 0).
  { apply (box_odd_y _ B y_cont). intros x y. unfold P17. replace ((- y)^2) with (y^2) by ring. ring. }
  assert (Zxy : box_integral (fun x y => (x * y) * P17 x y) B = 0).
  { apply (box_odd_y _ B xy_cont). intros x y. unfold P17. replace ((- y)^2) with (y^2) by ring. ring. }
  destruct even_halves as [Hxx Hyy]. destruct deficits as (d17 & d11 & Hd17 & Hd11 & E17 & E11 & B17 & B11).
  assert (S56 : Rpower A (- (5/6)) = A * Rpower A (- (11/6))) by (apply shift_power; exact HA).
  assert (HkA : k1^2 <= A) by (unfold A; assert (0 < / L^2) by (apply Rinv_0_lt_compat; nra); lra).
  assert (HK : Rabs C = Rabs c * (4 * PI)).
  { rewrite HC at 1. rewrite Rabs_mult, (Rabs_pos_eq (4 * PI)) by lra. reflexivity. }
  assert (HBp : k1^2 * d17 <= PI * (6/11) * D).
  { apply Rle_trans with (A * d17); [apply Rmult_le_compat_r; assumption | exact B17]. }
  assert (HAd : 0 <= A * d17) by (apply Rmult_le_pos; lra).
  assert (Hkd : 0 <= k1^2 * d17) by (apply Rmult_le_pos; [nra | lra]).
  assert (Hq : 0 < Rpower A (11/6)) by apply exp_pos. assert (Hq5 : 0 < Rpower A (5/6)) by apply exp_pos.
  assert (HL2 : 3 / L^2 + 8 * k1^2 = 3 * A + 5 * k1^2) by (unfold A; field; lra).
  (* the cross-stream diagonal entries share their value *)
  assert (Hside : forall v, v = k1^2 * J17 + (J11 - A * J17) / 2 ->
    Rabs (c * v - 3/110 * C * (3 / L^2 + 8 * k1^2) / Rpower A (11/6)) <= 3/10 * Rabs C * D).
  { intros v Hv.
    replace (c * v - 3/110 * C * (3 / L^2 + 8 * k1^2) / Rpower A (11/6)) with (c * (- (k1^2 * d17) - (d11 - A * d17) / 2)).
    - apply Rle_trans with (Rabs c * (PI * (6/5) * D)).
      + apply abs_between. apply Rabs_le. split; lra.
      + rewrite HK. pose proof (Rabs_pos c). right. field.
    - rewrite Hv, HL2, E17, E11, S56, HC, Rpower_Ropp. field. lra. }
  destruct i, j; simpl delta; simpl vec;
    try (rewrite Hodd with (g := fun x y => x * P17 x y) (a := - c * k1);
         [rewrite Rminus_0_r, Rabs_R0; exact H0 | intros x y; ring | exact x_cont | exact Zx]);
    try (rewrite Hodd with (g := fun x y => y * P17 x y) (a := - c * k1);
         [rewrite Rminus_0_r, Rabs_R0; exact H0 | intros x y; ring | exact y_cont | exact Zy]);
    try (rewrite Hodd with (g := fun x y => (x * y) * P17 x y) (a := - c);
         [rewrite Rminus_0_r, Rabs_R0; exact H0 | intros x y; ring | exact xy_cont | exact Zxy]).
  - rewrite (box_ext _ (fun x y => c * (x^2 * P17 x y) + c * (y^2 * P17 x y)))
      by (intros x y; unfold normsq, sum3, vec; ring).
    rewrite (box_lin _ _ c c B xx_cont yy_cont), Hxx, Hyy.
    replace (c * ((J11 - A * J17) / 2) + c * ((J11 - A * J17) / 2) - 9/55 * C / Rpower A (5/6))
      with (c * (A * d17 - d11)).
    + apply Rle_trans with (Rabs c * (PI * (6/5) * D)).
      * apply abs_between. apply Rabs_le. split; [lra|].
        assert (PI * (6/11) * D <= PI * (6/5) * D) by (apply Rmult_le_compat_r; lra). lra.
      * rewrite HK. right. field.
    + rewrite E17, E11, HC. replace (Rpower A (- (11/6))) with (Rpower A (- (5/6)) / A) by (rewrite S56; field; lra).
      rewrite Rpower_Ropp. field. split; lra.
  - rewrite (box_ext _ (fun x y => (c * k1^2) * P17 x y + c * (y^2 * P17 x y)))
      by (intros x y; unfold normsq, sum3, vec; ring).
    rewrite (box_lin _ _ _ c B P17_cont yy_cont), Hyy. fold J17.
    replace (c * k1^2 * J17 + c * ((J11 - A * J17) / 2)) with (c * (k1^2 * J17 + (J11 - A * J17) / 2)) by ring.
    apply Hside. reflexivity.
  - rewrite (box_ext _ (fun x y => (c * k1^2) * P17 x y + c * (x^2 * P17 x y)))
      by (intros x y; unfold normsq, sum3, vec; ring).
    rewrite (box_lin _ _ _ c B P17_cont xx_cont), Hxx. fold J17.
    replace (c * k1^2 * J17 + c * ((J11 - A * J17) / 2)) with (c * (k1^2 * J17 + (J11 - A * J17) / 2)) by ring.
    apply Hside. reflexivity.
Qed.

End Integrals.
