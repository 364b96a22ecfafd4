(** Exact integrals over squares: exchange of the two integrations and the
    integral of a radial function. *)

From Coq Require Import Reals List Lra Lia.
From Coquelicot Require Import Coquelicot.
From Verif Require Import Prelude QuadSpec QuadProofs QuadTensor.
Open Scope R_scope.

Ltac toR := match goal with |- ?a = ?b => change (@eq R a b) end.

Lemma RInt_bounds : forall (f : R -> R) a b a' b', a = a' -> b = b' -> RInt f a b = RInt f a' b'.
Proof. intros; subst; reflexivity. Qed.

Lemma slice_ex_any : forall f a b x, plane_continuous f -> ex_RInt (fun y => f x y) a b.
Proof.
  intros f a b x Hf. apply (@ex_RInt_continuous R_CompleteNormedModule). intros z _.
  apply (cont2_slice f x z). apply Hf.
Qed.

Lemma slice_ex_any' : forall f a b y, plane_continuous f -> ex_RInt (fun x => f x y) a b.
Proof.
  intros f a b y Hf. apply (@ex_RInt_continuous R_CompleteNormedModule). intros z _.
  assert (H := proj1 (plane_cont f) Hf z y).
  apply (continuous_comp_2 (fun x : R => x) (fun _ : R => y) f); [apply continuous_id | apply continuous_const | exact H].
Qed.

Lemma plane_swap : forall f, plane_continuous f -> plane_continuous (fun x y => f y x).
Proof.
  intros f Hf. apply plane_cont. intros x y.
  apply (continuous_comp_2 (fun p : R * R => snd p) (fun p : R * R => fst p) f);
    [apply continuous_snd | apply continuous_fst |].
  exact (proj1 (plane_cont f) Hf y x).
Qed.

(** Continuity of a parameter integral with arbitrary constant bounds. *)
Lemma inner_continuous_any : forall f a b x, plane_continuous f ->
  continuous (fun x => RInt (fun y => f x y) a b) x.
Proof.
  intros f a b x Hf. set (B := Rmax (Rabs a) (Rabs b)).
  assert (HB : 0 <= B) by (unfold B; eapply Rle_trans; [apply (Rabs_pos a) | apply Rmax_l]).
  assert (Hsym : forall c, Rabs c <= B -> continuous (fun x => RInt (fun y => f x y) 0 c) x).
  { intros c Hc.
    set (h := fun x s => / 2 * (c * f x (c * ((s + 1) / 2)))).
    assert (Hh : plane_continuous h).
    { apply plane_cont. intros u v. unfold h. apply c_mult; [apply c_const|]. apply c_mult; [apply c_const|].
      apply (continuous_comp_2 (fun p : R * R => fst p) (fun p : R * R => c * ((snd p + 1) / 2)) f).
      - apply continuous_fst.
      - apply c_mult; [apply c_const|]. apply c_mult; [|apply c_const].
        apply c_plus; [apply continuous_snd | apply c_const].
      - exact (proj1 (plane_cont f) Hf u (c * ((v + 1) / 2))). }
    apply continuous_ext with (fun x => RInt (fun s => h x s) (- (1)) 1).
    - intros z. unfold h.
      replace (RInt (fun y => f z y) 0 c)
        with (RInt (fun y => f z y) (c / 2 * - (1) + c / 2) (c / 2 * 1 + c / 2)) by (apply RInt_bounds; field).
      rewrite <- (RInt_comp_lin (fun y => f z y) (c / 2) (c / 2) (- (1)) 1).
      + apply RInt_ext. intros s _.
        transitivity (c / 2 * f z (c / 2 * s + c / 2)); [|reflexivity].
        replace (c / 2 * s + c / 2) with (c * ((s + 1) / 2)) by field. toR; field.
      + apply slice_ex_any; exact Hf.
    - apply inner_continuous; [lra | exact Hh]. }
  apply continuous_ext with (fun x => RInt (fun y => f x y) 0 b - RInt (fun y => f x y) 0 a).
  - intros z. rewrite <- (RInt_Chasles (fun y => f z y) a 0 b) by (apply slice_ex_any; exact Hf).
    rewrite <- (opp_RInt_swap (fun y => f z y) 0 a) by (apply slice_ex_any; exact Hf).
    unfold plus, opp; simpl. ring.
  - apply (@continuous_minus R_UniformSpace R_AbsRing R_NormedModule); apply Hsym; unfold B; [apply Rmax_r | apply Rmax_l].
Qed.

Lemma is_derive_upper : forall (f : R -> R) a b, (forall x, continuous f x) -> is_derive (fun b => RInt f a b) b (f b).
Proof.
  intros f a b Hf. apply (is_derive_RInt f (fun b => RInt f a b) a b); [|apply Hf].
  exists (mkposreal 1 Rlt_0_1). intros c _. apply (@RInt_correct R_CompleteNormedModule).
  apply (@ex_RInt_continuous R_CompleteNormedModule). intros z _. apply Hf.
Qed.

Lemma slice_cont : forall f x y, plane_continuous f -> continuous (fun t => f x t) y.
Proof. intros f x y Hf. exact (cont2_slice f x y (Hf x y)). Qed.

Lemma slice_cont' : forall f x y, plane_continuous f -> continuous (fun t => f t y) x.
Proof. intros f x y Hf. exact (slice_cont (fun a b => f b a) y x (plane_swap f Hf)). Qed.

(** The order of the two integrations does not matter. *)
Lemma fubini : forall f a b c d, a < b -> plane_continuous f ->
  RInt (fun x => RInt (fun y => f x y) c d) a b = RInt (fun y => RInt (fun x => f x y) a b) c d.
Proof.
  intros f a b c d Hab Hf.
  set (T := fun t => RInt (fun x => RInt (fun y => f x y) c d) a t).
  set (U := fun t => RInt (fun y => RInt (fun x => f x y) a t) c d).
  assert (HT : forall t, is_derive T t (RInt (fun y => f t y) c d)).
  { intros t. apply (is_derive_upper (fun x => RInt (fun y => f x y) c d)).
    intros x. apply inner_continuous_any. exact Hf. }
  assert (HD : forall y t, is_derive (fun u => RInt (fun x => f x y) a u) t (f t y)).
  { intros y t. apply (is_derive_upper (fun x => f x y)). intros x. apply slice_cont'. exact Hf. }
  assert (HU : forall t, is_derive U t (RInt (fun y => f t y) c d)).
  { intros t.
    replace (RInt (fun y => f t y) c d)
      with (RInt (fun y => Derive (fun u => RInt (fun x => f x y) a u) t) c d).
    - apply (is_derive_RInt_param (fun u y => RInt (fun x => f x y) a u) c d t).
      + exists (mkposreal 1 Rlt_0_1). intros u _ y _. exists (f u y). apply HD.
      + intros y _. apply continuity_2d_pt_ext with f; [|apply Hf].
        intros u v. symmetry. apply is_derive_unique. apply HD.
      + exists (mkposreal 1 Rlt_0_1). intros u _.
        apply (@ex_RInt_continuous R_CompleteNormedModule). intros z _.
        apply (inner_continuous_any (fun y x => f x y)). apply plane_swap. exact Hf.
    - apply RInt_ext. intros y _. apply is_derive_unique. apply HD. }
  assert (HE : T a - U a = T b - U b).
  { apply (eq_is_derive (fun t => T t - U t) a b); [|exact Hab].
    intros t _. evar_last.
    - apply @is_derive_minus; [apply HT | apply HU].
    - unfold minus, plus, opp, zero; simpl. ring. }
  assert (HTa : T a = 0) by (unfold T; rewrite RInt_point; reflexivity).
  assert (HUa : U a = 0).
  { unfold U. transitivity (RInt (fun _ : R => 0) c d).
    - apply RInt_ext. intros y _. rewrite RInt_point. reflexivity.
    - rewrite RInt_const. unfold scal; simpl; unfold mult; simpl. ring. }
  change (T b = U b). lra.
Qed.

Lemma box_swap : forall f B, 0 < B -> plane_continuous f -> box_integral f B = box_integral (fun x y => f y x) B.
Proof. intros f B HB Hf. unfold box_integral. apply fubini; [lra | exact Hf]. Qed.

(** ** Radial functions *)

Section Radial.
Variables (phi F : R -> R).
Hypothesis Hphi : forall u, 0 <= u -> continuity_pt phi u.
Hypothesis HF : forall u, 0 <= u -> is_derive F u (phi u).

Lemma radial_plane : plane_continuous (fun x y => phi (x^2 + y^2)).
Proof.
  apply plane_cont. intros x y. apply (c_comp (fun z : R * R => fst z ^ 2 + snd z ^ 2) phi).
  - apply c_plus; apply c_pow; [apply continuous_fst | apply continuous_snd].
  - apply Hphi. simpl. nra.
Qed.

Lemma radial_plane' : plane_continuous (fun b t => 2 * b * phi (b^2 * (1 + t^2))).
Proof.
  apply plane_cont. intros x y. apply c_mult; [apply c_mult; [apply c_const | apply continuous_fst]|].
  apply (c_comp (fun z : R * R => fst z ^ 2 * (1 + snd z ^ 2)) phi).
  - apply c_mult; [apply c_pow; apply continuous_fst|]. apply c_plus; [apply c_const | apply c_pow; apply continuous_snd].
  - apply Hphi. simpl. nra.
Qed.

Let g (b t : R) : R := RInt (fun s => phi (t^2 + s^2)) (- b) b.

Lemma sym_derive : forall (f : R -> R) b, (forall x, continuous f x) ->
  is_derive (fun b => RInt f (- b) b) b (f b + f (- b)).
Proof.
  intros f b Hf.
  assert (Hex : forall c d, ex_RInt f c d).
  { intros c d. apply (@ex_RInt_continuous R_CompleteNormedModule). intros z _. apply Hf. }
  apply (is_derive_ext (fun b => RInt f 0 b - RInt f 0 (- b))).
  - intros t. rewrite <- (RInt_Chasles f (- t) 0 t) by apply Hex.
    rewrite <- (opp_RInt_swap f 0 (- t)) by apply Hex. unfold plus, opp; simpl. ring.
  - evar_last.
    + apply @is_derive_minus; [apply is_derive_upper; exact Hf|].
      apply (is_derive_comp (fun b => RInt f 0 b) Ropp); [apply is_derive_upper; exact Hf|].
      apply (@is_derive_opp R_AbsRing R_NormedModule (fun x => x)). apply is_derive_id.
    + unfold minus, plus, opp, scal; simpl; unfold mult, one; simpl. ring.
Qed.

Lemma g_derive : forall t b, is_derive (fun b => g b t) b (2 * phi (t^2 + b^2)).
Proof.
  intros t b. unfold g. evar_last.
  - apply sym_derive. intros x. apply (slice_cont (fun x y => phi (x^2 + y^2))). exact radial_plane.
  - cbv beta. replace ((- b)^2) with (b^2) by ring. ring.
Qed.

Lemma g_cont : forall b t, continuous (fun t => g b t) t.
Proof. intros b t. unfold g. apply (inner_continuous_any (fun t s => phi (t^2 + s^2))). exact radial_plane. Qed.

Lemma g_even : forall b t, g b (- t) = g b t.
Proof. intros b t. unfold g. apply RInt_ext. intros s _. f_equal. ring. Qed.

Lemma g_plane_derive : plane_continuous (fun u v => Derive (fun z => g z v) u).
Proof.
  intros x y. apply continuity_2d_pt_ext with (fun u v => 2 * phi (v^2 + u^2)).
  - intros u v. symmetry. apply is_derive_unique. apply g_derive.
  - apply (proj2 (plane_cont (fun u v => 2 * phi (v^2 + u^2)))). intros u v.
    apply c_mult; [apply c_const|]. exact (proj1 (plane_cont _) (plane_swap _ radial_plane) u v).
Qed.

Lemma box_derive : forall b,
  is_derive (fun b => box_integral (fun x y => phi (x^2 + y^2)) b) b (4 * RInt (fun s => phi (b^2 + s^2)) (- b) b).
Proof.
  intros b. unfold box_integral.
  assert (Hex : forall y c d, ex_RInt (fun t => g y t) c d).
  { intros y c d. apply (@ex_RInt_continuous R_CompleteNormedModule). intros z _. apply g_cont. }
  assert (H := is_derive_RInt_param_bound_comp (fun y t => g y t) (fun b => - b) (fun b => b) b (- (1)) 1).
  evar_last.
  - apply H.
    + exists (mkposreal 1 Rlt_0_1). intros y _. apply Hex.
    + exists (mkposreal 1 Rlt_0_1). exists (mkposreal 1 Rlt_0_1). intros y _. apply Hex.
    + exists (mkposreal 1 Rlt_0_1). exists (mkposreal 1 Rlt_0_1). intros y _. apply Hex.
    + auto_derive; [exact I | ring].
    + apply @is_derive_id.
    + exists (mkposreal 1 Rlt_0_1). exists (mkposreal 1 Rlt_0_1). intros y _ t _.
      exists (2 * phi (t^2 + y^2)). apply g_derive.
    + intros t _. apply g_plane_derive.
    + exists (mkposreal 1 Rlt_0_1). intros; apply g_plane_derive.
    + exists (mkposreal 1 Rlt_0_1). intros; apply g_plane_derive.
    + apply continuity_pt_filterlim. apply g_cont.
    + apply continuity_pt_filterlim. apply g_cont.
  - cbv beta. rewrite g_even. change (g b b) with (RInt (fun s => phi (b^2 + s^2)) (- b) b).
    replace (RInt (fun t => Derive (fun u => g u t) b) (- b) b) with (2 * RInt (fun s => phi (b^2 + s^2)) (- b) b).
    + ring.
    + transitivity (RInt (fun s => scal 2 (phi (b^2 + s^2))) (- b) b).
      * symmetry. apply (RInt_scal (V := R_CompleteNormedModule)).
        apply (slice_ex_any (fun x y => phi (x^2 + y^2))). exact radial_plane.
      * apply RInt_ext. intros t _. symmetry. replace (b^2 + t^2) with (t^2 + b^2) by ring.
        apply is_derive_unique. apply g_derive.
Qed.

(** Sum over directions: [t] is the slope of the ray. *)
Definition rays (b : R) : R := 2 * RInt (fun t => (F (b^2 * (1 + t^2)) - F 0) / (1 + t^2)) (- (1)) 1.

Lemma ray_derive : forall t b,
  is_derive (fun b => (F (b^2 * (1 + t^2)) - F 0) / (1 + t^2)) b (2 * b * phi (b^2 * (1 + t^2))).
Proof.
  intros t b. assert (Ht : 0 < 1 + t^2) by nra.
  assert (H0 : 0 <= b^2 * (1 + t^2)) by (apply Rmult_le_pos; nra).
  apply (is_derive_ext (fun b => / (1 + t^2) * (F (b^2 * (1 + t^2)) - F 0))); [intros u; toR; field; lra|].
  evar_last.
  - apply (is_derive_scal (fun b => F (b^2 * (1 + t^2)) - F 0) b (/ (1 + t^2))).
    apply @is_derive_minus; [|apply @is_derive_const].
    apply (is_derive_comp F (fun b => b^2 * (1 + t^2)) b (phi (b^2 * (1 + t^2))) (2 * b * (1 + t^2))); [apply HF; exact H0|].
    auto_derive; [exact I | ring].
  - unfold scal, minus, plus, opp, zero; simpl; unfold mult; simpl. field. lra.
Qed.

Lemma ray_cont : forall b t, continuous (fun t => (F (b^2 * (1 + t^2)) - F 0) / (1 + t^2)) t.
Proof.
  intros b t. assert (Ht : 0 < 1 + t^2) by nra.
  assert (Hc : continuous (fun t : R => 1 + t^2) t) by (apply c_plus; [apply c_const | apply c_pow; apply continuous_id]).
  apply c_div; [| exact Hc | lra].
  apply c_minus; [|apply c_const].
  apply (c_comp (fun t => b^2 * (1 + t^2)) F).
  - apply c_mult; [apply c_const | exact Hc].
  - apply continuity_pt_filterlim. apply (@ex_derive_continuous R_AbsRing R_NormedModule).
    exists (phi (b^2 * (1 + t^2))). apply HF. apply Rmult_le_pos; nra.
Qed.

Lemma rays_derive : forall b, is_derive rays b (4 * RInt (fun s => phi (b^2 + s^2)) (- b) b).
Proof.
  intros b. unfold rays. evar_last.
  - apply (is_derive_scal (fun b => RInt (fun t => (F (b^2 * (1 + t^2)) - F 0) / (1 + t^2)) (- (1)) 1) b 2).
    apply (is_derive_RInt_param (fun b t => (F (b^2 * (1 + t^2)) - F 0) / (1 + t^2)) (- (1)) 1 b).
    + exists (mkposreal 1 Rlt_0_1). intros u _ t _. exists (2 * u * phi (u^2 * (1 + t^2))). apply ray_derive.
    + intros t _. apply continuity_2d_pt_ext with (fun b t => 2 * b * phi (b^2 * (1 + t^2))); [|apply radial_plane'].
      intros u v. symmetry. apply is_derive_unique. apply ray_derive.
    + exists (mkposreal 1 Rlt_0_1). intros u _. apply (@ex_RInt_continuous R_CompleteNormedModule). intros z _. apply ray_cont.
  - cbv beta.
    replace (RInt (fun s => phi (b^2 + s^2)) (- b) b) with (RInt (fun t => b * phi (b^2 * (1 + t^2))) (- (1)) 1).
    + transitivity (2 * RInt (fun t => scal 2 (b * phi (b^2 * (1 + t^2)))) (- (1)) 1).
      * f_equal. apply RInt_ext. intros t _. unfold scal; simpl; unfold mult; simpl.
        transitivity (2 * b * phi (b^2 * (1 + t^2))); [apply is_derive_unique; apply ray_derive | simpl; ring].
      * rewrite (RInt_scal (V := R_CompleteNormedModule)).
        -- unfold scal; simpl; unfold mult; simpl. ring.
        -- apply (@ex_RInt_continuous R_CompleteNormedModule). intros z _.
           apply continuous_ext with (fun t => / 2 * (2 * b * phi (b^2 * (1 + t^2)))); [intros; toR; field|].
           apply c_mult; [apply c_const|]. apply (slice_cont (fun b t => 2 * b * phi (b^2 * (1 + t^2)))). exact radial_plane'.
    + replace (RInt (fun s => phi (b^2 + s^2)) (- b) b)
        with (RInt (fun s => phi (b^2 + s^2)) (b * - (1) + 0) (b * 1 + 0)) by (apply RInt_bounds; ring).
      rewrite <- (RInt_comp_lin (fun s => phi (b^2 + s^2)) b 0 (- (1)) 1).
      * apply RInt_ext. intros t _. unfold scal; simpl; unfold mult; simpl. f_equal. f_equal. ring.
      * apply (slice_ex_any (fun x y => phi (x^2 + y^2))). exact radial_plane.
Qed.

Lemma radial_box : forall B, 0 < B -> box_integral (fun x y => phi (x^2 + y^2)) B = rays B.
Proof.
  intros B HB.
  assert (HE : box_integral (fun x y => phi (x^2 + y^2)) 0 - rays 0 = box_integral (fun x y => phi (x^2 + y^2)) B - rays B).
  { apply (eq_is_derive (fun t => box_integral (fun x y => phi (x^2 + y^2)) t - rays t) 0 B); [|exact HB].
    intros t _. evar_last.
    - apply @is_derive_minus; [apply box_derive | apply rays_derive].
    - unfold minus, plus, opp, zero; simpl. ring. }
  assert (H0 : box_integral (fun x y => phi (x^2 + y^2)) 0 = 0).
  { unfold box_integral. rewrite Ropp_0, RInt_point. reflexivity. }
  assert (H1 : rays 0 = 0).
  { unfold rays. transitivity (2 * RInt (fun _ : R => 0) (- (1)) 1).
    - f_equal. apply RInt_ext. intros t _. replace (0^2 * (1 + t^2)) with 0 by ring. toR; unfold Rdiv; ring.
    - rewrite RInt_const. unfold scal; simpl; unfold mult; simpl. ring. }
  lra.
Qed.

End Radial.
