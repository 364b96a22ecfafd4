(** Counterexamples and sufficient conditions for the network lifetime, its
    continuity, and the slopes of the energy spectrum. *)

From Coq Require Import Reals List Lra Lia Psatz ZArith.
From Coquelicot Require Import Coquelicot.
From Verif Require Import Prelude RdtModel RdtProofs SpectraModel SpectraProofs HypSpec HypProofs AsyModel AsySpec AsyProofs AsyMore.
From Verif Require Import OpsModel QuadSpec QuadTensor.
Import ListNotations.
Open Scope R_scope.

(** ** Another activation *)

Definition relu (x : R) : R := Rmax 0 x.
Definition square (x : R) : R := x^2.
Definition wide_net : list weights := [[[1; 0; 0]]; [[1]; [0]; [0]]].
Definition square_env : lifetime_env :=
  LEnv TAUNET 1 1 (fun _ => 1) 0 0 (taunet_forward wide_net [square] 0).

Lemma square_value : forall c, 0 < c -> eddy_lifetime square_env (c * 1) (c * 0) (c * 0) = Ok (Rpower (c + c^2) (-2/3)).
Proof.
  intros c Hc. unfold eddy_lifetime, square_env. cbn [le_type le_net le_T le_L].
  unfold taunet_forward, mlp_forward, wide_net. cbn [map].
  rewrite !Rmult_0_r, !Rmult_0_l, !Rmult_1_r, Rabs_R0, (Rabs_right c) by lra.
  cbn. f_equal. unfold square, vnorm. cbn.
  match goal with |- 1 * (0 + rational 0 (sqrt ?e)) = _ => replace e with ((c + c^2) * (c + c^2)) by ring end.
  assert (0 < c + c^2) by nra.
  rewrite sqrt_square by lra. rewrite rational_nu0, Rabs_right by lra.
  change (c * (c * 1)) with (c^2). ring.
Qed.

Lemma cont_shift_power : forall p, continuity_pt (fun y => Rpower (1 + y) p) 0.
Proof.
  intros p. apply derivable_continuous_pt. apply ex_derive_Reals_0. unfold Rpower. auto_derive. lra.
Qed.

Lemma square_slope : slope_at_infinity (fun c => Rpower (c + c^2) (-2/3)) (-4/3).
Proof.
  exists 1. split; [lra|]. unfold law_at_infinity.
  apply inf_ext with (fun c => Rpower (1 + / c) (-2/3)).
  - intros c Hc. assert (Hi : 0 < / c) by (apply Rinv_0_lt_compat; assumption).
    replace (c + c^2) with ((c * c) * (1 + / c)) by (field; lra).
    rewrite <- (Rpower_mult_distr (c * c)); [|nra|lra].
    rewrite <- (Rpower_mult_distr c c) by assumption. rewrite <- Rpower_plus.
    replace (-2/3 + -2/3) with (-4/3) by field. assert (H := power_gt0 c (-4/3)). field. lra.
  - assert (H := inf_comp _ _ _ inf_inv (cont_shift_power (-2/3))). cbv beta in H.
    rewrite Rplus_0_r, power_one in H. exact H.
Qed.

Lemma any_activation : exists r env Ws acts nu t, is_relu r /\
  le_type env = TAUNET /\ 0 < le_L env /\ 0 < le_T env /\ le_net env = taunet_forward Ws acts nu
  /\ List.Forall (fun f => forall x, continuity_pt f x) acts
  /\ (exists c, taunet_init r (IsInt 1) (SizeInt 1) (ActList (map ActModule acts)) true nu = Ok c
      /\ Forall2 (fun (l : nat * nat) W => has_shape (snd l) (fst l) W) (tc_layers c) Ws)
  /\ along_ray (eddy_lifetime env) 1 0 0 t /\ ~ slope_at_infinity t (-2/3).
Proof.
  exists relu, square_env, wide_net, [square], 0, (fun c => Rpower (c + c^2) (-2/3)).
  repeat split; cbn; try lra; try reflexivity.
  - repeat constructor. intros x. unfold square. apply derivable_continuous_pt. apply ex_derive_Reals_0. auto_derive. trivial.
  - eexists. split; [reflexivity|]. cbn. unfold wide_net. repeat constructor.
  - intros c Hc. apply square_value. assumption.
  - intros H. assert (E := slope_inf_unique _ _ _ H square_slope). lra.
Qed.

(** ** A network whose augmented wave vector vanishes *)

Definition cancel_net : list weights := [[[1; 0; 0]; [0; 1; 0]; [0; 0; 1]]; [[-1; 0; 0]; [0; -1; 0]; [0; 0; -1]]].

Lemma cancel_zero : forall k1 k2 k3, exists a, mlp_forward cancel_net [relu] [Rabs k1; Rabs k2; Rabs k3] = Ok a
  /\ vnorm a = 0.
Proof.
  intros k1 k2 k3. eexists. split; [cbn; reflexivity|].
  assert (H1 := Rabs_pos k1). assert (H2 := Rabs_pos k2). assert (H3 := Rabs_pos k3).
  unfold relu, vnorm. cbn.
  rewrite (Rmax_right 0 (1 * Rabs k1 + (0 * Rabs k2 + (0 * Rabs k3 + 0)))) by lra.
  rewrite (Rmax_right 0 (0 * Rabs k1 + (1 * Rabs k2 + (0 * Rabs k3 + 0)))) by lra.
  rewrite (Rmax_right 0 (0 * Rabs k1 + (0 * Rabs k2 + (1 * Rabs k3 + 0)))) by lra.
  transitivity (sqrt 0); [f_equal; ring|apply sqrt_0].
Qed.

Lemma infinite_lifetime : exists r Ws acts c, is_relu r /\ List.Forall is_relu acts
  /\ taunet_init r (IsInt 1) (SizeInt 3) ActNone true (-1/3) = Ok c /\ tc_acts c = acts
  /\ Forall2 (fun (l : nat * nat) W => has_shape (snd l) (fst l) W) (tc_layers c) Ws
  /\ forall k1 k2 k3, exists a, mlp_forward Ws acts [Rabs k1; Rabs k2; Rabs k3] = Ok a
     /\ rational_x (-1/3) (sqrt (Rsum (map (fun x => x^2) a))) = PInf.
Proof.
  exists relu, cancel_net, [relu]. eexists. split; [intros x; reflexivity|]. split; [repeat constructor|]. split; [reflexivity|]. split; [reflexivity|].
  split; [cbn; repeat constructor|].
  intros k1 k2 k3. destruct (cancel_zero k1 k2 k3) as [a [Ha Hv]]. exists a. split; [assumption|].
  unfold vnorm in Hv. rewrite Hv. apply rational_x_zero. lra.
Qed.

(** ** Small weights *)

Lemma row_norm_nonneg : forall W, 0 <= row_norm W.
Proof. intros W. destruct W as [|r W]; simpl; [lra|]. apply Rle_trans with (2 := Rmax_r _ _).
  induction W as [|r' W IH]; simpl; [lra|]. apply Rle_trans with (2 := Rmax_r _ _). exact IH. Qed.

Lemma row_norm_in : forall W r, In r W -> Rsum (map Rabs r) <= row_norm W.
Proof.
  induction W as [|r' W IH]; intros r H; [destruct H|]. simpl. destruct H as [->|H].
  - apply Rmax_l.
  - apply Rle_trans with (2 := Rmax_r _ _). apply IH. assumption.
Qed.

Lemma dot_bound : forall r x m, (forall y, In y x -> Rabs y <= m) -> 0 <= m -> Rabs (dot r x) <= Rsum (map Rabs r) * m.
Proof.
  induction r as [|a r IH]; intros [|b x] m Hx Hm; simpl.
  - rewrite Rabs_R0. lra.
  - rewrite Rabs_R0. lra.
  - rewrite Rabs_R0. assert (0 <= Rsum (map Rabs r)) by (apply (Rsum_nonneg R Rabs); intros; apply Rabs_pos).
    assert (H1 := Rabs_pos a). nra.
  - apply Rle_trans with (Rabs (a * b) + Rabs (dot r x)); [apply Rabs_triang|].
    rewrite Rabs_mult, Rmult_plus_distr_r. apply Rplus_le_compat.
    + apply Rmult_le_compat_l; [apply Rabs_pos|]. apply Hx. left. reflexivity.
    + apply IH; [|assumption]. intros y Hy. apply Hx. right. assumption.
Qed.

Lemma linear_bound : forall W x y m, linear W x = Ok y -> (forall u, In u x -> Rabs u <= m) -> 0 <= m ->
  forall v, In v y -> Rabs v <= row_norm W * m.
Proof.
  intros W x y m H Hx Hm v Hv. unfold linear in H. destruct (forallb _ W); [|discriminate].
  injection H as <-. apply in_map_iff in Hv. destruct Hv as [r [<- Hr]].
  apply Rle_trans with (Rsum (map Rabs r) * m); [apply dot_bound; assumption|].
  apply Rmult_le_compat_r; [assumption|]. apply row_norm_in. assumption.
Qed.

Lemma relu_bound : forall f v, is_relu f -> Rabs (f v) <= Rabs v.
Proof.
  intros f v Hf. rewrite Hf. destruct (Rle_dec 0 v) as [H|H].
  - rewrite Rmax_right by assumption. lra.
  - rewrite Rmax_left by lra. rewrite Rabs_R0. apply Rabs_pos.
Qed.

Lemma layers_bound : forall Ws acts x y m, List.Forall is_relu acts -> mlp_layers Ws acts x = Ok y ->
  (forall u, In u x -> Rabs u <= m) -> 0 <= m ->
  forall v, In v y -> Rabs v <= fold_right Rmult 1 (map row_norm Ws) * m.
Proof.
  induction Ws as [|W Ws IH]; intros acts x y m Hf H Hx Hm v Hv; [discriminate|].
  destruct Ws as [|W' Ws].
  - simpl. rewrite Rmult_1_r. eapply linear_bound; eassumption.
  - destruct acts as [|f acts]; [discriminate|]. inversion Hf as [|? ? Hf1 Hf2]; subst.
    change (bind (linear W x) (fun y => mlp_layers (W' :: Ws) acts (map f y)) = Ok y) in H.
    destruct (linear W x) as [z|e] eqn:Ez; [|discriminate]. cbn [bind] in H.
    assert (Hz : forall u, In u (map f z) -> Rabs u <= row_norm W * m).
    { intros u Hu. apply in_map_iff in Hu. destruct Hu as [w [<- Hw]].
      apply Rle_trans with (Rabs w); [apply relu_bound; assumption|]. eapply linear_bound; eassumption. }
    assert (B := IH acts (map f z) y (row_norm W * m) Hf2 H Hz ltac:(apply Rmult_le_pos; [apply row_norm_nonneg|assumption]) v Hv).
    change (Rabs v <= row_norm W * fold_right Rmult 1 (map row_norm (W' :: Ws)) * m).
    replace (row_norm W * fold_right Rmult 1 (map row_norm (W' :: Ws)) * m)
      with (fold_right Rmult 1 (map row_norm (W' :: Ws)) * (row_norm W * m)) by ring. exact B.
Qed.

Lemma vadd_in : forall x o a, vadd x o = Ok a -> forall u, In u x -> exists v, In v o /\ In (u + v) a.
Proof.
  induction x as [|b x IH]; intros [|d o] a H u Hu; try discriminate; [destruct Hu|].
  cbn in H. destruct (vadd x o) as [r|e] eqn:E; [|discriminate]. injection H as <-. destruct Hu as [<-|Hu].
  - exists d. split; left; reflexivity.
  - destruct (IH o r E u Hu) as [v [H1 H2]]. exists v. split; right; assumption.
Qed.

Lemma max_abs : forall x : list R, x <> [] -> exists u, In u x /\ forall w, In w x -> Rabs w <= Rabs u.
Proof.
  induction x as [|a x IH]; intros H; [congruence|]. destruct x as [|b x].
  - exists a. split; [left; reflexivity|]. intros w [->|[]]. lra.
  - destruct IH as [u [Hu Hm]]; [discriminate|].
    destruct (Rle_dec (Rabs u) (Rabs a)) as [Hle|Hgt].
    + exists a. split; [left; reflexivity|]. intros w [<-|Hw]; [lra|]. apply Rle_trans with (Rabs u); auto.
    + exists u. split; [right; assumption|]. intros w [<-|Hw]; [lra|auto].
Qed.

Lemma small_weights : forall Ws acts x a, List.Forall is_relu acts -> mlp_forward Ws acts x = Ok a ->
  fold_right Rmult 1 (map row_norm Ws) < 1 -> nonzero_vector x -> nonzero_vector a.
Proof.
  intros Ws acts x a Hf H Hp [x0 [Hx0 Hn]]. unfold mlp_forward in H.
  destruct (mlp_layers Ws acts x) as [o|e] eqn:Eo; [|discriminate]. cbn [bind] in H.
  destruct (max_abs x) as [u [Hu Hm]]; [intros ->; destruct Hx0|].
  assert (Hpos : 0 < Rabs u).
  { apply Rlt_le_trans with (Rabs x0); [apply Rabs_pos_lt; assumption|apply Hm; assumption]. }
  destruct (vadd_in x o a H u Hu) as [v [Hv Hin]].
  assert (B := layers_bound Ws acts x o (Rabs u) Hf Eo Hm ltac:(lra) v Hv).
  exists (u + v). split; [assumption|]. intros E0.
  assert (v = - u) by lra. subst v. rewrite Rabs_Ropp in B. nra.
Qed.

(** ** Continuity *)

Section Cont.
  Variable p : R * R.

  Definition values (xs : list (R * R -> R)) (z : R * R) : list R := map (fun f => f z) xs.

  Lemma dot_cont : forall (r : list R) xs, List.Forall (fun f : R * R -> R => continuous f p) xs ->
    continuous (fun z => dot r (values xs z)) p.
  Proof.
    induction r as [|a r IH]; intros [|x xs] H; simpl; try apply c_const.
    inversion H; subst. apply c_plus; [|apply IH; assumption]. apply c_mult; [apply c_const|assumption].
  Qed.

  Lemma linear_cont : forall W xs, List.Forall (fun f : R * R -> R => continuous f p) xs ->
    (exists e, forall z, linear W (values xs z) = Err e)
    \/ exists ys, List.Forall (fun f : R * R -> R => continuous f p) ys
       /\ forall z, linear W (values xs z) = Ok (values ys z).
  Proof.
    intros W xs H. unfold linear.
    assert (E : forall z, length (values xs z) = length xs) by (intros; unfold values; apply map_length).
    destruct (forallb (fun r => (length r =? length xs)%nat) W) eqn:Ef.
    - right. exists (map (fun r z => dot r (values xs z)) W). split.
      + apply Forall_forall. intros f Hf. apply in_map_iff in Hf. destruct Hf as [r [<- _]]. apply dot_cont. assumption.
      + intros z. rewrite E, Ef. f_equal. unfold values at 2. rewrite map_map. reflexivity.
    - left. exists RuntimeError. intros z. rewrite E, Ef. reflexivity.
  Qed.

  Lemma layers_cont : forall Ws acts xs, List.Forall (fun f => forall x, continuity_pt f x) acts ->
    List.Forall (fun f : R * R -> R => continuous f p) xs ->
    (exists e, forall z, mlp_layers Ws acts (values xs z) = Err e)
    \/ exists ys, List.Forall (fun f : R * R -> R => continuous f p) ys
       /\ forall z, mlp_layers Ws acts (values xs z) = Ok (values ys z).
  Proof.
    induction Ws as [|W Ws IH]; intros acts xs Ha Hx; [left; exists IndexError; reflexivity|].
    destruct Ws as [|W' Ws]; [apply linear_cont; assumption|].
    destruct acts as [|f acts]; [left; exists IndexError; reflexivity|]. inversion Ha as [|? ? Ha1 Ha2]; subst.
    destruct (linear_cont W xs Hx) as [[e He]|[ys [Hy Ey]]].
    - left. exists e. intros z.
      change (bind (linear W (values xs z)) (fun y => mlp_layers (W' :: Ws) acts (map f y)) = Err e). rewrite He. reflexivity.
    - destruct (IH acts (map (fun g z => f (g z)) ys) Ha2) as [[e He]|[zs [Hz Ez]]].
      + apply Forall_forall. intros g Hg. apply in_map_iff in Hg. destruct Hg as [g' [<- Hg']].
        apply c_comp; [|apply Ha1]. rewrite Forall_forall in Hy. apply Hy. assumption.
      + left. exists e. intros z.
        change (bind (linear W (values xs z)) (fun y => mlp_layers (W' :: Ws) acts (map f y)) = Err e).
        rewrite Ey. cbn [bind]. specialize (He z). unfold values in *. rewrite map_map in He |- *. exact He.
      + right. exists zs. split; [assumption|]. intros z.
        change (bind (linear W (values xs z)) (fun y => mlp_layers (W' :: Ws) acts (map f y)) = Ok (values zs z)).
        rewrite Ey. cbn [bind]. rewrite <- Ez. f_equal. unfold values. rewrite !map_map. reflexivity.
  Qed.

  Lemma vadd_cont : forall xs ys, List.Forall (fun f : R * R -> R => continuous f p) xs ->
    List.Forall (fun f : R * R -> R => continuous f p) ys ->
    (exists e, forall z, vadd (values xs z) (values ys z) = Err e)
    \/ exists rs, List.Forall (fun f : R * R -> R => continuous f p) rs
       /\ forall z, vadd (values xs z) (values ys z) = Ok (values rs z).
  Proof.
    induction xs as [|x xs IH]; intros [|y ys] Hx Hy.
    - right. exists []. split; [constructor|reflexivity].
    - left. exists RuntimeError. reflexivity.
    - left. exists RuntimeError. reflexivity.
    - inversion Hx as [|? ? Hx1 Hx2]; inversion Hy as [|? ? Hy1 Hy2]; subst.
      destruct (IH ys Hx2 Hy2) as [[e He]|[rs [Hr Er]]].
      + left. exists e. intros z. cbn. unfold values in He. rewrite He. reflexivity.
      + right. exists ((fun z => x z + y z) :: rs). split; [constructor; [apply c_plus; assumption|assumption]|].
        intros z. cbn. unfold values in Er. rewrite Er. reflexivity.
  Qed.

  Lemma sum_sq_cont : forall rs, List.Forall (fun f : R * R -> R => continuous f p) rs ->
    continuous (fun z => Rsum (map (fun a => a^2) (values rs z))) p.
  Proof.
    induction rs as [|r rs IH]; intros H; simpl; [apply c_const|]. inversion H; subst.
    apply c_plus; [|apply IH; assumption]. apply c_mult; [assumption|]. apply c_mult; [assumption|apply c_const].
  Qed.
End Cont.

Lemma abs_cont : forall x, continuity_pt Rabs x.
Proof. intros x. apply Rcontinuity_abs. Qed.

Lemma network_continuous : forall env Ws acts nu k1 (beta : R -> R -> R),
  le_type env = TAUNET -> le_net env = taunet_forward Ws acts nu ->
  List.Forall (fun f => forall x, continuity_pt f x) acts ->
  (forall k2 k3 a, mlp_forward Ws acts [Rabs (k1 * le_L env); Rabs (k2 * le_L env); Rabs (k3 * le_L env)] = Ok a -> nonzero_vector a) ->
  (forall k2 k3, eddy_lifetime env k1 k2 k3 = Ok (beta k2 k3)) ->
  plane_continuous beta.
Proof.
  intros env Ws acts nu k1 beta Ht Hn Ha Hz Hb. apply plane_cont. intros x y. set (p := (x, y)).
  set (xs := [fun _ : R * R => Rabs (k1 * le_L env); fun z : R * R => Rabs (fst z * le_L env); fun z : R * R => Rabs (snd z * le_L env)]).
  assert (Hxs : List.Forall (fun f : R * R -> R => continuous f p) xs).
  { repeat constructor.
    - apply c_const.
    - apply (c_comp (fun z : R * R => fst z * le_L env) Rabs); [|apply abs_cont].
      apply c_mult; [apply continuous_fst|apply c_const].
    - apply (c_comp (fun z : R * R => snd z * le_L env) Rabs); [|apply abs_cont].
      apply c_mult; [apply continuous_snd|apply c_const]. }
  assert (V : forall z, beta (fst z) (snd z) = le_T env * match mlp_forward Ws acts (values xs z) with Ok a => rational nu (vnorm a) | Err _ => 0 end
              /\ exists a, mlp_forward Ws acts (values xs z) = Ok a).
  { intros z. specialize (Hb (fst z) (snd z)). unfold eddy_lifetime in Hb. rewrite Ht, Hn in Hb. unfold taunet_forward in Hb.
    change (map Rabs [k1 * le_L env; fst z * le_L env; snd z * le_L env]) with (values xs z) in Hb.
    destruct (mlp_forward Ws acts (values xs z)) as [a|e]; [|discriminate]. cbn [bind] in Hb.
    split; [|exists a; reflexivity]. injection Hb as <-. ring. }
  unfold mlp_forward in V.
  destruct (layers_cont p Ws acts xs Ha Hxs) as [[e He]|[ys [Hy Ey]]].
  { exfalso. destruct (V p) as [_ [a Hpa]]. rewrite He in Hpa. discriminate. }
  destruct (vadd_cont p xs ys Hxs Hy) as [[e He]|[rs [Hr Er]]].
  { exfalso. destruct (V p) as [_ [a Hpa]]. rewrite Ey in Hpa. cbn [bind] in Hpa. rewrite He in Hpa. discriminate. }
  assert (B : forall z, beta (fst z) (snd z) = le_T env * rational nu (vnorm (values rs z))).
  { intros z. destruct (V z) as [Hv _]. rewrite Ey in Hv. cbn [bind] in Hv. rewrite Er in Hv. exact Hv. }
  apply (continuous_ext (fun z => le_T env * rational nu (vnorm (values rs z)))); [intros z; symmetry; apply B|].
  assert (Hpos : 0 < vnorm (values rs p)).
  { apply vnorm_pos. apply (Hz x y). unfold mlp_forward.
    change [Rabs (k1 * le_L env); Rabs (x * le_L env); Rabs (y * le_L env)] with (values xs p).
    rewrite Ey. cbn [bind]. apply Er. }
  apply c_mult; [apply c_const|].
  apply (c_comp (fun z => vnorm (values rs z)) (rational nu)).
  - unfold vnorm. apply c_sqrt; [apply sum_sq_cont; assumption|].
    apply Rsum_nonneg. intros. apply pow2_ge_0.
  - set (v := vnorm (values rs p)) in *.
    apply continuity_pt_filterlim.
    apply (continuous_ext_loc _ (fun x => Rpower x (nu - 2/3) / Rpower (1 + x^2) (nu/2))).
    + exists (mkposreal v Hpos). intros w Hw. symmetry. apply rational_product.
      unfold ball in Hw; simpl in Hw; unfold AbsRing_ball, abs, minus, plus, opp in Hw; simpl in Hw. apply Rabs_def2 in Hw. lra.
    + apply (@ex_derive_continuous _ R_NormedModule). unfold Rpower.
      assert (0 < 1 + v^2) by (assert (H := pow2_ge_0 v); lra).
      auto_derive. repeat split; try assumption; try (apply Rgt_not_eq, exp_pos); simpl in *; lra.
Qed.

(** ** Energy spectra *)

Lemma energy_value : forall ph pr k1 k2 k3, 0 < ph_L ph -> 0 < ph_Gamma ph -> 0 < ph_sigma ph ->
  problem_energy ph pr k1 k2 k3
  = Ok (ph_sigma ph * Rpower (ph_L ph) (5/3) * problem_shape ph pr (ph_L ph * wave_number k1 k2 k3)).
Proof.
  intros ph pr k1 k2 k3 HL HG HS. unfold problem_energy.
  destruct (calib_scales (ph_L ph) (ph_Gamma ph) (ph_sigma ph) HL HG HS) as [q [Hq Eq]].
  rewrite Hq. cbn [bind]. rewrite Eq. unfold forward_energy. do 4 f_equal.
  unfold wave_number, kk0_of, k30_of. f_equal. ring.
Qed.

Lemma energy_ray : forall ph pr k1 k2 k3 t, 0 < ph_L ph -> 0 < ph_Gamma ph -> 0 < ph_sigma ph ->
  along_ray (problem_energy ph pr) k1 k2 k3 t ->
  forall c, 0 < c -> t c = ph_sigma ph * Rpower (ph_L ph) (5/3) * problem_shape ph pr (ph_L ph * wave_number k1 k2 k3 * c).
Proof.
  intros ph pr k1 k2 k3 t HL HG HS Hr. apply (ray_value _ _ _ _ _ _ Hr).
  intros c Hc. rewrite energy_value by assumption. do 3 f_equal. rewrite wave_number_kk, wave_scale by lra. ring.
Qed.

Lemma shape_zero : forall f a, law_at_zero f a 1 -> forall s k, 0 < s -> 0 < k -> slope_at_zero (fun c => k * f (s * c)) a.
Proof.
  intros f a H s k Hs Hk. exists (k * (Rpower s a * 1)). split.
  - apply Rmult_lt_0_compat; [assumption|]. rewrite Rmult_1_r. apply power_gt0.
  - apply law_times_zero. apply law_scale_zero; assumption.
Qed.

Lemma shape_inf : forall f a, law_at_infinity f a 1 -> forall s k, 0 < s -> 0 < k -> slope_at_infinity (fun c => k * f (s * c)) a.
Proof.
  intros f a H s k Hs Hk. exists (k * (Rpower s a * 1)). split.
  - apply Rmult_lt_0_compat; [assumption|]. rewrite Rmult_1_r. apply power_gt0.
  - apply law_times_inf. apply law_scale_inf; assumption.
Qed.

Lemma slope_ext_zero : forall f g a, (forall x, 0 < x -> f x = g x) -> slope_at_zero g a -> slope_at_zero f a.
Proof. intros f g a E [c [Hc H]]. exists c. split; [assumption|]. eapply law_ext_zero; eassumption. Qed.

Lemma slope_ext_inf : forall f g a, (forall x, 0 < x -> f x = g x) -> slope_at_infinity g a -> slope_at_infinity f a.
Proof. intros f g a E [c [Hc H]]. exists c. split; [assumption|]. eapply law_ext_inf; eassumption. Qed.

Lemma vklike_product : forall x, 0 < x -> vklike_energy x = Rpower x 4 / Rpower (1 + x^2) (17/6).
Proof. intros x Hx. rewrite vklike_form by assumption. rewrite <- learnable_is_vk by assumption. reflexivity. Qed.

Definition delivered_low (pr : prob_settings) : R := if pr_learnable pr then pr_p pr else 4.
Definition delivered_high (pr : prob_settings) : R := if pr_learnable pr then pr_p pr - 2 * pr_q pr else -5/3.

Lemma shape_laws : forall ph pr, law_at_zero (problem_shape ph pr) (delivered_low pr) 1
  /\ law_at_infinity (problem_shape ph pr) (delivered_high pr) 1.
Proof.
  intros ph pr. unfold problem_shape, delivered_low, delivered_high. destruct (pr_learnable pr).
  - split; [apply product_at_zero|apply product_at_infinity].
  - split.
    + eapply law_ext_zero; [apply vklike_product|]. apply product_at_zero.
    + eapply law_ext_inf; [apply vklike_product|]. replace (-5/3) with (4 - 2 * (17/6)) by field. apply product_at_infinity.
Qed.

Lemma energy_slopes : forall ph pr k1 k2 k3 t, 0 < ph_L ph -> 0 < ph_Gamma ph -> 0 < ph_sigma ph ->
  0 < wave_number k1 k2 k3 -> along_ray (problem_energy ph pr) k1 k2 k3 t ->
  slope_at_zero t (delivered_low pr) /\ slope_at_infinity t (delivered_high pr).
Proof.
  intros ph pr k1 k2 k3 t HL HG HS Hk Hr.
  assert (E := energy_ray ph pr k1 k2 k3 t HL HG HS Hr).
  assert (Hs : 0 < ph_L ph * wave_number k1 k2 k3) by (apply Rmult_lt_0_compat; assumption).
  assert (Hm : 0 < ph_sigma ph * Rpower (ph_L ph) (5/3)) by (apply Rmult_lt_0_compat; [assumption|apply power_gt0]).
  destruct (shape_laws ph pr) as [Z I]. split.
  - eapply slope_ext_zero; [apply E|]. apply shape_zero; assumption.
  - eapply slope_ext_inf; [apply E|]. apply shape_inf; assumption.
Qed.

Lemma default_slopes : forall ph pr k1 k2 k3 t, 0 < ph_L ph -> 0 < ph_Gamma ph -> 0 < ph_sigma ph ->
  0 < wave_number k1 k2 k3 -> pr_learnable pr = false -> along_ray (problem_energy ph pr) k1 k2 k3 t ->
  (slope_at_zero t (ph_alpha_low ph) <-> ph_alpha_low ph = 4)
  /\ (slope_at_infinity t (ph_alpha_high ph) <-> ph_alpha_high ph = -5/3).
Proof.
  intros ph pr k1 k2 k3 t HL HG HS Hk Hl Hr.
  destruct (energy_slopes ph pr k1 k2 k3 t HL HG HS Hk Hr) as [Z I].
  unfold delivered_low, delivered_high in *. rewrite Hl in *. split; split; intros H.
  - eapply slope_zero_unique; eassumption.
  - rewrite H. assumption.
  - eapply slope_inf_unique; eassumption.
  - rewrite H. assumption.
Qed.

Lemma learned_slopes : forall ph pr k1 k2 k3 t, 0 < ph_L ph -> 0 < ph_Gamma ph -> 0 < ph_sigma ph ->
  0 < wave_number k1 k2 k3 -> pr_learnable pr = true -> along_ray (problem_energy ph pr) k1 k2 k3 t ->
  slope_at_zero t (pr_p pr) /\ slope_at_infinity t (pr_p pr - 2 * pr_q pr).
Proof.
  intros ph pr k1 k2 k3 t HL HG HS Hk Hl Hr.
  assert (H := energy_slopes ph pr k1 k2 k3 t HL HG HS Hk Hr). unfold delivered_low, delivered_high in H. rewrite Hl in H. exact H.
Qed.

Lemma ray_exists : forall ph pr, 0 < ph_L ph -> 0 < ph_Gamma ph -> 0 < ph_sigma ph -> forall k1 k2 k3,
  along_ray (problem_energy ph pr) k1 k2 k3
    (fun c => ph_sigma ph * Rpower (ph_L ph) (5/3) * problem_shape ph pr (ph_L ph * wave_number (c*k1) (c*k2) (c*k3))).
Proof. intros ph pr HL HG HS k1 k2 k3 c Hc. apply energy_value; assumption. Qed.

Lemma slopes_ignored : exists ph pr t, 0 < ph_L ph /\ 0 < ph_Gamma ph /\ 0 < ph_sigma ph /\ pr_learnable pr = false
  /\ along_ray (problem_energy ph pr) 1 0 0 t
  /\ ~ slope_at_zero t (ph_alpha_low ph) /\ ~ slope_at_infinity t (ph_alpha_high ph).
Proof.
  set (ph := Phys 1 1 1 2 (-1) 1). set (pr := Prob false 4 (17/6)).
  exists ph, pr. eexists.
  assert (HL : 0 < ph_L ph) by (cbn; lra). assert (HG : 0 < ph_Gamma ph) by (cbn; lra). assert (HS : 0 < ph_sigma ph) by (cbn; lra).
  assert (Hr := ray_exists ph pr HL HG HS 1 0 0).
  assert (Hk : 0 < wave_number 1 0 0) by (unfold wave_number; apply sqrt_lt_R0; lra).
  destruct (default_slopes ph pr 1 0 0 _ HL HG HS Hk eq_refl Hr) as [[Z _] [I _]].
  split; [assumption|]. split; [assumption|]. split; [assumption|]. split; [reflexivity|]. split; [exact Hr|].
  split; intros H; [apply Z in H|apply I in H]; cbn in H; lra.
Qed.

Lemma mann_continuous : forall env k1 (beta : R -> R -> R), le_type env = MANN -> hypergeometric (le_hyp env) ->
  0 < le_L env -> k1 <> 0 -> (forall k2 k3, eddy_lifetime env k1 k2 k3 = Ok (beta k2 k3)) -> plane_continuous beta.
Proof.
  intros env k1 beta Ht Hh HL Hk Hb. apply (lifetime_continuous env k1 beta); try assumption.
  - rewrite Ht. discriminate.
  - intros _ t Hneg. split.
    + apply continuity_pt_filterlim. apply (continuous_ext_loc _ euler_integral).
      * assert (Hp : 0 < - t) by lra. exists (mkposreal (- t) Hp). intros w Hw. symmetry. apply Hh.
        unfold ball in Hw; simpl in Hw; unfold AbsRing_ball, abs, minus, plus, opp in Hw; simpl in Hw. apply Rabs_def2 in Hw. lra.
      * apply continuity_pt_filterlim. apply euler_continuous. assumption.
    + rewrite Hh by assumption. apply euler_pos. lra.
Qed.

Lemma relu_cont : forall x, continuity_pt (Rmax 0) x.
Proof.
  intros x. apply continuity_pt_filterlim. apply (continuous_ext (fun y => (y + Rabs y) / 2)).
  - intros y. destruct (Rle_dec 0 y) as [H|H].
    + rewrite Rmax_right, Rabs_right by lra. lra.
    + rewrite Rmax_left, Rabs_left by lra. lra.
  - apply continuity_pt_filterlim. apply continuity_pt_mult; [|apply continuity_pt_const; intros ? ?; reflexivity].
    apply continuity_pt_plus; [apply continuity_pt_id|apply Rcontinuity_abs].
Qed.

(** ** The network of a problem before training *)

Lemma built_slopes : forall relu p learn c env Ws noise k1 k2 k3 t, is_relu relu ->
  ops_network relu p learn = Ok c -> fold_right Rmult 1 (map row_norm Ws) < 1 ->
  le_type env = TAUNET -> le_net env = taunet_forward Ws (tc_acts c) (tc_nu c + if learn then noise else 0) -> 0 < le_L env -> 0 < le_T env ->
  0 < wave_number k1 k2 k3 -> along_ray (eddy_lifetime env) k1 k2 k3 t ->
  slope_at_zero t (-1 + if learn then noise else 0) /\ slope_at_infinity t (-2/3).
Proof.
  intros relu p learn c env Ws noise k1 k2 k3 t Hr Hc Hw Ht Hn HL HT Hk Ha.
  assert (Hacts : List.Forall is_relu (tc_acts c) /\ tc_nu c = -1/3).
  { unfold ops_network, taunet_init in Hc. destruct (check_n_layers (nlayers p)) as [n|]; [|discriminate]. cbn [bind] in Hc.
    destruct (check_sizes n (SizeInt (hidden_layer_size p))) as [sz|]; [|discriminate]. cbn [bind check_activations] in Hc.
    injection Hc as <-. cbn. split; [|reflexivity]. apply List.Forall_forall. intros x Hx. apply repeat_spec in Hx. subst x. exact Hr. }
  destruct Hacts as [Hacts Hnu]. rewrite Hnu in Hn. set (d := if learn then noise else 0) in *.
  assert (Hm : exists a, mlp_forward Ws (tc_acts c) [Rabs (le_L env * k1); Rabs (le_L env * k2); Rabs (le_L env * k3)] = Ok a).
  { specialize (Ha 1 Rlt_0_1). unfold eddy_lifetime in Ha. rewrite Ht, Hn in Ha. unfold taunet_forward in Ha. cbn [map] in Ha.
    replace (1 * k1 * le_L env) with (le_L env * k1) in Ha by ring. replace (1 * k2 * le_L env) with (le_L env * k2) in Ha by ring.
    replace (1 * k3 * le_L env) with (le_L env * k3) in Ha by ring.
    destruct (mlp_forward Ws (tc_acts c) _) as [a|] eqn:E; [exists a; reflexivity|]. cbn in Ha. discriminate. }
  destruct Hm as [a Hm].
  assert (Hx : nonzero_vector [Rabs (le_L env * k1); Rabs (le_L env * k2); Rabs (le_L env * k3)]).
  { destruct (Req_dec k1 0) as [E1|E1]; [destruct (Req_dec k2 0) as [E2|E2]; [destruct (Req_dec k3 0) as [E3|E3]|]|].
    - exfalso. unfold wave_number in Hk. subst. replace (0^2+0^2+0^2) with 0 in Hk by ring. rewrite sqrt_0 in Hk. lra.
    - exists (Rabs (le_L env * k3)). split; [cbn; tauto|]. apply Rabs_no_R0. apply Rmult_integral_contrapositive; split; lra.
    - exists (Rabs (le_L env * k2)). split; [cbn; tauto|]. apply Rabs_no_R0. apply Rmult_integral_contrapositive; split; lra.
    - exists (Rabs (le_L env * k1)). split; [cbn; tauto|]. apply Rabs_no_R0. apply Rmult_integral_contrapositive; split; lra. }
  assert (Hz := small_weights Ws (tc_acts c) _ a Hacts Hm Hw Hx).
  destruct (net_laws env Ws (tc_acts c) (-1/3 + d) k1 k2 k3 a t Ht Hn Hacts Hm Hz Ha) as [Hi H0].
  replace (-1/3 + d - 2/3) with (-1 + d) in H0 by field.
  split; [exists (le_T env * Rpower (sqrt (Rsum (map (fun x => x^2) a))) (-1 + d)) | exists (le_T env * Rpower (sqrt (Rsum (map (fun x => x^2) a))) (-2/3))];
  (split; [apply Rmult_lt_0_compat; [exact HT | apply exp_pos] | assumption]).
Qed.
